(** Properties C57 and C58: recorded programs, replayed, and the histogram of sizes. *)
From Coq Require Import String.
From Verif Require Import Base BaseFacts ReplayModel ReplaySpec ReplayFacts.
Local Open Scope string_scope.
Local Open Scope Z_scope.

(** The tool compiles the events of every program of the kind described by [program], whatever the rest of
    their text looks like.  Running the result, for the first time or again, repeats the calls of the
    program on the corresponding allocators and allocations; if the library throws, an initial part.
    Missing: the programs that [program] leaves out (see the refutations). *)
Theorem C57_replay_partial : forall dump_s dump_n H times, program H ->
  exists cs, build (file_size dump_s dump_n (records H) times) (records H) = Ok cs tt /\
    forall W (lib : rcall -> W -> outcome W Z) ptrs w, orderly lib -> ptrs 0 = None ->
      (exists rs f, run_all lib cs ptrs w = Ok rs tt /\ mirrors H (r_log rs) f) \/
      (exists rs e H1 H0 f, run_all lib cs ptrs w = Throw rs e /\ H = (H1 ++ H0)%list /\ mirrors H0 (r_log rs) f).
Proof. exact replay_mirrors. Qed.
Print Assumptions C57_replay_partial.

(** The same allocations are live at the end. *)
Theorem C57_live : forall H L f, mirrors H L f -> forall r p, f r p <> None <-> holds H r p = true.
Proof. exact mirrors_live. Qed.
Print Assumptions C57_live.

(** The lines of a log are long enough for the room the tool takes for each. *)
Theorem C57_room : forall dump_s dump_n l times,
  OPSIZE * Z.of_nat (List.length l) <= file_size dump_s dump_n l times.
Proof. exact file_long. Qed.
Print Assumptions C57_room.

(** A resource, a pool, a reallocation that moves and one of null, a stray deallocation. *)
Definition prog : list pcall :=
  [PFree 0x7000 0x99; PFree 0x7000 0x340; PCoalesce "pool";
   PRealloc 0x7000 0 24 [PAlloc 0x7000 24 0x360] (Some 0x360);
   PRealloc 0x7000 0x300 64 [PFree 0x7000 0x300; PCopy; PAlloc 0x7000 64 0x340] (Some 0x340);
   PDefault 0x7000; PAlloc 0x7000 16 0x300; PAlloc 0x5000 16 0x300;
   PMake 0x7000 "pool" "QuickPool" "HOST" true [AN 1024; AN 512; AN 16; AS "percent_releasable_hwm(100)"];
   PMakeRes 0x5000 "HOST"; PMeta "version"].
(** Pointers one after the other. *)
Definition counting : rcall -> Z -> outcome Z Z := fun _ w => Ok (w + 16) w.
Definition log_of (o : outcome (@rstate Z) unit) : option (list (rcall * Z)) :=
  match o with Ok rs _ => Some (r_log rs) | _ => None end.
Definition replay (H : list pcall) : option (list (rcall * Z)) :=
  match build 100000 (records H) with Ok cs _ => log_of (run_all counting cs fempty 0x100) | _ => None end.

Example C57_case : program prog.
Proof.
  assert (N : forall s, "pool" <> s ++ "_base").
  { intros s E. assert (X := f_equal String.length E). rewrite ReplayFacts.length_app in X. cbn in X.
    destruct s as [|? [|? s]]; cbn in *; try lia. }
  unfold prog. cbn [program may_follow]. repeat match goal with |- _ /\ _ => split end; try exact I.
  all: try (vm_compute; first [reflexivity | discriminate | intros X; discriminate X]).
  - exists [AN 1024; AN 512; AN 16]. apply (pa_pool_h "QuickPool" [AN 1024; AN 512; AN 16]).
    + left. reflexivity.
    + reflexivity.
    + repeat constructor; cbn; lia.
    + intros a E. injection E as <-. cbn. lia.
  - right. split; [lia | reflexivity].
  - right. reflexivity.
  - repeat constructor.
  - left. reflexivity.
  - right. reflexivity.
  - repeat constructor.
  - exact N.
  - cbn. tauto.
  - intros k cls E. vm_compute in E. injection E as <- <-. left. reflexivity.
Qed.

Example C57_case_replayed : replay prog = Some
  [(RFree 1 0x150, 0x180); (RCoalesce 1, 0x170); (RRealloc 1 0 24, 0x160); (RRealloc 1 0x130 64, 0x150);
   (RDefault 1, 0x140); (RAlloc 1 16, 0x130); (RAlloc 0 16, 0x120);
   (RCreate 1 "QuickPool" "pool" "HOST" true [AN 1024; AN 512; AN 16], 0x110); (RCreate 0 "" "HOST" "" true [], 0x100)].
Proof. vm_compute. reflexivity. Qed.

(** Refuted: a program that fills memory, or names an allocation, cannot be replayed. *)
Theorem C57_memset_refuted : forall fsize, build fsize (records [PMemset]) = Abort /\
  exists r name n q, build fsize (records [PNamed r name n q]) = Abort.
Proof. intros fsize. split; [reflexivity|]. exists 1, "a", 8, 16. reflexivity. Qed.
Print Assumptions C57_memset_refuted.

(** Refuted: after a reallocation that throws the tool drops the allocations and deallocations that
    follow.  Here one of 77 bytes, although everything the library is asked for succeeds. *)
Theorem C57_failed_reallocate_refuted : exists L,
  replay [PAlloc 1 77 0x400; PRealloc 1 0x300 64 [] None; PAlloc 1 16 0x300; PMakeRes 1 "HOST"] = Some L /\
  forall k q, ~ In (RAlloc k 77, q) L.
Proof. eexists. split; [vm_compute; reflexivity|]. cbn. intros k q [E|[E|[]]]; discriminate E. Qed.
Print Assumptions C57_failed_reallocate_refuted.

(** Refuted: so is an allocation another thread makes during a reallocation. *)
Theorem C57_other_thread_refuted : exists L,
  replay [PRealloc 1 0x300 64 [PFree 1 0x300; PAlloc 2 77 0x400; PAlloc 1 64 0x500] (Some 0x500);
          PAlloc 1 16 0x300; PMake 2 "limited" "SizeLimiter" "HOST" true [AN 100]; PMakeRes 1 "HOST"] = Some L /\
  forall k q, ~ In (RAlloc k 77, q) L.
Proof. eexists. split; [vm_compute; reflexivity|]. cbn. intros k q [E|[E|[E|[E|[]]]]]; discriminate E. Qed.
Print Assumptions C57_other_thread_refuted.

(** Refuted: a pool that coalesces during a reallocation (as [reallocate(p, 0)] may) overwrites the
    operation; what is compiled stops the tool when run. *)
Theorem C57_coalesce_refuted : exists cs,
  build 100000 (records [PRealloc 2 0x300 0 [PCoalesce "pool"; PFree 2 0x300; PAlloc 2 0 0x400] (Some 0x400);
                         PAlloc 2 16 0x300; PMake 2 "pool" "QuickPool" "HOST" true []; PMakeRes 1 "HOST"]) = Ok cs tt /\
  run_all counting cs fempty 0x100 = Abort.
Proof. eexists. split; vm_compute; reflexivity. Qed.
Print Assumptions C57_coalesce_refuted.

(** Refuted: coalescing the pool "a_base" is replayed as coalescing "a". *)
Theorem C57_base_refuted : exists L, 
  replay [PCoalesce "a_base"; PMake 3 "a_base" "QuickPool" "HOST" true []; PMake 2 "a" "QuickPool" "HOST" true [];
          PMakeRes 1 "HOST"] = Some L /\ exists q, In (RCoalesce 1, q) L.
Proof. eexists. split; [vm_compute; reflexivity|]. eexists. left. reflexivity. Qed.
Print Assumptions C57_base_refuted.

(** Refuted: an AllocationAdvisor for device -1 (the host, in CUDA), and classes the tool does not know. *)
Theorem C57_class_refuted : forall fsize, 144 <= fsize ->
  build fsize (records [PMake 2 "a" "AllocationAdvisor" "UM" true [AS "PREFERRED_LOCATION"; AS "HOST"; AN (-1)];
                        PMakeRes 1 "UM"]) = Abort /\
  build fsize (records [PMake 2 "a" "AlignedAllocator" "HOST" true [AN 64]; PMakeRes 1 "HOST"]) = Abort.
Proof.
  intros fsize Hf.
  assert (E : forall name, exists st, build fsize (records [PMakeRes 1 name]) = Ok st tt \/ fits name = false).
  { intros name. destruct (fits name) eqn:F; [|exists c_init; tauto].
    destruct (build_inv fsize [PMakeRes 1 name]) as (st & idx & E & _).
    - cbn. unfold short. unfold fits, max_name_length in F. repeat split; try reflexivity; lia.
    - cbn. unfold OPSIZE. lia.
    - exists st. tauto. }
  unfold build in *. split.
  - destruct (E "UM") as (st & [Es|F]); [|discriminate F]. rewrite records_cons, compile_app, Es. reflexivity.
  - destruct (E "HOST") as (st & [Es|F]); [|discriminate F]. rewrite records_cons, compile_app, Es. reflexivity.
Qed.
Print Assumptions C57_class_refuted.

(** Refuted: statistics of a compiled file that was run before read through pointers of that run. *)
Theorem C57_statistics_refuted : exists cs, 
  build 100000 (records [PMake 2 "a" "SizeLimiter" "HOST" true [AN 64]; PMakeRes 1 "HOST"]) = Ok cs tt /\
  run_stats counting cs true 1 2 {| r_lib := 0; r_made := fempty; r_ptrs := fempty; r_log := [] |} = UB /\
  exists rs, run_stats counting cs false 1 2 {| r_lib := 0; r_made := fempty; r_ptrs := fempty; r_log := [] |} = Ok rs tt.
Proof.
  eexists. split; [vm_compute; reflexivity|]. split; [vm_compute; reflexivity|]. eexists. vm_compute. reflexivity.
Qed.
Print Assumptions C57_statistics_refuted.

(** ** C58 *)

(** The table lookup is the logarithm, for all sizes but 0. *)
Theorem C58_log2 : forall n, 0 < n < 2 ^ 64 -> log2_64 n = Z.log2 n.
Proof. exact log2_64_ok. Qed.
Print Assumptions C58_log2.

(** Each bucket counts the allocations of sizes from [2^k] below [2^(k+1)] now live, and the most there were. *)
Theorem C58_buckets : forall l, balanced l -> Z.of_nat (List.length l) < 2 ^ 64 -> forall k, 0 <= k < 64 ->
  t_cur (bucket (hrun l) k) = in_class (2 ^ k) (2 ^ (k + 1)) l /\
  t_hwm (bucket (hrun l) k) = most (2 ^ k) (2 ^ (k + 1)) l.
Proof. exact histogram_buckets. Qed.
Print Assumptions C58_buckets.

(** The totals are right. *)
Theorem C58_totals : forall l, balanced l -> Z.of_nat (List.length l) < 2 ^ 64 ->
  h_allocs (hrun l) = nallocs l /\ h_frees (hrun l) = nfrees l /\ h_largest (hrun l) = largest l /\
  h_count (hrun l) = nallocs l - nfrees l.
Proof. exact histogram_totals. Qed.
Print Assumptions C58_totals.

Example C58_case : let l := [HAlloc 1025; HFree 1024; HAlloc 2047; HAlloc 1024; HAlloc (2 ^ 63)] in
  balanced l /\ map (fun k => t_hwm (bucket (hrun l) k)) [9; 10; 11; 63] = [0; 2; 0; 1].
Proof. cbv zeta. split; [cbn; lia | vm_compute; reflexivity]. Qed.

(** Refuted: an allocation of no bytes counts among those of 2^63 and more. *)
Theorem C58_zero_refuted : t_cur (bucket (hrun [HAlloc 0]) 63) = 1 /\ in_class (2 ^ 63) (2 ^ 64) [HAlloc 0] = 0.
Proof. split; vm_compute; reflexivity. Qed.
Print Assumptions C58_zero_refuted.

(** Refuted: reallocations are not counted (ReplayOperationManager.cpp:189-191), so the deallocation of a
    reallocated block wraps the counter; the next allocation of its class goes unnoticed. *)
Theorem C58_reallocate_refuted : exists n, t_cur (bucket (hrun [HFree n]) (Z.log2 n)) = 2 ^ 64 - 1 /\
  t_hwm (bucket (hrun [HAlloc n; HFree n]) (Z.log2 n)) = 0.
Proof. exists 64. split; vm_compute; reflexivity. Qed.
Print Assumptions C58_reallocate_refuted.
