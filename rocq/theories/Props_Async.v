(** Theorems about asynchronous operations. *)
From Coq Require Import String.
From Verif Require Import Base MapModel OpTableModel OpTableSpec OpsModel AsyncModel AsyncSpec AsyncFacts.

(** C59: a program that does not let calls on one stream interfere with those on another ends with the results,
    allocations and memory of the program that waits for every call, however the devices get on with their
    streams; for all builds, allocators, failures and streams. *)
Theorem C59_waiting :
  forall c plat unified device_of host place noise fails current props shared, plat host = PHost ->
  forall l w w' rs, ordinary (a_live w) -> a_pend w = [] ->
    disciplined c plat unified device_of host place noise fails current props shared l w ->
    a_run c plat unified device_of host place noise fails current props shared l w = Ok w' rs -> a_pend w' = [] ->
    exists v, a_run c plat unified device_of host place noise fails current props shared (waiting l) w = Ok v rs /\
      a_live v = a_live w' /\ a_hints v = a_hints w' /\ forall x, a_mem v x = a_mem w' x.
Proof. exact async_waiting. Qed.
Print Assumptions C59_waiting.

(** C59: a copy on a stream that is waited for copies exactly the bytes asked for. *)
Theorem C59_copy :
  forall c plat unified device_of host place noise fails current props shared d s n x w rs rd,
    ordinary (a_live w) -> a_pend w = [] -> holds (a_live w) s rs -> holds (a_live w) d rd ->
    0 <= n -> d + asked rs s n <= r_ptr rd + r_size rd -> ~ meet (d, asked rs s n) (s, asked rs s n) ->
    copyable c (plat (r_strat rs)) (plat (r_strat rd)) -> proper x (plat (r_strat rs)) -> proper x (plat (r_strat rd)) ->
    fails (a_calls w) = false ->
    exists w', a_run c plat unified device_of host place noise fails current props shared
                 [ACopy d s n (Some x); AWait (cx_stream x)] w = Ok w' [inl 0] /\
      copied (a_mem w) (a_mem w') d s (asked rs s n) /\ a_live w' = a_live w /\ a_pend w' = [].
Proof. exact async_copy. Qed.
Print Assumptions C59_copy.

(** C59: a copy that is too long, or on a resource of another vendor, or that the vendor refuses, does nothing. *)
Theorem C59_copy_refused :
  forall c plat unified device_of host place noise fails current props shared d s n x w rs rd,
    ordinary (a_live w) -> holds (a_live w) s rs -> holds (a_live w) d rd ->
    0 <= n -> copyable c (plat (r_strat rs)) (plat (r_strat rd)) ->
    (r_ptr rd + r_size rd < d + asked rs s n ->
       a_do c plat unified device_of host place noise fails current props shared (ACopy d s n (Some x)) w = Throw w RuntimeError) /\
    (d + asked rs s n <= r_ptr rd + r_size rd -> ~ (proper x (plat (r_strat rs)) /\ proper x (plat (r_strat rd))) ->
       a_do c plat unified device_of host place noise fails current props shared (ACopy d s n (Some x)) w = Throw w ResourceError) /\
    (d + asked rs s n <= r_ptr rd + r_size rd -> proper x (plat (r_strat rs)) -> proper x (plat (r_strat rd)) ->
       plat (r_strat rs) = PCuda \/ plat (r_strat rd) = PCuda \/ plat (r_strat rs) = PHip \/ plat (r_strat rd) = PHip ->
       fails (a_calls w) = true ->
       exists w', a_do c plat unified device_of host place noise fails current props shared (ACopy d s n (Some x)) w
                  = Throw w' RuntimeError /\ a_mem w' = a_mem w /\ a_live w' = a_live w /\ a_pend w' = a_pend w).
Proof. exact async_copy_refused. Qed.
Print Assumptions C59_copy_refused.

(** C59: likewise for memset. *)
Theorem C59_memset :
  forall c plat unified device_of host place noise fails current props shared p v n x w r,
    ordinary (a_live w) -> a_pend w = [] -> holds (a_live w) p r ->
    0 <= n -> p + asked r p n <= r_ptr r + r_size r ->
    enabled c (plat (r_strat r)) = true -> proper x (plat (r_strat r)) -> fails (a_calls w) = false ->
    exists w', a_run c plat unified device_of host place noise fails current props shared
                 [AMemset p v n (Some x); AWait (cx_stream x)] w = Ok w' [inl 0] /\
      filled (a_mem w) (a_mem w') p v (asked r p n) /\ a_live w' = a_live w /\ a_pend w' = [].
Proof. exact async_memset. Qed.
Print Assumptions C59_memset.

Theorem C59_memset_refused :
  forall c plat unified device_of host place noise fails current props shared p v n x w r,
    ordinary (a_live w) -> holds (a_live w) p r -> 0 <= n -> enabled c (plat (r_strat r)) = true ->
    (r_ptr r + r_size r < p + asked r p n ->
       a_do c plat unified device_of host place noise fails current props shared (AMemset p v n (Some x)) w = Throw w RuntimeError) /\
    (p + asked r p n <= r_ptr r + r_size r -> ~ proper x (plat (r_strat r)) ->
       a_do c plat unified device_of host place noise fails current props shared (AMemset p v n (Some x)) w = Throw w ResourceError).
Proof. exact async_memset_refused. Qed.
Print Assumptions C59_memset_refused.

(** C59: prefetching asks for memory of the allocation only, of unified memory only, and writes nothing itself. *)
Theorem C59_prefetch :
  forall c plat unified device_of host place noise fails current props shared p dev x w w' z,
    ordinary (a_live w) ->
    a_do c plat unified device_of host place noise fails current props shared (APrefetch p dev x) w = Ok w' z ->
    exists r, holds (a_live w) p r /\ unified (r_strat r) = true /\ a_live w' = a_live w /\
      (a_mem w' = a_mem w \/ a_mem w' = a_mem (a_wait (cx_stream x) w)) /\
      (a_hints w' = a_hints w \/ a_hints w' = (p, r_ptr r + r_size r - p, dev) :: a_hints w).
Proof. exact async_prefetch. Qed.
Print Assumptions C59_prefetch.

(** C59: reallocation of memory of CUDA or HIP on a stream keeps the contents if the program waits for the stream
    at once and nobody writes to the old memory, which has been given back, until then.  Missing: any other activity
    in between, for which it is false (below). *)
Theorem C59_reallocate_partial :
  forall c plat unified device_of host place noise fails current props shared dflt p n x w r q,
    ordinary (a_live w) -> a_pend w = [] -> In r (a_live w) -> r_ptr r = p -> 0 < n ->
    plat (r_strat r) = PCuda \/ plat (r_strat r) = PHip -> enabled c (plat (r_strat r)) = true ->
    proper x (plat (r_strat r)) -> place (a_calls w) (r_strat r) n = Some q -> room place w (a_live w) (r_strat r) n ->
    (forall k y b, noise k y b = b) -> fails (S (a_calls w)) = false ->
    exists w', a_run c plat unified device_of host place noise fails current props shared
                 [AReallocate dflt p n (Some x); AWait (cx_stream x)] w = Ok w' [inl q] /\
      copied (a_mem w) (a_mem w') q p (Z.min (r_size r) n) /\
      a_live w' = mkRec q n (r_strat r) 0 :: filter (fun r' => negb (r_ptr r' =? p)) (a_live w).
Proof. exact async_reallocate. Qed.
Print Assumptions C59_reallocate_partial.

(** C59: reallocation of an address inside an allocation, or outside all of them, does nothing, whatever the new size. *)
Theorem C59_reallocate_refused :
  forall c plat unified device_of host place noise fails current props shared dflt p n cx w, ordinary (a_live w) -> p <> 0 ->
    (forall r, holds (a_live w) p r -> p <> r_ptr r ->
       a_do c plat unified device_of host place noise fails current props shared (AReallocate dflt p n cx) w = Throw w RuntimeError) /\
    ((forall r, ~ holds (a_live w) p r) ->
       a_do c plat unified device_of host place noise fails current props shared (AReallocate dflt p n cx) w = Throw w UnknownPointer).
Proof. exact async_reallocate_refused. Qed.
Print Assumptions C59_reallocate_refused.

(** ** A machine with a GPU and an OpenMP device *)

Definition ex_c := mkOpconfig false true false false true false.
Definition ex_plat (i : Z) : platform := if i =? 1 then PCuda else if i =? 2 then POmp else PHost.
Definition ex_place (at_ : list (nat * Z)) (k : nat) (i n : Z) : option Z :=
  match find (fun y => Nat.eqb (fst y) k) at_ with Some y => Some (snd y) | None => None end.
Definition ex_run at_ (fails : nat -> bool) :=
  a_run ex_c ex_plat (fun _ => true) (fun _ => 0) 0 (ex_place at_) (fun _ _ b => b) fails 0 (fun _ => Some true) (fun _ => true).
Definition ex_s1 := mkCtx PCuda 1.
Definition ex_s2 := mkCtx PCuda 2.
Definition ex_w (i : Z) (m : mem) : aworld :=
  mkA [mkRec 1000 16 i 0; mkRec 2000 16 1 0; mkRec 3000 16 1 0] m [] [] 0.
Definition ex_mem : mem := fun x => x mod 256.

(** Two streams at work at the same time. *)
Definition ex_prog : list aop :=
  [ACopy 2000 1000 8 (Some ex_s1); AMemset 3000 7 0 (Some ex_s2); ACopy 1008 2000 4 (Some ex_s1);
   AStep 2; APrefetch 2004 0 ex_s2; AStep 1; AWait 1].

Ltac next := match goal with |- match ?t with _ => _ end => let t' := eval lazy -[run_effect mem_copy mem_fill] in t in change t with t' end; cbv iota.
Ltac see := unfold ex_w, careful, holds, others, conflict, asked, meet in *; cbn [a_live a_pend] in *; intros;
  repeat match goal with
         | H : _ /\ _ |- _ => destruct H
         | H : ex _ |- _ => destruct H
         | H : In _ _ |- _ => cbn [In] in H
         | H : _ \/ _ |- _ => destruct H
         | H : False |- _ => destruct H
         | H : (_, _) = (_, _) |- _ => injection H as <- <-
         | H : mkRec _ _ _ _ = _ |- _ => subst
         end; cbn [r_ptr r_size writes reads fst snd stream cx_stream ex_s1 ex_s2 Z.eqb] in *.

Lemma ex_disciplined : forall m,
  disciplined ex_c ex_plat (fun _ => true) (fun _ => 0) 0 (ex_place []) (fun _ _ b => b) (fun _ => false) 0
    (fun _ => Some true) (fun _ => true) ex_prog (ex_w 1 m).
Proof.
  intros m. unfold ex_prog. cbn [disciplined].
  split; [split; [lia|]; intros r Hr; split; [see; lia|]; intros e He Hc; see; lia|]. next.
  split; [split; [lia|]; intros r Hr e He Hc; see; lia|]. next.
  split; [split; [lia|]; intros r Hr; split; [see; lia|]; intros e He Hc; see; try congruence; lia|]. next.
  split; [exact I|]. next. split; [exact I|]. next. split; [exact I|]. next. split; exact I.
Qed.

Example C59_case :
  ordinary (a_live (ex_w 1 ex_mem)) /\
  disciplined ex_c ex_plat (fun _ => true) (fun _ => 0) 0 (ex_place []) (fun _ _ b => b) (fun _ => false) 0
    (fun _ => Some true) (fun _ => true) ex_prog (ex_w 1 ex_mem) /\
  match ex_run [] (fun _ => false) ex_prog (ex_w 1 ex_mem) with
  | Ok w' rs => rs = [inl 0; inl 0; inl 0; inl 0] /\ a_pend w' = [] /\ a_mem w' 2003 = 1003 mod 256 /\ a_mem w' 1010 = 1002 mod 256 /\
                a_mem w' 3015 = 7 /\ a_hints w' = [(2004, 12, 0)]
  | _ => False
  end.
Proof.
  split; [|split].
  - split; [|split].
    + intros r [<-|[<-|[<-|[]]]]; cbn [r_ptr r_size]; unfold ASP; lia.
    + cbn. repeat constructor; cbn; lia.
    + intros r1 r2 [<-|[<-|[<-|[]]]] [<-|[<-|[<-|[]]]]; cbn [r_ptr r_size]; auto; right; lia.
  - apply ex_disciplined.
  - vm_compute. repeat split; reflexivity.
Qed.

(** Addresses that are not the start of an allocation. *)
Example C59_refused_case :
  holds (a_live (ex_w 1 ex_mem)) 1004 (mkRec 1000 16 1 0) /\ (forall r, ~ holds (a_live (ex_w 1 ex_mem)) 1016 r) /\
  ex_run [] (fun _ => false) [AReallocate 0 1004 0 (Some ex_s1); AReallocate 0 1016 8 None] (ex_w 1 ex_mem) =
    Ok (ex_w 1 ex_mem) [inr RuntimeError; inr UnknownPointer].
Proof.
  split; [split; [now left|right; cbn; lia]|]. split; [|reflexivity].
  intros r [[<-|[<-|[<-|[]]]] H]; cbn in H; lia.
Qed.

(** Calls that meet the conditions of the theorems about single calls, and one that is too long. *)
Example C59_case_calls :
  let w := ex_w 1 ex_mem in
  holds (a_live w) 1004 (mkRec 1000 16 1 0) /\ holds (a_live w) 2000 (mkRec 2000 16 1 0) /\
  asked (mkRec 1000 16 1 0) 1004 0 = 12 /\ 2000 + 12 <= 2000 + 16 /\ ~ meet (2000, 12) (1004, 12) /\
  copyable ex_c (ex_plat 1) (ex_plat 1) /\ proper ex_s1 (ex_plat 1) /\ ~ proper (mkCtx PHip 1) (ex_plat 1) /\
  2000 + 16 < 2004 + asked (mkRec 1000 16 1 0) 1000 0 /\
  room (ex_place [(0%nat, 4000)]) w (a_live w) 1 32 /\ ex_place [(0%nat, 4000)] (a_calls w) 1 32 = Some 4000.
Proof.
  cbv zeta. unfold holds, asked, copyable, proper, room, ex_w, ex_place, ex_plat; cbn [a_live a_calls cx_platform ex_s1 r_ptr r_size].
  split; [split; [left; reflexivity|lia]|]. split; [split; [right; left; reflexivity|lia]|].
  split; [reflexivity|]. split; [lia|]. split; [intros [x Hx]; cbn [fst snd] in Hx; lia|].
  split; [split; [reflexivity|]; split; [reflexivity|]; left; reflexivity|].
  split; [intros _; reflexivity|]. split; [intros H; specialize (H (or_introl eq_refl)); discriminate H|].
  split; [reflexivity|]. split; [|reflexivity].
  cbn. intros q [= <-]. split; [reflexivity|]. split; [unfold ASP; lia|].
  split; [intros [H|[H|[H|[]]]]; discriminate H|].
  intros r [<-|[<-|[<-|[]]]]; cbn [r_ptr r_size]; lia.
Qed.

(** "Reallocation on a stream keeps the contents" is false: the old memory is given back while the copy is queued, a
    pool gives it to the next allocation, and a memset of that on another stream may come first. *)
Definition ex_loss : list aop :=
  [AReallocate 0 1000 32 (Some ex_s1); AAllocate 1 16; AMemset 1000 0 0 (Some ex_s2); AStep 2; AStep 1].
Theorem C59_reallocate_refuted :
  exists at_,
    match ex_run at_ (fun _ => false) ex_loss (ex_w 1 ex_mem), ex_run at_ (fun _ => false) (waiting ex_loss) (ex_w 1 ex_mem) with
    | Ok w' rs, Ok v rs' =>
        rs = [inl 4000; inl 1000; inl 0] /\ rs' = rs /\ a_pend w' = [] /\ a_live v = a_live w' /\
        ex_mem 1000 = 232 /\ a_mem v 4000 = 232 /\ a_mem w' 4000 = 0
    | _, _ => False
    end.
Proof. exists [(0%nat, 4000); (3%nat, 1000)]. vm_compute. repeat split; reflexivity. Qed.
Print Assumptions C59_reallocate_refuted.

(** "A reallocation that fails leaves everything as it was" is false: with a resource of another vendor the new memory
    is lost. *)
Theorem C59_leak_refuted :
  match ex_run [(0%nat, 4000)] (fun _ => false) [AReallocate 0 1000 32 (Some (mkCtx PHost 0))] (ex_w 1 ex_mem) with
  | Ok w' rs => rs = [inr ResourceError] /\ a_live w' = mkRec 4000 32 1 0 :: a_live (ex_w 1 ex_mem)
  | _ => False
  end.
Proof. vm_compute. split; reflexivity. Qed.
Print Assumptions C59_leak_refuted.

(** "A copy that returns has copied" is false of OpenMP devices: the error of omp_target_memcpy is ignored. *)
Theorem C59_openmp_refuted :
  match ex_run [] (fun _ => true) [ACopy 2000 1000 8 None] (mkA [mkRec 1000 16 2 0; mkRec 2000 16 2 0] ex_mem [] [] 0) with
  | Ok w' rs => rs = [inl 0] /\ a_mem w' 2003 = ex_mem 2003 /\ ex_mem 2003 <> ex_mem 1003
  | _ => False
  end.
Proof. vm_compute. repeat split; try reflexivity. discriminate. Qed.
Print Assumptions C59_openmp_refuted.
