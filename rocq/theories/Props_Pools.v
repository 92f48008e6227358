(** Properties C19, C20 (FixedPool) and C21 (FixedMallocPool).  Histories: [runs]
    (StratSpec.v) and [fmhist] (FixedMallocPoolModel.v). *)
From Verif Require Import Base HeapModel HeapFacts StratModel StratSpec StratThms StratRun FixedPoolModel FixedPoolThms
  FixedMallocPoolModel FixedMallocPoolFacts FixedMallocPoolRun QuickPoolRun.

(** C19: a live allocation is a slot, of [obj] bytes, of one of the blocks held from the
    parent, and no two overlap (requests of at most [obj] bytes, as the code asserts). *)
Theorem C19_fixed_pool_slots :
  forall obj per fuel (W : Type) (P : Parent W) limP Inv, ParentSpec P limP Inv ->
  0 < obj -> (0 < per)%nat -> obj * Z.of_nat per <= limP -> limP < M64 ->
  forall t sw, runs (FixedPool obj per fuel) P Inv t sw -> (forall n, In n (requests t) -> n <= obj) ->
    exists L, Inv (snd sw) L /\ Z.of_nat (length L) = fx_num_pools (fst sw) /\
      (forall l, In l L -> snd l = obj * Z.of_nat per) /\
      good (map (fun r => (fst r, obj)) (live t)) /\
      forall r, In r (live t) -> snd r <= obj /\
        exists b i, In (b, obj * Z.of_nat per) L /\ (i < per)%nat /\ fst r = b + obj * Z.of_nat i.
Proof. exact @fxt_slots. Qed.
Print Assumptions C19_fixed_pool_slots.

(** C19: while not all slots are in use a request is served, without calling the parent. *)
Theorem C19_fixed_pool_reuses :
  forall obj per fuel (W : Type) (P : Parent W) limP Inv, ParentSpec P limP Inv ->
  0 < obj -> (0 < per)%nat -> obj * Z.of_nat per <= limP -> limP < M64 ->
  forall t sw n, (2 <= fuel)%nat -> runs (FixedPool obj per fuel) P Inv t sw ->
    (forall m, In m (requests t) -> m <= obj) -> 0 < n <= obj ->
    Z.of_nat (length (live t)) < Z.of_nat per * fx_num_pools (fst sw) ->
    exists s' p, st_alloc (FixedPool obj per fuel) W P n sw = Ok (s', snd sw) p /\ p <> 0 /\
      fx_num_pools s' = fx_num_pools (fst sw).
Proof. exact @fxt_reuse. Qed.
Print Assumptions C19_fixed_pool_reuses.

(** C19: when all are in use the pool grows by one block, or passes on the parent's exception
    unchanged. *)
Theorem C19_fixed_pool_grows :
  forall obj per fuel (W : Type) (P : Parent W) limP Inv, ParentSpec P limP Inv ->
  0 < obj -> (0 < per)%nat -> obj * Z.of_nat per <= limP -> limP < M64 ->
  forall t sw n, (2 <= fuel)%nat -> runs (FixedPool obj per fuel) P Inv t sw ->
    (forall m, In m (requests t) -> m <= obj) -> 0 < n <= obj ->
    Z.of_nat (length (live t)) = Z.of_nat per * fx_num_pools (fst sw) ->
    match p_alloc P (obj * Z.of_nat per) (snd sw) with
    | Ok w' _ => exists s' p, st_alloc (FixedPool obj per fuel) W P n sw = Ok (s', w') p /\
                   fx_num_pools s' = fx_num_pools (fst sw) + 1
    | Throw w' e => st_alloc (FixedPool obj per fuel) W P n sw = Throw (fst sw, w') e
    | _ => True
    end.
Proof. exact @fxt_grow. Qed.
Print Assumptions C19_fixed_pool_grows.

(** C19: a live allocation can always be returned, and the next request then needs no growth. *)
Theorem C19_fixed_pool_frees :
  forall obj per fuel (W : Type) (P : Parent W) limP Inv, ParentSpec P limP Inv ->
  0 < obj -> (0 < per)%nat -> obj * Z.of_nat per <= limP -> limP < M64 ->
  forall t sw p n cur, runs (FixedPool obj per fuel) P Inv t sw ->
    (forall m, In m (requests t) -> m <= obj) -> In (p, n) (live t) ->
    exists s', st_dealloc (FixedPool obj per fuel) W P cur p n sw = Ok (s', snd sw) tt /\
      fx_num_pools s' = fx_num_pools (fst sw).
Proof. exact @fxt_free_ok. Qed.
Print Assumptions C19_fixed_pool_frees.

Theorem C19_fixed_pool_freed_slot_available :
  forall obj per fuel (W : Type) (P : Parent W) limP Inv, ParentSpec P limP Inv ->
  0 < obj -> (0 < per)%nat -> obj * Z.of_nat per <= limP -> limP < M64 ->
  forall t sw p n m, (2 <= fuel)%nat -> runs (FixedPool obj per fuel) P Inv (Returned p n :: t) sw ->
    (forall k, In k (requests t) -> k <= obj) -> 0 < m <= obj ->
    exists s' q, st_alloc (FixedPool obj per fuel) W P m sw = Ok (s', snd sw) q /\ q <> 0.
Proof. exact @fxt_reuse_freed. Qed.
Print Assumptions C19_fixed_pool_freed_slot_available.

(** C19: after [release] every block still held contains a live allocation. *)
Theorem C19_fixed_pool_release :
  forall obj per fuel (W : Type) (P : Parent W) limP Inv, ParentSpec P limP Inv ->
  0 < obj -> (0 < per)%nat -> obj * Z.of_nat per <= limP -> limP < M64 ->
  forall t sw, runs (FixedPool obj per fuel) P Inv (Released :: t) sw ->
    (forall n, In n (requests t) -> n <= obj) ->
    exists L, Inv (snd sw) L /\ forall l, In l L -> exists r, In r (live t) /\ inside r l.
Proof. exact @fxt_release. Qed.
Print Assumptions C19_fixed_pool_release.

(** Three slots per block: the fourth request grows the pool, a slot freed in the first block is
    used again when the second is full, and a release returns the second block once it is
    empty. *)
Example C19_ex :
  sobs (sfrom (FixedPool 10 3 2) bump
          [SAlloc 10; SAlloc 7; SAlloc 10; SAlloc 10; SFree 26; SAlloc 10; SAlloc 10; SAlloc 5;
           SFree 48; SFree 58; SFree 68; SRelease]) =
  Some ([Released; Returned 68 10; Returned 58 10; Returned 48 10; Got 5 26; Got 10 68; Got 10 58; Returned 26 7;
         Got 10 48; Got 10 36; Got 7 26; Got 10 16], [(16, 30)]).
Proof. vm_compute. reflexivity. Qed.

(** Each theorem of C19 and C20 applies to it: the hypotheses hold, before and after the release. *)
Example C19_ex_hyps :
  let t := [Returned 68 10; Returned 58 10; Returned 48 10; Got 5 26; Got 10 68; Got 10 58; Returned 26 7; Got 10 48; Got 10 36; Got 7 26; Got 10 16] in
  (exists sw, runs (FixedPool 10 3 2) host heap_inv t sw /\ fx_num_pools (fst sw) = 2) /\
  (exists sw, runs (FixedPool 10 3 2) host heap_inv (Released :: t) sw /\ fx_num_pools (fst sw) = 1) /\
  (forall n, In n (requests t) -> n <= 10) /\ length (live t) = 3%nat /\ peak t = 6%nat.
Proof.
  cbv zeta. split; [|split; [|split; [|split; reflexivity]]].
  - destruct (sfrom (FixedPool 10 3 2) bump [SAlloc 10; SAlloc 7; SAlloc 10; SAlloc 10; SFree 26; SAlloc 10; SAlloc 10; SAlloc 5; SFree 48; SFree 58; SFree 68]) as [[t sw]|] eqn:E; [|vm_compute in E; discriminate].
    pose proof (sfrom_runs _ _ _ _ _ E) as H. vm_compute in E. injection E as <- <-. eexists. split; [exact H|reflexivity].
  - destruct (sfrom (FixedPool 10 3 2) bump [SAlloc 10; SAlloc 7; SAlloc 10; SAlloc 10; SFree 26; SAlloc 10; SAlloc 10; SAlloc 5; SFree 48; SFree 58; SFree 68; SRelease]) as [[t sw]|] eqn:E; [|vm_compute in E; discriminate].
    pose proof (sfrom_runs _ _ _ _ _ E) as H. vm_compute in E. injection E as <- <-. eexists. split; [exact H|reflexivity].
  - cbn. intros n Hn. repeat (destruct Hn as [<-|Hn]; [lia|]). contradiction.
Qed.


(** With NDEBUG a request larger than the slots is served, and overlaps the next slot. *)
Theorem C19_large_request_refuted :
  exists t sw, runs (FixedPool 10 3 2) host heap_inv t sw /\ ~ pairwise disj (live t).
Proof.
  destruct (sfrom (FixedPool 10 3 2) bump [SAlloc 20; SAlloc 10]) as [[t sw]|] eqn:E; [|vm_compute in E; discriminate].
  exists t, sw. split; [exact (sfrom_runs _ _ _ _ _ E)|].
  vm_compute in E. injection E as <- <-. cbn [live pairwise]. intros [H _].
  specialize (H (16, 20) ltac:(simpl; auto)). unfold disj in H. cbn [fst snd] in H. lia.
Qed.
Print Assumptions C19_large_request_refuted.

(** With no objects per pool an allocation never returns, however long it recurses. *)
Theorem C19_no_objects_refuted :
  forall fuel, exists t sw, runs (FixedPool 10 0 fuel) host heap_inv t sw /\
    forall n sw' p, st_alloc (FixedPool 10 0 fuel) heap host n sw <> Ok sw' p.
Proof.
  intros fuel. destruct (sfrom (FixedPool 10 0 fuel) bump []) as [[t sw]|] eqn:E; [|vm_compute in E; discriminate].
  exists t, sw. split; [exact (sfrom_runs _ _ _ _ _ E)|]. vm_compute in E. injection E as <- <-.
  intros n sw' p. apply fx_alloc_zero. repeat constructor.
Qed.
Print Assumptions C19_no_objects_refuted.

(** The constructor allocates but is [noexcept]: a failing parent terminates the program. *)
Theorem C19_constructor_refuted :
  exists w, heap_inv w [] /\ st_make (FixedPool 10 3 2) heap host w = Abort.
Proof.
  exists (mkHeap (bump_failing [0%nat]) 0 [] []). split; [|vm_compute; reflexivity].
  exists []. split; [constructor|]. split; [intros r []|exact I].
Qed.
Print Assumptions C19_constructor_refuted.

(** C20: [getCurrentSize] is the slot size times the number of live allocations, after any
    history including releases. *)
Theorem C20_fixed_pool_current_size :
  forall obj per fuel (W : Type) (P : Parent W) limP Inv, ParentSpec P limP Inv ->
  0 < obj -> (0 < per)%nat -> obj * Z.of_nat per <= limP -> limP < M64 ->
  forall t sw, runs (FixedPool obj per fuel) P Inv t sw -> (forall n, In n (requests t) -> n <= obj) ->
    fx_current_size (fst sw) = obj * Z.of_nat (length (live t)) /\ obj * Z.of_nat (length (live t)) < ASP.
Proof. exact @fxt_current. Qed.
Print Assumptions C20_fixed_pool_current_size.

(** C20: its high watermark is the largest number of bytes handed out at any time. *)
Theorem C20_fixed_pool_highwatermark :
  forall obj per fuel (W : Type) (P : Parent W) limP Inv, ParentSpec P limP Inv ->
  0 < obj -> (0 < per)%nat -> obj * Z.of_nat per <= limP -> limP < M64 ->
  forall t sw, (2 <= fuel)%nat -> runs (FixedPool obj per fuel) P Inv t sw -> (forall n, In n (requests t) -> n <= obj) ->
    fx_hwm (fst sw) = obj * Z.of_nat (peak t).
Proof. exact @fxt_hwm. Qed.
Print Assumptions C20_fixed_pool_highwatermark.

(** C20: [getActualSize] before any release: the bytes of all blocks plus, per block, the
    number of bitmap ints.  Missing: histories with releases, and equality with the bytes
    held; both are false, see the next two theorems. *)
Theorem C20_fixed_pool_actual_size_partial :
  forall obj per fuel (W : Type) (P : Parent W) limP Inv, ParentSpec P limP Inv ->
  0 < obj -> (0 < per)%nat -> obj * Z.of_nat per <= limP -> limP < M64 ->
  forall t sw, (2 <= fuel)%nat -> runs (FixedPool obj per fuel) P Inv t sw -> (forall n, In n (requests t) -> n <= obj) ->
    ~ In Released t ->
    fx_actual_size (fst sw) =
      w64 ((Z.of_nat (Nat.div per 32 + 1) + obj * Z.of_nat per) * fx_num_pools (fst sw)).
Proof. exact @fxt_actual. Qed.
Print Assumptions C20_fixed_pool_actual_size_partial.

Example C20_ex :
  match sfrom (FixedPool 10 40 2) bump (repeat (SAlloc 10) 41) with
  | Some (t, (s, w)) => Some (fx_current_size s, fx_hwm s, fx_actual_size s, h_live w)
  | None => None
  end = Some (410, 410, 804, [(432, 400); (16, 400)]).
Proof. vm_compute. reflexivity. Qed.

(** The block is back with malloc, yet 31 bytes are reported. *)
Theorem C20_actual_size_after_release_refuted :
  exists t sw, runs (FixedPool 10 3 2) host heap_inv t sw /\ h_live (snd sw) = [] /\ fx_actual_size (fst sw) = 31.
Proof.
  destruct (sfrom (FixedPool 10 3 2) bump [SAlloc 10; SFree 16; SRelease]) as [[t sw]|] eqn:E; [|vm_compute in E; discriminate].
  exists t, sw. split; [exact (sfrom_runs _ _ _ _ _ E)|]. vm_compute in E. injection E as <- <-. split; reflexivity.
Qed.
Print Assumptions C20_actual_size_after_release_refuted.

(** Without a release: 30 bytes are held from the parent and the bitmap is one int of 4 bytes, 31 is
    reported. *)
Theorem C20_actual_size_refuted :
  exists t sw, runs (FixedPool 10 3 2) host heap_inv t sw /\ h_live (snd sw) = [(16, 30)] /\ fx_actual_size (fst sw) = 31.
Proof.
  destruct (sfrom (FixedPool 10 3 2) bump []) as [[t sw]|] eqn:E; [|vm_compute in E; discriminate].
  exists t, sw. split; [exact (sfrom_runs _ _ _ _ _ E)|]. vm_compute in E. injection E as <- <-. split; reflexivity.
Qed.
Print Assumptions C20_actual_size_refuted.

(** C21: whatever owners write into their slots, the outstanding slots are disjoint and each is
    a slot of a block held from malloc. *)
Theorem C21_record_pool_exclusive :
  forall obj per (W : Type) (P : Parent W) limP Inv, ParentSpec P limP Inv ->
  8 <= obj -> 0 < per < M32 -> obj * per <= limP -> limP < M64 ->
  forall fuel A s w, (2 <= fuel)%nat -> fmhist obj per P Inv fuel A s w ->
    good (map (fun p => (p, obj)) A) /\
    exists L, Inv w L /\ Z.of_nat (length L) = fm_num_pools s /\
      forall p, In p A -> exists b i, In (b, obj * per) L /\ 0 <= i < per /\ p = b + i * obj.
Proof. exact @fm_exclusive. Qed.
Print Assumptions C21_record_pool_exclusive.

(** C21: no slot is lost: while fewer slots are out than the blocks have, a request is served
    from them. *)
Theorem C21_record_pool_reuses :
  forall obj per (W : Type) (P : Parent W) limP Inv, ParentSpec P limP Inv ->
  8 <= obj -> 0 < per < M32 -> obj * per <= limP -> limP < M64 ->
  forall fuel A s w, (2 <= fuel)%nat -> fmhist obj per P Inv fuel A s w ->
    Z.of_nat (length A) < per * fm_num_pools s ->
    exists s' p, fm_allocate obj per P fuel (s, w) = Ok (s', w) p /\ ~ In p A /\ fm_num_pools s' = fm_num_pools s.
Proof. exact @fm_reuse. Qed.
Print Assumptions C21_record_pool_reuses.

(** C21: and otherwise one block is added.  A failing malloc is not noticed. *)
Theorem C21_record_pool_grows :
  forall obj per (W : Type) (P : Parent W) limP Inv, ParentSpec P limP Inv ->
  8 <= obj -> 0 < per < M32 -> obj * per <= limP -> limP < M64 ->
  forall fuel A s w, (2 <= fuel)%nat -> fmhist obj per P Inv fuel A s w ->
    Z.of_nat (length A) = per * fm_num_pools s ->
    match p_alloc P (obj * per) w with
    | Ok w' d => exists s' p, fm_allocate obj per P fuel (s, w) = Ok (s', w') p /\ ~ In p A /\
                   fm_num_pools s' = fm_num_pools s + 1
    | Throw w' e => fm_allocate obj per P fuel (s, w) = UB
    | _ => True
    end.
Proof. exact @fm_grow. Qed.
Print Assumptions C21_record_pool_grows.

(** C21: everything handed out is accepted back. *)
Theorem C21_record_pool_accepts :
  forall obj per (W : Type) (P : Parent W) limP Inv, ParentSpec P limP Inv ->
  8 <= obj -> 0 < per < M32 -> obj * per <= limP -> limP < M64 ->
  forall fuel A s w p, (2 <= fuel)%nat -> fmhist obj per P Inv fuel A s w -> In p A ->
    exists s', fm_deallocate obj per p (s, w) = Ok (s', w) tt /\ fm_num_pools s' = fm_num_pools s.
Proof. exact @fm_free_live. Qed.
Print Assumptions C21_record_pool_accepts.

(** C21: an address in none of the blocks held from malloc is rejected.  Missing: other
    addresses that were not handed out; see [C21_accepts_foreign_refuted]. *)
Theorem C21_record_pool_rejects_partial :
  forall obj per (W : Type) (P : Parent W) limP Inv, ParentSpec P limP Inv ->
  8 <= obj -> 0 < per < M32 -> obj * per <= limP -> limP < M64 ->
  forall fuel A s w p, (2 <= fuel)%nat -> fmhist obj per P Inv fuel A s w ->
    (forall L b n, Inv w L -> In (b, n) L -> ~ (b <= p < b + n)) ->
    fm_deallocate obj per p (s, w) = Throw (s, w) RuntimeError.
Proof. exact @fm_free_foreign. Qed.
Print Assumptions C21_record_pool_rejects_partial.

(** Slots overwritten by their owners, freed and reused in the opposite order; then growth. *)
Example C21_ex :
  fobs (ffrom 16 3 bump [FAlloc; FAlloc; FAlloc; FWrite 32 77; FFree 16; FFree 32; FAlloc; FAlloc; FAlloc]) =
  Some ([80; 16; 32; 48], [(80, 48); (16, 48)]).
Proof. vm_compute. reflexivity. Qed.

Example C21_ex_hyps :
  exists s w, fmhist 16 3 host heap_inv 2 [80; 16; 32; 48] s w /\ fm_num_pools s = 2 /\ h_live w = [(80, 48); (16, 48)].
Proof.
  destruct (ffrom 16 3 bump [FAlloc; FAlloc; FAlloc; FWrite 32 77; FFree 16; FFree 32; FAlloc; FAlloc; FAlloc]) as [[A sw]|] eqn:E; [|vm_compute in E; discriminate].
  pose proof (ffrom_hist _ _ _ _ _ _ E) as H. vm_compute in E. injection E as <- <-. do 2 eexists. split; [exact H|split; reflexivity].
Qed.


(** An address inside the outstanding slot 16, never handed out, is accepted; the next request is
    then given memory that overlaps that slot. *)
Theorem C21_accepts_foreign_refuted :
  exists A s w s' s'' p, fmhist 16 3 host heap_inv 2 A s w /\ ~ In 20 A /\
    fm_deallocate 16 3 20 (s, w) = Ok (s', w) tt /\
    fm_allocate 16 3 host 2 (s', w) = Ok (s'', w) p /\ In 16 A /\ ~ disj (16, 16) (p, 16).
Proof.
  destruct (ffrom 16 3 bump [FAlloc]) as [[A sw]|] eqn:E; [|vm_compute in E; discriminate].
  pose proof (ffrom_hist _ _ _ _ _ _ E) as H. vm_compute in E. injection E as <- <-.
  do 6 eexists. split; [exact H|]. split; [intros [Hc|[]]; discriminate|].
  split; [vm_compute; reflexivity|]. split; [vm_compute; reflexivity|]. split; [now left|].
  unfold disj. cbn [fst snd]. lia.
Qed.
Print Assumptions C21_accepts_foreign_refuted.
