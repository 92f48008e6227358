(** Properties C09, C16-C18 and C47: DynamicPoolList.  Every theorem is about an arbitrary parent [P] meeting
    [ParentSpec] (Base.v) and an arbitrary history of client calls (DynPoolSpec.v). *)
From Verif Require Import Base AlignedModel AlignedFacts HeapModel HeapFacts QuickPoolModel QuickPoolSpec QuickPoolRun DynPoolModel
  DynPoolFacts DynPoolMain DynPoolSpec DynPoolThms DynPoolRun.

(** C16: live allocations are pairwise disjoint, non-null, inside the address space, and each lies inside one block
    held from the parent. *)
Theorem C16_dynpool_disjoint :
  forall (W : Type) (P : Parent W) limP Inv, ParentSpec P limP Inv ->
  forall cfg, dcfg_ok cfg limP ->
  forall U sw, dreach P cfg (limP - 2 * dc_align cfg) Inv U sw ->
    good U /\
    exists L, Inv (snd sw) L /\ good L /\ forall u, In u U -> exists l, In l L /\ inside u l.
Proof. exact @dfin_disjoint. Qed.
Print Assumptions C16_dynpool_disjoint.

(** C16: no call of a well-behaved client has undefined behaviour; [release] and [coalesce] throw nothing. *)
Theorem C16_dynpool_defined :
  forall (W : Type) (P : Parent W) limP Inv, ParentSpec P limP Inv ->
  forall cfg, dcfg_ok cfg limP ->
  forall U sw, dreach P cfg (limP - 2 * dc_align cfg) Inv U sw ->
    (forall n, 0 < n <= limP - 2 * dc_align cfg -> d_allocate P cfg n sw <> UB) /\
    (forall cur p n, In (p, n) U -> d_deallocate P cfg cur p sw <> UB) /\
    (d_release P sw <> UB /\ forall sw' e, d_release P sw <> Throw sw' e) /\
    (forall cur, d_coalesce P cfg cur sw <> UB /\ forall sw' e, d_coalesce P cfg cur sw <> Throw sw' e).
Proof. exact @dfin_safe. Qed.
Print Assumptions C16_dynpool_defined.

(** C16: and every call returns if the parent's calls do, whatever the heuristic. *)
Theorem C16_dynpool_terminates :
  forall (W : Type) (P : Parent W) cfg sw, parent_total P ->
    (forall n, d_allocate P cfg n sw <> NoFuel) /\ (forall cur p, d_deallocate P cfg cur p sw <> NoFuel) /\
    d_release P sw <> NoFuel /\ (forall cur, d_coalesce P cfg cur sw <> NoFuel).
Proof. exact @dfin_terminates. Qed.
Print Assumptions C16_dynpool_terminates.

(** The hypotheses are met by a pool over malloc, for every shipped heuristic ... *)
Example C16_ex_hypotheses :
  ParentSpec host (M64 - 1) heap_inv /\ dcfg_ok (dex 16 dh_percent_100) (M64 - 1) /\
  dcfg_ok (dex 16 (dh_blocks_releasable_hwm 2)) (M64 - 1) /\ dcfg_ok (dex 16 (dh_percent (fun a => a / 2))) (M64 - 1) /\
  heap_inv (mkHeap bump 0 [] []) [].
Proof.
  split; [exact host_spec|]. split; [apply dex_ok, dheur_ok_all|]. split; [apply dex_ok, dheur_ok_all|].
  split; [apply dex_ok, dheur_ok_all|]. exists []. split; [constructor|]. split; [intros r []|exact I].
Qed.

(** ... and by this history, which splits, frees and reuses fragments. *)
Example C16_ex_history :
  dobs (dcrun (mkDcfg 256 256 64 dh_percent_100)
    [CAlloc 100; CAlloc 30; CAlloc 300; CFree 64; CAlloc 50] (dcinit bump)) =
  Some ([(256, 50); (384, 300); (192, 30)],
        mkView 576 0 0 2 448 512 576 4 128,
        [(352, 384); (16, 320)], 0%nat).
Proof. vm_compute. reflexivity. Qed.

Example C16_ex_reached :
  exists sw H, dhist host (mkDcfg 256 256 64 dh_percent_100) (M64 - 1 - 2 * 64) heap_inv [(256, 50); (384, 300); (192, 30)] sw H.
Proof.
  destruct (dcrun (mkDcfg 256 256 64 dh_percent_100) [CAlloc 100; CAlloc 30; CAlloc 300; CFree 64; CAlloc 50] (dcinit bump)) as [[[[U sw] H] k]|] eqn:E; [|vm_compute in E; discriminate].
  pose proof (dcrun_reaches _ heap_inv _ _ _ _ _ _ (proj2 (proj2 (proj2 (proj2 C16_ex_hypotheses)))) E) as R. vm_compute in E. injection E as <- <- <- <-. do 2 eexists. exact R.
Qed.


(** Requests outside the stated range: rounding is modulo 2^64, a request for SIZE_MAX bytes "succeeds" and a later
    one overlaps it. *)
Theorem C16_huge_request_refuted :
  exists U sw H k sw1 p1 sw2 p2,
    dcrun (dex 16 dh_percent_0) [CAlloc 16] (dcinit bump) = Some (U, sw, H, k) /\
    d_allocate host (dex 16 dh_percent_0) (M64 - 1) sw = Ok sw1 p1 /\
    d_allocate host (dex 16 dh_percent_0) 16 sw1 = Ok sw2 p2 /\
    ~ disj (p1, M64 - 1) (p2, 16).
Proof.
  do 8 eexists. split; [vm_compute; reflexivity|]. split; [vm_compute; reflexivity|].
  split; [vm_compute; reflexivity|]. unfold disj; cbn [fst snd]. unfold M64. lia.
Qed.
Print Assumptions C16_huge_request_refuted.

(** [deallocate] can throw out_of_memory (with the default heuristic too), having given the memory back: the
    coalescing it triggers released both blocks and could not get the merged one. *)
Theorem C16_deallocate_no_throw_refuted :
  exists U sw H k sw' e,
    dcrun (dex 16 dh_percent_100) [CAlloc 64; CAlloc 64; CFree 16] (dcinit (bump_failing [2%nat; 3%nat])) = Some (U, sw, H, k) /\
    U = [(112, 64)] /\
    d_deallocate host (dex 16 dh_percent_100) 0 112 sw = Throw sw' e /\
    d_used (fst sw') = [] /\ h_live (snd sw') = [].
Proof.
  do 6 eexists. split; [vm_compute; reflexivity|]. split; [reflexivity|]. split; [vm_compute; reflexivity|].
  split; reflexivity.
Qed.
Print Assumptions C16_deallocate_no_throw_refuted.

(** [coalesce] is noexcept: in the same situation it ends in std::terminate. *)
Theorem C16_coalesce_terminate_refuted :
  exists U sw H k,
    dcrun (dex 16 (dh_blocks_releasable 3)) [CAlloc 64; CAlloc 64; CAlloc 64; CFree 16; CFree 112] (dcinit (bump_failing [3%nat; 4%nat]))
      = Some (U, sw, H, k) /\ U = [(208, 64)] /\
    d_coalesce host (dex 16 (dh_blocks_releasable 2)) 64 sw = Abort.
Proof. do 4 eexists. split; [vm_compute; reflexivity|]. split; [reflexivity|]. vm_compute. reflexivity. Qed.
Print Assumptions C16_coalesce_terminate_refuted.

(** C09: alignment. *)
Theorem C09_dynpool_alignment :
  forall (W : Type) (P : Parent W) limP Inv, ParentSpec P limP Inv ->
  forall cfg, dcfg_ok cfg limP ->
  forall U sw, dreach P cfg (limP - 2 * dc_align cfg) Inv U sw ->
  forall p n, In (p, n) U -> p mod dc_align cfg = 0.
Proof. exact @dfin_aligned. Qed.
Print Assumptions C09_dynpool_alignment.

(** C17: what the getters return, in terms of the live allocations [U] and the blocks [L] currently held ([pool_obs],
    QuickPoolSpec.v). *)
Theorem C17_dynpool_accounting :
  forall (W : Type) (P : Parent W) limP Inv, ParentSpec P limP Inv ->
  forall cfg, dcfg_ok cfg limP ->
  forall U sw, dreach P cfg (limP - 2 * dc_align cfg) Inv U sw ->
  exists L, Inv (snd sw) L /\ pool_obs (dc_align cfg) U L (d_view (fst sw)).
Proof. exact @dfin_obs. Qed.
Print Assumptions C17_dynpool_accounting.

(** C17: the free list consists of the maximal gaps, in address order: no two adjacent fragments of a block are both
    free. *)
Theorem C17_dynpool_merged :
  forall (W : Type) (P : Parent W) limP Inv, ParentSpec P limP Inv ->
  forall cfg, dcfg_ok cfg limP ->
  forall U sw, dreach P cfg (limP - 2 * dc_align cfg) Inv U sw ->
  exists L, Inv (snd sw) L /\
    (forall g, In g (map dreg (d_free (fst sw))) <-> max_gap (dc_align cfg) U L g) /\
    pairwise (fun a b => fst a + snd a <= fst b) (map dreg (d_free (fst sw))).
Proof. exact @dfin_merged. Qed.
Print Assumptions C17_dynpool_merged.

(** C17: both high-water marks bound every value seen in the history ... *)
Theorem C17_dynpool_hwm_upper :
  forall (W : Type) (P : Parent W) limP Inv, ParentSpec P limP Inv ->
  forall cfg, dcfg_ok cfg limP ->
  forall U sw H, dhist P cfg (limP - 2 * dc_align cfg) Inv U sw H ->
  forall s0, In s0 H ->
    d_aligned s0 <= d_aligned_hwm (fst sw) /\ d_actual s0 <= d_actual_hwm (fst sw).
Proof. exact @dfin_hwm_upper. Qed.
Print Assumptions C17_dynpool_hwm_upper.

(** ... and are attained when no coalescing takes place; with coalescing they are not, see the next theorem. *)
Theorem C17_dynpool_hwm_exact :
  forall (W : Type) (P : Parent W) limP Inv, ParentSpec P limP Inv ->
  forall cfg, dcfg_ok cfg limP ->
  forall U sw H, (forall cur v, dc_heur cfg cur v = 0) ->
  dhist P cfg (limP - 2 * dc_align cfg) Inv U sw H ->
    d_aligned_hwm (fst sw) = maxZ (map d_aligned H) /\ d_actual_hwm (fst sw) = maxZ (map d_actual H).
Proof. exact @dfin_hwm_exact. Qed.
Print Assumptions C17_dynpool_hwm_exact.

Theorem C17_aligned_hwm_refuted :
  exists U sw H k,
    dcrun (dex 16 (dh_blocks_releasable 2)) [CAlloc 64; CAlloc 40; CAlloc 40; CFree 112; CFree 208] (dcinit bump) = Some (U, sw, H, k) /\
    maxZ (map d_aligned H) = 160 /\ d_aligned_hwm (fst sw) = 192.
Proof. do 4 eexists. split; [vm_compute; reflexivity|]. split; vm_compute; reflexivity. Qed.
Print Assumptions C17_aligned_hwm_refuted.

(** Three neighbours freed in the order middle, first, last are one free fragment again. *)
Example C17_ex :
  dobs (dcrun (mkDcfg 256 256 16 dh_percent_0)
    [CAlloc 64; CAlloc 64; CAlloc 64; CFree 80; CFree 16; CFree 144] (dcinit bump)) =
  Some ([], mkView 256 256 1 1 0 192 256 1 256, [(16, 272)], 0%nat).
Proof. vm_compute. reflexivity. Qed.

(** C18: release() gives back exactly the blocks without live allocation. *)
Theorem C18_dynpool_release :
  forall (W : Type) (P : Parent W) limP Inv, ParentSpec P limP Inv ->
  forall cfg, dcfg_ok cfg limP ->
  forall U s w, dreach P cfg (limP - 2 * dc_align cfg) Inv U (s, w) ->
    post (d_release P (s, w))
      (fun sw' _ => exists I R, Inv w (I ++ R) /\
         (forall l, In l I -> idle (dc_align cfg) U l) /\ (forall l, In l R -> ~ idle (dc_align cfg) U l) /\
         Inv (snd sw') R /\ pool_obs (dc_align cfg) U R (d_view (fst sw')))
      (fun _ _ => False).
Proof. exact @dfin_release. Qed.
Print Assumptions C18_dynpool_release.

Theorem C18_dynpool_release_all :
  forall (W : Type) (P : Parent W) limP Inv, ParentSpec P limP Inv ->
  forall cfg, dcfg_ok cfg limP ->
  forall s w, dreach P cfg (limP - 2 * dc_align cfg) Inv [] (s, w) ->
    post (d_release P (s, w))
      (fun sw' _ => Inv (snd sw') [] /\ v_actual (d_view (fst sw')) = 0 /\ v_total_blocks (d_view (fst sw')) = 0)
      (fun _ _ => False).
Proof. exact @dfin_release_all. Qed.
Print Assumptions C18_dynpool_release_all.

Example C18_ex :
  dobs (dcrun (dex 16 dh_percent_0) [CAlloc 64; CAlloc 40; CAlloc 8; CFree 16; CRelease] (dcinit bump)) =
  Some ([(160, 8); (112, 40)], mkView 64 0 0 1 64 128 128 2 0, [(112, 80)], 0%nat).
Proof. vm_compute. reflexivity. Qed.

(** C47: with a large enough fragment the parent's state is untouched and a smallest fitting gap is used ... *)
Theorem C47_dynpool_hit :
  forall (W : Type) (P : Parent W) limP Inv, ParentSpec P limP Inv ->
  forall cfg, dcfg_ok cfg limP ->
  forall U s w n, dreach P cfg (limP - 2 * dc_align cfg) Inv U (s, w) ->
  0 < n <= limP - 2 * dc_align cfg ->
  round_to (dc_align cfg) n <= v_largest (d_view s) ->
    exists L s' g, Inv w L /\ pool_obs (dc_align cfg) U L (d_view s) /\
      d_allocate P cfg n (s, w) = Ok (s', w) (fst g) /\
      max_gap (dc_align cfg) U L g /\ round_to (dc_align cfg) n <= snd g /\
      (forall g', max_gap (dc_align cfg) U L g' -> round_to (dc_align cfg) n <= snd g' -> snd g <= snd g') /\
      pool_obs (dc_align cfg) ((fst g, n) :: U) L (d_view s').
Proof. exact @dfin_alloc_hit. Qed.
Print Assumptions C47_dynpool_hit.

(** ... otherwise one block of the stated size is requested, once more after a failure and a release. *)
Theorem C47_dynpool_miss :
  forall (W : Type) (P : Parent W) limP Inv, ParentSpec P limP Inv ->
  forall cfg, dcfg_ok cfg limP ->
  forall U s w n, dreach P cfg (limP - 2 * dc_align cfg) Inv U (s, w) ->
  0 < n <= limP - 2 * dc_align cfg ->
  v_largest (d_view s) < round_to (dc_align cfg) n ->
    let total := Z.max (round_to (dc_align cfg) n) (if v_actual (d_view s) =? 0 then dc_first cfg else dc_next cfg)
                 + dc_align cfg in
    exists L, Inv w L /\ pool_obs (dc_align cfg) U L (d_view s) /\
      (forall w1 p, p_alloc P total w = Ok w1 p ->
        exists s', d_allocate P cfg n (s, w) = Ok (s', w1) (round_to (dc_align cfg) p) /\
          pool_obs (dc_align cfg) ((round_to (dc_align cfg) p, n) :: U) ((p, total) :: L) (d_view s')) /\
      (forall w1 e, p_alloc P total w = Throw w1 e ->
        forall s2 w2, d_release P (s, w1) = Ok (s2, w2) tt ->
        exists I R, Permutation L (I ++ R) /\ (forall l, In l I -> idle (dc_align cfg) U l) /\
          (forall l, In l R -> ~ idle (dc_align cfg) U l) /\
          pool_obs (dc_align cfg) U R (d_view s2) /\
          (forall w3 p, p_alloc P total w2 = Ok w3 p ->
             exists s', d_allocate P cfg n (s, w) = Ok (s', w3) (round_to (dc_align cfg) p) /\
               pool_obs (dc_align cfg) ((round_to (dc_align cfg) p, n) :: U) ((p, total) :: R) (d_view s')) /\
          (forall w3 e3, p_alloc P total w2 = Throw w3 e3 ->
             d_allocate P cfg n (s, w) = Throw (s2, w3) e3)).
Proof. exact @dfin_alloc_miss. Qed.
Print Assumptions C47_dynpool_miss.

Example C47_ex_hit :
  dobs (dcrun (dex 16 dh_percent_0) [CAlloc 64; CAlloc 32; CFree 16; CAlloc 20] (dcinit bump)) =
  Some ([(144, 20); (112, 32)], mkView 128 64 1 2 64 96 128 3 64, [(112, 80); (16, 80)], 0%nat).
Proof. vm_compute. reflexivity. Qed.
Example C47_ex_retry :
  dobs (dcrun (dex 16 dh_percent_0) [CAlloc 64; CFree 16; CAlloc 100] (dcinit (bump_failing [1%nat]))) =
  Some ([(16, 100)], mkView 112 0 0 1 112 112 112 1 0, [(16, 128)], 0%nat).
Proof. vm_compute. reflexivity. Qed.
