(** Properties C08-C15: QuickPool.  Every theorem is about an arbitrary parent [P]
    meeting [ParentSpec] (Base.v) and an arbitrary history of client calls
    (QuickPoolSpec.v). *)
From Verif Require Import Base AlignedModel AlignedFacts HeapModel HeapFacts QuickPoolModel QuickPoolMain
  QuickPoolSpec QuickPoolRun QuickPoolThms2 QuickPoolThms3 QuickPoolThms4.

(** C08: live allocations are pairwise disjoint, non-null, inside the address space,
    and each lies inside one block held from the parent. *)
Theorem C08_quickpool_disjoint :
  forall (W : Type) (P : Parent W) limP Inv, ParentSpec P limP Inv ->
  forall cfg fuel, qcfg_ok cfg limP ->
  forall U sw, reachable P cfg fuel (limP - 2 * cf_align cfg) Inv U sw ->
    good U /\
    exists L, Inv (snd sw) L /\ good L /\ forall u, In u U -> exists l, In l L /\ inside u l.
Proof. exact @fin_disjoint. Qed.
Print Assumptions C08_quickpool_disjoint.

(** C08: no call of a well-behaved client has undefined behaviour; only
    [allocate] can throw. *)
Theorem C08_quickpool_defined :
  forall (W : Type) (P : Parent W) limP Inv, ParentSpec P limP Inv ->
  forall cfg fuel, qcfg_ok cfg limP ->
  forall U sw, reachable P cfg fuel (limP - 2 * cf_align cfg) Inv U sw ->
    (forall n, 0 < n <= limP - 2 * cf_align cfg -> q_allocate P cfg n sw <> UB) /\
    (forall p n, In (p, n) U -> q_deallocate P cfg fuel p sw <> UB /\
       forall sw' e, q_deallocate P cfg fuel p sw <> Throw sw' e) /\
    (q_release P sw <> UB /\ forall sw' e, q_release P sw <> Throw sw' e) /\
    (q_coalesce P cfg fuel sw <> UB /\ forall sw' e, q_coalesce P cfg fuel sw <> Throw sw' e).
Proof. exact @fin_safe. Qed.
Print Assumptions C08_quickpool_defined.

(** The hypotheses are met by a pool over malloc, for every shipped heuristic ... *)
Example C08_ex_hypotheses :
  ParentSpec host (M64 - 1) heap_inv /\ qcfg_ok (ex_cfgA 64 h_percent_100_hwm) (M64 - 1) /\
  heap_inv (mkHeap bump 0 [] []) [].
Proof.
  split; [exact host_spec|]. split.
  - constructor; cbn [ex_cfgA cf_align cf_first cf_next cf_heur]; try (unfold M64, ASP; lia); [|apply heur_ok_all].
    exists 6. split; [lia|reflexivity].
  - exists []. split; [constructor|]. split; [intros r []|exact I].
Qed.

(** ... and by this history, which splits, frees and reuses fragments. *)
Example C08_ex_history :
  obs_state (crun (ex_cfgA 64 h_percent_100_hwm) 5
    [CAlloc 100; CAlloc 30; CAlloc 300; CFree 64; CAlloc 50] (cinit bump)) =
  Some ([(256, 50); (384, 300); (192, 30)],
        mkView 576 0 0 2 448 512 576 4 128,
        [(352, 384); (16, 320)]).
Proof. vm_compute. reflexivity. Qed.

Example C08_ex_reached :
  exists sw, reachable host (ex_cfgA 64 h_percent_100_hwm) 5 (M64 - 1 - 2 * 64) heap_inv [(256, 50); (384, 300); (192, 30)] sw.
Proof.
  destruct (crun (ex_cfgA 64 h_percent_100_hwm) 5 [CAlloc 100; CAlloc 30; CAlloc 300; CFree 64; CAlloc 50] (cinit bump)) as [[[U sw] H]|] eqn:E; [|vm_compute in E; discriminate].
  pose proof (crun_reaches _ _ heap_inv _ _ _ _ _ (proj2 (proj2 C08_ex_hypotheses)) E) as R. vm_compute in E. injection E as <- <- <-. eexists. eexists. exact R.
Qed.


(** Requests outside the stated range: the size is rounded up modulo 2^64, a request
    for SIZE_MAX bytes "succeeds" and a later one gets the same address. *)
Theorem C08_huge_request_refuted :
  exists U sw H sw1 p1 sw2 p2,
    crun (ex_cfg h_percent_0) 5 [CAlloc 16] (cinit bump) = Some (U, sw, H) /\
    q_allocate host (ex_cfg h_percent_0) (M64 - 1) sw = Ok sw1 p1 /\
    q_allocate host (ex_cfg h_percent_0) 16 sw1 = Ok sw2 p2 /\
    ~ disj (p1, M64 - 1) (p2, 16) /\ p1 = p2.
Proof.
  do 7 eexists. split; [vm_compute; reflexivity|]. split; [vm_compute; reflexivity|].
  split; [vm_compute; reflexivity|]. split; [|reflexivity].
  unfold disj; cbn [fst snd]. unfold M64. lia.
Qed.
Print Assumptions C08_huge_request_refuted.

(** C09: alignment. *)
Theorem C09_quickpool_alignment :
  forall (W : Type) (P : Parent W) limP Inv, ParentSpec P limP Inv ->
  forall cfg fuel, qcfg_ok cfg limP ->
  forall U sw, reachable P cfg fuel (limP - 2 * cf_align cfg) Inv U sw ->
  forall p n, In (p, n) U -> p mod cf_align cfg = 0.
Proof. exact @fin_aligned. Qed.
Print Assumptions C09_quickpool_alignment.

(** The constructor accepts any alignment; for one that is not a power of two the claim fails. *)
Theorem C09_alignment_not_power_of_two_refuted :
  exists U sw H, crun (mkCfg 96 96 24 h_percent_0) 1 [CAlloc 24] (cinit bump) = Some (U, sw, H) /\
    exists p n, In (p, n) U /\ p mod 24 <> 0.
Proof.
  do 3 eexists. split; [vm_compute; reflexivity|]. exists 32, 24. split; [simpl; auto|]. vm_compute. discriminate.
Qed.
Print Assumptions C09_alignment_not_power_of_two_refuted.

(** C10: what the getters return, in terms of the live allocations [U] and the blocks
    [L] currently held ([pool_obs], QuickPoolSpec.v). *)
Theorem C10_quickpool_accounting :
  forall (W : Type) (P : Parent W) limP Inv, ParentSpec P limP Inv ->
  forall cfg fuel, qcfg_ok cfg limP ->
  forall U sw, reachable P cfg fuel (limP - 2 * cf_align cfg) Inv U sw ->
  exists L, Inv (snd sw) L /\ pool_obs (cf_align cfg) U L (q_view (fst sw)).
Proof. exact @fin_obs. Qed.
Print Assumptions C10_quickpool_accounting.

(** C10: both high-water marks bound every value seen in the history ... *)
Theorem C10_quickpool_hwm_upper :
  forall (W : Type) (P : Parent W) limP Inv, ParentSpec P limP Inv ->
  forall cfg fuel, qcfg_ok cfg limP ->
  forall U sw H, hist P cfg fuel (limP - 2 * cf_align cfg) Inv U sw H ->
  forall s0, In s0 H ->
    q_aligned s0 <= q_aligned_hwm (fst sw) /\ q_actual s0 <= q_actual_hwm (fst sw).
Proof. exact @hist_hwm_upper. Qed.
Print Assumptions C10_quickpool_hwm_upper.

(** ... and are attained when no coalescing takes place.  Missing for the full claim:
    with a coalescing heuristic the claim is false, see the next theorem. *)
Theorem C10_quickpool_hwm_exact_partial :
  forall (W : Type) (P : Parent W) limP Inv, ParentSpec P limP Inv ->
  forall cfg fuel, qcfg_ok cfg limP ->
  forall U sw H, (forall v, cf_heur cfg v = 0) ->
  hist P cfg fuel (limP - 2 * cf_align cfg) Inv U sw H ->
    q_aligned_hwm (fst sw) = maxZ (map q_aligned H) /\ q_actual_hwm (fst sw) = maxZ (map q_actual H).
Proof. exact @hist_hwm_exact. Qed.
Print Assumptions C10_quickpool_hwm_exact_partial.

(** With [blocks_releasable(2)], coalescing counts its own temporary allocation:
    getAlignedHighwaterMark is 192 although getAlignedSize never exceeded 160. *)
Theorem C10_aligned_hwm_refuted :
  exists U sw H,
    crun (ex_cfg (h_blocks_releasable 2)) 5
      [CAlloc 64; CAlloc 40; CAlloc 40; CFree 112; CFree 208] (cinit bump) = Some (U, sw, H) /\
    maxZ (map q_aligned H) = 160 /\ q_aligned_hwm (fst sw) = 192.
Proof. do 3 eexists. split; [vm_compute; reflexivity|]. split; vm_compute; reflexivity. Qed.
Print Assumptions C10_aligned_hwm_refuted.

Example C10_ex_exact :
  exists U sw H, crun (ex_cfg h_percent_0) 5 [CAlloc 64; CAlloc 40; CFree 16; CRelease; CAlloc 10] (cinit bump)
     = Some (U, sw, H) /\ q_aligned_hwm (fst sw) = 112 /\ q_actual_hwm (fst sw) = 128 /\ q_actual (fst sw) = 64.
Proof. do 3 eexists. split; [vm_compute; reflexivity|]. repeat split; vm_compute; reflexivity. Qed.

(** C11: release() gives back exactly the blocks without live allocation. *)
Theorem C11_quickpool_release :
  forall (W : Type) (P : Parent W) limP Inv, ParentSpec P limP Inv ->
  forall cfg fuel, qcfg_ok cfg limP ->
  forall U s w, reachable P cfg fuel (limP - 2 * cf_align cfg) Inv U (s, w) ->
    post (q_release P (s, w))
      (fun sw' _ => exists I R, Inv w (I ++ R) /\
         (forall l, In l I -> idle (cf_align cfg) U l) /\ (forall l, In l R -> ~ idle (cf_align cfg) U l) /\
         Inv (snd sw') R /\ pool_obs (cf_align cfg) U R (q_view (fst sw')))
      (fun _ _ => False).
Proof. exact @fin_release. Qed.
Print Assumptions C11_quickpool_release.

Theorem C11_quickpool_release_all :
  forall (W : Type) (P : Parent W) limP Inv, ParentSpec P limP Inv ->
  forall cfg fuel, qcfg_ok cfg limP ->
  forall s w, reachable P cfg fuel (limP - 2 * cf_align cfg) Inv [] (s, w) ->
    post (q_release P (s, w))
      (fun sw' _ => Inv (snd sw') [] /\ v_actual (q_view (fst sw')) = 0 /\ v_total_blocks (q_view (fst sw')) = 0)
      (fun _ _ => False).
Proof. exact @fin_release_all. Qed.
Print Assumptions C11_quickpool_release_all.

Example C11_ex :
  obs_state (crun (ex_cfg h_percent_0) 5 [CAlloc 64; CAlloc 40; CAlloc 8; CFree 16; CRelease] (cinit bump)) =
  Some ([(160, 8); (112, 40)], mkView 64 0 0 1 64 128 128 2 0, [(112, 80)]).
Proof. vm_compute. reflexivity. Qed.

(** C12: the number of fragments is the number of live allocations plus the number of
    maximal gaps, i.e. no two adjacent fragments are free; and an idle block is available
    in one piece. *)
Theorem C12_quickpool_merged :
  forall (W : Type) (P : Parent W) limP Inv, ParentSpec P limP Inv ->
  forall cfg fuel, qcfg_ok cfg limP ->
  forall U sw, reachable P cfg fuel (limP - 2 * cf_align cfg) Inv U sw ->
    exists L, Inv (snd sw) L /\
      (exists G, NoDup G /\ (forall g, In g G <-> max_gap (cf_align cfg) U L g) /\
         v_blocks_in_pool (q_view (fst sw)) = Z.of_nat (length U) + Z.of_nat (length G)) /\
      (forall l, In l L -> idle (cf_align cfg) U l -> 0 < snd l - cf_align cfg ->
         snd l - cf_align cfg <= v_largest (q_view (fst sw))).
Proof. exact @fin_merged. Qed.
Print Assumptions C12_quickpool_merged.

Example C12_ex :
  obs_state (crun (ex_cfgA 16 h_percent_0) 5
    [CAlloc 64; CAlloc 64; CAlloc 64; CFree 80; CFree 16; CFree 144] (cinit bump)) =
  Some ([], mkView 256 256 1 1 0 192 256 1 256, [(16, 272)]).
Proof. vm_compute. reflexivity. Qed.

(** C13: with a large enough fragment the parent's state is untouched and a smallest
    fitting gap is used ... *)
Theorem C13_quickpool_hit :
  forall (W : Type) (P : Parent W) limP Inv, ParentSpec P limP Inv ->
  forall cfg fuel, qcfg_ok cfg limP ->
  forall U s w n, reachable P cfg fuel (limP - 2 * cf_align cfg) Inv U (s, w) ->
  0 < n <= limP - 2 * cf_align cfg ->
  round_to (cf_align cfg) n <= v_largest (q_view s) ->
    exists L s' g, Inv w L /\
      q_allocate P cfg n (s, w) = Ok (s', w) (fst g) /\
      max_gap (cf_align cfg) U L g /\ round_to (cf_align cfg) n <= snd g /\
      (forall g', max_gap (cf_align cfg) U L g' -> round_to (cf_align cfg) n <= snd g' -> snd g <= snd g') /\
      pool_obs (cf_align cfg) ((fst g, n) :: U) L (q_view s').
Proof. exact @fin_hit. Qed.
Print Assumptions C13_quickpool_hit.

(** ... otherwise one block of the stated size is requested, once more after a failure
    and a release. *)
Theorem C13_quickpool_miss :
  forall (W : Type) (P : Parent W) limP Inv, ParentSpec P limP Inv ->
  forall cfg fuel, qcfg_ok cfg limP ->
  forall U s w n, reachable P cfg fuel (limP - 2 * cf_align cfg) Inv U (s, w) ->
  0 < n <= limP - 2 * cf_align cfg ->
  v_largest (q_view s) < round_to (cf_align cfg) n ->
    let total := Z.max (round_to (cf_align cfg) n) (if v_actual (q_view s) =? 0 then cf_first cfg else cf_next cfg)
                 + cf_align cfg in
    exists L, Inv w L /\
      (forall w1 p, p_alloc P total w = Ok w1 p ->
        exists s', q_allocate P cfg n (s, w) = Ok (s', w1) (round_to (cf_align cfg) p) /\
          pool_obs (cf_align cfg) ((round_to (cf_align cfg) p, n) :: U) ((p, total) :: L) (q_view s')) /\
      (forall w1 e, p_alloc P total w = Throw w1 e ->
        forall s2 w2, q_release P (s, w1) = Ok (s2, w2) tt ->
        exists I R, Permutation L (I ++ R) /\ (forall l, In l I -> idle (cf_align cfg) U l) /\
          (forall l, In l R -> ~ idle (cf_align cfg) U l) /\
          pool_obs (cf_align cfg) U R (q_view s2) /\
          (forall w3 p, p_alloc P total w2 = Ok w3 p ->
             exists s', q_allocate P cfg n (s, w) = Ok (s', w3) (round_to (cf_align cfg) p) /\
               pool_obs (cf_align cfg) ((round_to (cf_align cfg) p, n) :: U) ((p, total) :: R) (q_view s')) /\
          (forall w3 e3, p_alloc P total w2 = Throw w3 e3 ->
             q_allocate P cfg n (s, w) = Throw (s2, w3) e3)).
Proof. exact @fin_miss. Qed.
Print Assumptions C13_quickpool_miss.

(** A hit (best fit: 32 of the free 32 and 64), a miss, and a miss after which the retry
    succeeds because the idle block was released first. *)
Example C13_ex_hit :
  obs_state (crun (ex_cfg h_percent_0) 5 [CAlloc 64; CAlloc 32; CFree 16; CAlloc 20] (cinit bump)) =
  Some ([(144, 20); (112, 32)], mkView 128 64 1 2 64 96 128 3 64, [(112, 80); (16, 80)]).
Proof. vm_compute. reflexivity. Qed.
Example C13_ex_retry :
  obs_state (crun (ex_cfg h_percent_0) 5 [CAlloc 64; CFree 16; CAlloc 100] (cinit (bump_failing [1%nat]))) =
  Some ([(16, 100)], mkView 112 0 0 1 112 112 112 1 0, [(16, 128)]).
Proof. vm_compute. reflexivity. Qed.

(** C14: deallocation, with whatever coalescing the heuristic asks for, keeps every other
    live allocation in memory held by the pool. *)
Theorem C14_deallocate_keeps_others :
  forall (W : Type) (P : Parent W) limP Inv, ParentSpec P limP Inv ->
  forall cfg fuel, qcfg_ok cfg limP ->
  forall U U' s w p n, reachable P cfg fuel (limP - 2 * cf_align cfg) Inv U (s, w) ->
  Permutation U ((p, n) :: U') ->
    post (q_deallocate P cfg fuel p (s, w))
      (fun sw' _ => exists L, Inv (snd sw') L /\ pool_obs (cf_align cfg) U' L (q_view (fst sw')))
      (fun _ _ => False).
Proof. exact @fin_dealloc_keeps. Qed.
Print Assumptions C14_deallocate_keeps_others.

(** C14: termination for heuristics that settle.  Missing for the full claim: it is
    false for the other shipped heuristics, see below. *)
Theorem C14_terminates_partial :
  forall (W : Type) (P : Parent W) limP Inv, ParentSpec P limP Inv ->
  forall cfg fuel, qcfg_ok cfg limP ->
  forall U s w p n f, parent_total P -> settling (cf_heur cfg) ->
  reachable P cfg fuel (limP - 2 * cf_align cfg) Inv U (s, w) -> In (p, n) U ->
    q_deallocate P cfg (S (S f)) p (s, w) <> NoFuel /\ q_coalesce P cfg (S f) (s, w) <> NoFuel.
Proof. exact @fin_terminates. Qed.
Print Assumptions C14_terminates_partial.

(** The default heuristic, 0%, 100% and [blocks_releasable(n)] with n >= 2 settle. *)
Theorem C14_shipped_heuristics_settle :
  settling h_percent_0 /\ settling h_percent_100 /\ settling h_percent_100_hwm /\
  (forall n, 2 <= n -> settling (h_blocks_releasable n)) /\
  (forall n, 2 <= n -> settling (h_blocks_releasable_hwm n)).
Proof.
  exact (conj settling_percent_0 (conj settling_percent_100 (conj settling_percent_100_hwm
    (conj settling_blocks settling_blocks_hwm)))).
Qed.
Print Assumptions C14_shipped_heuristics_settle.

Example C14_ex_coalesce :
  obs_state (crun (ex_cfg (h_blocks_releasable 2)) 2
      [CAlloc 64; CAlloc 64; CAlloc 64; CFree 16; CFree 112] (cinit bump)) =
  Some ([(208, 64)], mkView 192 128 1 2 64 192 192 2 128, [(304, 144); (208, 80)]).
Proof. vm_compute. reflexivity. Qed.

(** [blocks_releasable(1)], and percentages below 100: two blocks, one of them half
    used; deallocating the other one never returns. *)
Theorem C14_blocks_releasable_1_refuted :
  exists U sw H,
    crun (ex_cfg (h_blocks_releasable 1)) 1 [CAlloc 64; CAlloc 32] (cinit bump) = Some (U, sw, H) /\
    U = [(112, 32); (16, 64)] /\
    forall fuel, q_deallocate host (ex_cfg (h_blocks_releasable 1)) fuel 16 sw = NoFuel.
Proof.
  exact (loop_forever (h_blocks_releasable 1) (proj1 (proj2 (proj2 (proj2 heur_ok_all))) 1) blocks_1_asks).
Qed.
Print Assumptions C14_blocks_releasable_1_refuted.

Theorem C14_percent_50_refuted :
  exists U sw H,
    crun (ex_cfg (h_percent (fun a => a / 2))) 1 [CAlloc 64; CAlloc 32] (cinit bump) = Some (U, sw, H) /\
    U = [(112, 32); (16, 64)] /\
    forall fuel, q_deallocate host (ex_cfg (h_percent (fun a => a / 2))) fuel 16 sw = NoFuel.
Proof.
  exact (loop_forever _ (proj1 (proj2 (proj2 (proj2 (proj2 (proj2 heur_ok_all))))) _) percent_50_asks).
Qed.
Print Assumptions C14_percent_50_refuted.

(** [do_coalesce] is noexcept: when the parent cannot supply the merged block, deallocate
    ends in std::terminate. *)
Theorem C14_deallocate_terminate_refuted :
  exists U sw H,
    crun (ex_cfg (h_blocks_releasable 2)) 5 [CAlloc 64; CAlloc 64; CFree 16]
      (cinit (bump_failing [2%nat; 3%nat])) = Some (U, sw, H) /\
    U = [(112, 64)] /\ q_deallocate host (ex_cfg (h_blocks_releasable 2)) 5 112 sw = Abort.
Proof. do 3 eexists. split; [vm_compute; reflexivity|]. split; vm_compute; reflexivity. Qed.
Print Assumptions C14_deallocate_terminate_refuted.

(** C15: the rounding is the least multiple above, for every size that leaves room ... *)
Theorem C15_round_up :
  forall A n, pow2_align A -> 1 <= n <= M64 - A ->
    n <= aligned_round_up A n /\ aligned_round_up A n mod A = 0 /\
    forall m, n <= m -> m mod A = 0 -> aligned_round_up A n <= m.
Proof. exact round_up_spec. Qed.
Print Assumptions C15_round_up.

(** ... in general it is that multiple modulo 2^64 ... *)
Theorem C15_round_up_mod :
  forall A n, pow2_align A -> 1 <= n < M64 -> aligned_round_up A n = w64 (round_to A n).
Proof. exact aligned_round_up_mod. Qed.
Print Assumptions C15_round_up_mod.

(** ... hence bytes are lost for every larger request. *)
Theorem C15_round_up_refuted :
  forall A n, pow2_align A -> M64 - A < n < M64 -> aligned_round_up A n = 0.
Proof. exact round_up_lost. Qed.
Print Assumptions C15_round_up_refuted.

Example C15_ex : aligned_round_up 16 1 = 16 /\ aligned_round_up 16 16 = 16 /\ aligned_round_up 16 17 = 32 /\
  aligned_round_up 16 (M64 - 16) = M64 - 16 /\ aligned_round_up 16 (M64 - 15) = 0 /\ pow2_align 16.
Proof. repeat split; try reflexivity. exists 4. split; [lia|reflexivity]. Qed.
