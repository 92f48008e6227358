(** Property C25 (MixedPool).  Histories: [runs] (StratSpec.v). *)
From Verif Require Import Base HeapModel HeapFacts StratModel StratSpec StratRun QuickPoolModel QuickPoolSpec QuickPoolMain QuickPoolThms4
  QuickPoolRun FixedPoolModel MixedPoolModel MixedPoolFacts MixedPoolSpec MixedPoolThms.

(** C25: live allocations do not overlap and lie in memory held from the parent. *)
Theorem C25_mixed_pool_disjoint :
  forall cfg cfuel fuel (W : Type) (P : Parent W) limP Inv, ParentSpec P limP Inv -> mcfg_ok cfg limP ->
  forall t sw, runs (MixedPool cfg cfuel fuel) P Inv t sw ->
    (forall n, In n (requests t) -> n <= limP - 2 * cf_align (mc_quick cfg)) ->
    good (live t) /\ exists L, Inv (snd sw) L /\ forall r, In r (live t) -> exists l, In l L /\ inside r l.
Proof. exact @mxt_disjoint. Qed.
Print Assumptions C25_mixed_pool_disjoint.

(** C25: a fixed pool has exactly the live allocations for which its size class is the smallest
    sufficient one ([suits], MixedPoolSpec.v) ... *)
Theorem C25_mixed_pool_classes :
  forall cfg cfuel fuel (W : Type) (P : Parent W) limP Inv, ParentSpec P limP Inv -> mcfg_ok cfg limP ->
  forall t sw i c, runs (MixedPool cfg cfuel fuel) P Inv t sw ->
    (forall n, In n (requests t) -> n <= limP - 2 * cf_align (mc_quick cfg)) ->
    nth_error (mp_fixed (fst sw)) i = Some c ->
    exists Ui, NoDup Ui /\
      (forall r, In r Ui <-> In r (live t) /\ suits (map cl_size (mp_fixed (fst sw))) (snd r) i) /\
      fx_current_size (cl_pool c) = cl_size c * Z.of_nat (length Ui) /\
      forall r, In r Ui -> fx_is_from_pool (cl_size c) (cl_per c) (fst r) (cl_pool c) = true.
Proof. exact @mxt_routing. Qed.
Print Assumptions C25_mixed_pool_classes.

(** ... and the quick pool has exactly those no class is sufficient for; its getters report on
    them alone ([pool_obs], QuickPoolSpec.v). *)
Theorem C25_mixed_pool_others :
  forall cfg cfuel fuel (W : Type) (P : Parent W) limP Inv, ParentSpec P limP Inv -> mcfg_ok cfg limP ->
  forall t sw, runs (MixedPool cfg cfuel fuel) P Inv t sw ->
    (forall n, In n (requests t) -> n <= limP - 2 * cf_align (mc_quick cfg)) ->
    exists Uq Lq Lf, Inv (snd sw) (Lf ++ Lq) /\
      (forall r, In r Uq <-> In r (live t) /\ forall i, ~ suits (map cl_size (mp_fixed (fst sw))) (snd r) i) /\
      pool_obs (cf_align (mc_quick cfg)) Uq Lq (q_view (mp_quick (fst sw))).
Proof. exact @mxt_routing_quick. Qed.
Print Assumptions C25_mixed_pool_others.

(** C25: a deallocation neither fails nor touches any pool but the one that served the
    allocation. *)
Theorem C25_mixed_pool_returns :
  forall cfg cfuel fuel (W : Type) (P : Parent W) limP Inv, ParentSpec P limP Inv -> mcfg_ok cfg limP ->
  forall t sw p n cur, runs (MixedPool cfg cfuel fuel) P Inv t sw ->
    (forall n, In n (requests t) -> n <= limP - 2 * cf_align (mc_quick cfg)) -> In (p, n) (live t) ->
    post (st_dealloc (MixedPool cfg cfuel fuel) W P cur p n sw)
         (fun sw' _ =>
            (forall j, ~ suits (map cl_size (mp_fixed (fst sw))) n j ->
               nth_error (mp_fixed (fst sw')) j = nth_error (mp_fixed (fst sw)) j) /\
            ((exists j, suits (map cl_size (mp_fixed (fst sw))) n j) -> mp_quick (fst sw') = mp_quick (fst sw)))
         (fun _ _ => False).
Proof. exact @mxt_returns. Qed.
Print Assumptions C25_mixed_pool_returns.

(** Classes of 8 and 16 bytes with 4 and 2 slots; larger requests go to the quick pool. *)
Definition ex_mixed : mcfg := mkMcfg 8 64 32 2 (ex_cfg h_percent_0).

Example C25_ex_config : mcfg_ok ex_mixed (M64 - 1).
Proof.
  constructor; cbn [ex_mixed mc_small mc_mult mc_large mc_max_initial mc_quick]; try (unfold M64; lia).
  apply ex_cfg_ok. apply heur_ok_all.
Qed.

(** An address of the quick pool's block is reused for another size of the same pool, slots are
    reused within their class. *)
Example C25_ex :
  sobs (sfrom (MixedPool ex_mixed 5 3) bump
          [SAlloc 5; SAlloc 9; SAlloc 20; SAlloc 16; SFree 16; SAlloc 30; SAlloc 8; SFree 112; SAlloc 17; SAlloc 12])
  = Some ([Got 12 208; Got 17 112; Returned 112 20; Got 8 16; Got 30 144; Returned 16 5;
           Got 16 80; Got 20 112; Got 9 64; Got 5 16], [(208, 32); (112, 80); (64, 32); (16, 32)]).
Proof. vm_compute. reflexivity. Qed.

Example C25_ex_hyps :
  let t := [Got 12 208; Got 17 112; Returned 112 20; Got 8 16; Got 30 144; Returned 16 5; Got 16 80; Got 20 112; Got 9 64; Got 5 16] in
  (exists sw, runs (MixedPool ex_mixed 5 3) host heap_inv t sw) /\
  (forall n, In n (requests t) -> n <= M64 - 1 - 2 * cf_align (mc_quick ex_mixed)) /\ In (144, 30) (live t).
Proof.
  cbv zeta. split; [destruct (sobs_runs _ _ _ _ C25_ex) as (sw & H & _); eauto|]. split; [|cbn; auto 10].
  intros n Hn. assert (n <= 30) by (cbn in Hn; repeat (destruct Hn as [<-|Hn]; [lia|]); contradiction). cbn [ex_mixed mc_quick ex_cfg cf_align]. unfold M64. lia.
Qed.


(** With size multiplier 1 (accepted) the constructor never returns, with any parent. *)
Theorem C25_multiplier_1_refuted :
  forall q cfuel fuel (W : Type) (P : Parent W) w w' s,
    st_make (MixedPool (mkMcfg 8 64 32 1 q) cfuel fuel) W P w <> Ok w' s.
Proof. exact @mx_multiplier_1. Qed.
Print Assumptions C25_multiplier_1_refuted.

(** A size class that wraps to 0 makes the constructor divide by zero. *)
Theorem C25_class_wrap_refuted :
  exists w, heap_inv w [] /\
    st_make (MixedPool (mkMcfg 1 (M64 - 1) (2 ^ 34) (2 ^ 32) (ex_cfg h_percent_0)) 5 3) heap host w = UB.
Proof.
  exists (mkHeap bump 0 [] []). split; [|vm_compute; reflexivity].
  exists []. split; [constructor|]. split; [intros r []|exact I].
Qed.
Print Assumptions C25_class_wrap_refuted.
