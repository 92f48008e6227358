(** Consequences of the DynamicPoolList invariant for whole histories. *)
From Verif Require Import Base BaseFacts AlignedModel AlignedFacts QuickPoolModel QuickPoolInv QuickPoolFacts QuickPoolOps QuickPoolFree
  QuickPoolMain QuickPoolSpec QuickPoolThms QuickPoolThms2 DynPoolModel DynPoolInv DynPoolFacts DynPoolOps DynPoolFree DynPoolMain
  DynPoolView DynPoolSpec.

Section Thms.
  Context {W : Type} (P : Parent W) (limP : Z) (Inv : W -> list region -> Prop).
  Hypothesis PS : ParentSpec P limP Inv.
  Context (cfg : dcfg).
  Let A := dc_align cfg.
  Hypothesis CFG : dcfg_ok cfg limP.

  Notation DW := (DW Inv cfg).
  Notation lim := (limP - 2 * dc_align cfg).
  Notation dstep := (dstep P cfg lim Inv).
  Notation dhist := (dhist P cfg lim Inv).
  Notation dreach := (dreach P cfg lim Inv).

  Let HA : 0 < A := dHA limP cfg CFG.
  Let qcf : qcfg := mkCfg (dc_first cfg) (dc_next cfg) (dc_align cfg) (fun _ => 0).
  Let QCF : qcfg_ok qcf limP.
  Proof.
    destruct CFG. constructor; cbn [qcf cf_align cf_first cf_next cf_heur]; auto.
    intros v _ _. unfold ASP. lia.
  Qed.

  Lemma dstep_inv U sw U' sw' : dstep (U, sw) (U', sw') ->
    forall B, DW (fst sw) (snd sw) B -> Permutation U (uregs B) ->
    exists B', DW (fst sw') (snd sw') B' /\ Permutation U' (uregs B') /\
      d_aligned_hwm (fst sw) <= d_aligned_hwm (fst sw') /\ d_actual_hwm (fst sw) <= d_actual_hwm (fst sw') /\
      ((forall cur v, dc_heur cfg cur v = 0) ->
         d_aligned_hwm (fst sw') = Z.max (d_aligned_hwm (fst sw)) (d_aligned (fst sw')) /\
         d_actual_hwm (fst sw') = Z.max (d_actual_hwm (fst sw)) (d_actual (fst sw'))).
  Proof.
    intros Hs B HDW HU. destruct sw as [s w]. cbn [fst snd] in HDW. pose proof HDW as (HD & HI).
    inversion Hs as [U0 sw0 n sw1 p Hn Ha|U0 sw0 n sw1 e Hn Ha|U0 U1 sw0 cur p n sw1 HP Ha|U0 U1 sw0 cur p n sw1 e HP Ha
      |U0 sw0 sw1 Ha|U0 sw0 cur sw1 Ha|U0 s0 w0 w1 Hw]; subst; clear Hs.
    - pose proof (d_allocate_ok P limP Inv PS cfg CFG s w B n HDW ltac:(lia) ltac:(lia)) as Hp.
      rewrite Ha in Hp. cbn [post] in Hp. destruct Hp as (B' & H1 & H2 & _ & _ & H3 & H4). exists B'. split; auto. split.
      + rewrite H2. now constructor.
      + cbn [fst]. split; [lia|]. split; [lia|]. auto.
    - pose proof (d_allocate_ok P limP Inv PS cfg CFG s w B n HDW ltac:(lia) ltac:(lia)) as Hp.
      rewrite Ha in Hp. cbn [post] in Hp. destruct Hp as (B' & H1 & _ & (w1 & e1 & w2 & _ & Hr & _ & HP & _) & H2 & H3 & H4). exists B'. split; auto.
      cbn [fst]. split; [|split; [lia|split; [lia|]]].
      + rewrite HU. apply Permutation_sym. eapply uregs_release; eauto.
      + intros _. pose proof (di_hwm _ _ _ HD). pose proof (di_hwm _ _ _ (proj1 H1)). pose proof (di_ahwm _ _ _ (proj1 H1)). lia.
    - assert (Hin : In (p, n) (uregs B)).
      { eapply Permutation_in; [exact HU|]. eapply Permutation_in; [apply Permutation_sym; eauto|simpl; auto]. }
      pose proof (d_deallocate_ok P limP Inv PS cfg CFG cur s w B p n HDW Hin) as Hp. cbv zeta in Hp.
      rewrite Ha in Hp. cbn [post] in Hp. destruct Hp as (B' & H1 & H2 & H3 & H4). exists B'. split; auto. split.
      + eapply Permutation_cons_inv. rewrite <- HP, HU. symmetry. exact H2.
      + cbn [fst]. split; [auto|]. split; [auto|]. intros H0.
        unfold d_deallocate in Ha. rewrite H0 in Ha. cbn [Z.eqb fst snd] in Ha. inversion Ha; subst. cbn [fst snd] in *.
        pose proof (di_hwm _ _ _ (proj1 H1)). pose proof (di_ahwm _ _ _ (proj1 H1)).
        assert (d_aligned_hwm (d_free_core p s) = d_aligned_hwm s /\ d_actual_hwm (d_free_core p s) = d_actual_hwm s) as [E1 E2].
        { unfold d_free_core. destruct (d_lookup p (d_used s)) as [[c u]|]; [|auto]. destruct (d_put _ _) as [f c']. 
          destruct (d_whole c'); auto. }
        lia.
    - assert (Hin : In (p, n) (uregs B)).
      { eapply Permutation_in; [exact HU|]. eapply Permutation_in; [apply Permutation_sym; eauto|simpl; auto]. }
      pose proof (d_deallocate_ok P limP Inv PS cfg CFG cur s w B p n HDW Hin) as Hp. cbv zeta in Hp.
      rewrite Ha in Hp. cbn [post] in Hp. destruct Hp as (B' & H1 & H2 & H3 & H4). exists B'. split; auto. split.
      + eapply Permutation_cons_inv. rewrite <- HP, HU. symmetry. exact H2.
      + cbn [fst]. split; [auto|]. split; [auto|]. intros H0.
        unfold d_deallocate in Ha. rewrite H0 in Ha. cbn [Z.eqb fst snd] in Ha. discriminate.
    - pose proof (d_release_ok P limP Inv PS cfg CFG s w B HDW) as Hp.
      rewrite Ha in Hp. cbn [post] in Hp. destruct Hp as (B' & HP & H1 & Hnone & H2 & H3 & H4 & H5). exists B'. split; auto.
      cbn [fst]. split; [|split; [lia|split; [lia|]]].
      + rewrite HU. apply Permutation_sym. eapply uregs_release; eauto.
      + intros _. pose proof (di_hwm _ _ _ HD). pose proof (di_hwm _ _ _ (proj1 H1)). pose proof (di_ahwm _ _ _ (proj1 H1)). lia.
    - pose proof (d_coalesce_ok P limP Inv PS cfg CFG cur s w B HDW) as Hp.
      rewrite Ha in Hp. cbn [post] in Hp. destruct Hp as (B' & H1 & H2 & H3 & H4). exists B'. split; auto. split.
      + rewrite HU. now symmetry.
      + cbn [fst]. split; [auto|]. split; [auto|]. intros H0.
        unfold d_coalesce in Ha. rewrite H0 in Ha. cbn [Z.eqb fst snd] in Ha. inversion Ha; subst. cbn [fst snd] in *.
        pose proof (di_hwm _ _ _ HD). pose proof (di_ahwm _ _ _ HD). lia.
    - exists B. split; [split; auto|]. split; auto. cbn [fst]. split; [lia|]. split; [lia|]. intros _.
      pose proof (di_hwm _ _ _ HD). pose proof (di_ahwm _ _ _ HD). lia.
  Qed.

  Lemma dhist_inv U sw H : dhist U sw H -> exists B, DW (fst sw) (snd sw) B /\ Permutation U (uregs B).
  Proof.
    induction 1 as [w Hw|U sw H U' sw' Hh (B & HDW & HU) Hs].
    - exists []. split; [split; [apply DI_init|exact Hw]|constructor].
    - destruct (dstep_inv _ _ _ _ Hs B HDW HU) as (B' & H1 & H2 & _). eauto.
  Qed.

  (** The state seen as a QuickPool state. *)
  Lemma QW_of s w B : DW s w B -> QuickPoolMain.QW Inv qcf (qof s B) w B.
  Proof. intros (HD & HI). split; [apply QI_qof; auto|]. split; [apply (di_stable _ _ _ HD)|exact HI]. Qed.

  Lemma d_obs s w B U : DW s w B -> Permutation U (uregs B) -> pool_obs A U (map b_held B) (d_view s).
  Proof.
    intros HDW HU. rewrite (d_view_eq A HA s B (proj1 HDW)).
    exact (obs_of_QI limP Inv qcf QCF (qof s B) B U w (QW_of s w B HDW) HU).
  Qed.

  Lemma d_max_gap s w B U g : DW s w B -> Permutation U (uregs B) ->
    (max_gap A U (map b_held B) g <-> In g (map dreg (d_free s))).
  Proof.
    intros HDW HU. pose proof (QW_of s w B HDW) as (HQ & Hst & _). destruct HDW as (HD & _).
    pose proof (max_gap_iff limP qcf QCF (qof s B) B U g HQ Hst HU : max_gap A U (map b_held B) g <-> _) as Hm.
    rewrite Hm. clear Hm. split; intros Hg; apply in_map_iff in Hg as (x & <- & Hx).
    - apply filter_In in Hx as [Hx Hf]. destruct (cells_dall _ _ Hx) as (z & Hz). apply in_map_iff. exists (dblk (x, z)).
      split; [reflexivity|]. apply (in_d_free A s B HD); auto. unfold is_free in Hf. destruct (k_st x); auto; discriminate.
    - apply (d_free_in A s B HD) in Hx as (y & z & Hy & Hs & ->). apply in_map_iff. exists y. split; [reflexivity|].
      apply filter_In. split; [eapply dall_in; eauto|]. unfold is_free. now rewrite Hs.
  Qed.

  Lemma d_rel_idle s w B U b : DW s w B -> Permutation U (uregs B) -> In b B -> (b_rel b = true <-> idle A U (b_held b)).
  Proof.
    intros HDW HU Hb. pose proof (QW_of s w B HDW) as (HQ & Hst & _).
    exact (b_rel_idle limP qcf QCF (qof s B) B U b HQ Hst HU Hb).
  Qed.

  Lemma dfin_obs U sw : dreach U sw -> exists L, Inv (snd sw) L /\ pool_obs A U L (d_view (fst sw)).
  Proof.
    intros (H & Hh). destruct (dhist_inv _ _ _ Hh) as (B & HDW & HU). exists (map b_held B). split; [apply HDW|].
    eapply d_obs; eauto.
  Qed.

  Lemma dfin_disjoint U sw : dreach U sw ->
    good U /\ exists L, Inv (snd sw) L /\ good L /\ forall u, In u U -> exists l, In l L /\ inside u l.
  Proof.
    intros Hr. destruct (dfin_obs _ _ Hr) as (L & HI & HO). split; [apply (po_live _ _ _ _ HO)|]. exists L. split; auto.
    split; [eapply (ps_good _ _ _ PS); eauto|]. intros u Hu. destruct (po_in _ _ _ _ HO u Hu) as (l & Hl & H1 & H2 & H3).
    exists l. split; auto. unfold inside in *. lia.
  Qed.

  Lemma dfin_aligned U sw : dreach U sw -> forall p n, In (p, n) U -> p mod A = 0.
  Proof. intros Hr p n Hin. destruct (dfin_obs _ _ Hr) as (L & HI & HO). apply (po_align _ _ _ _ HO _ Hin). Qed.

  Lemma dfin_safe U sw : dreach U sw ->
    (forall n, 0 < n <= lim -> d_allocate P cfg n sw <> UB) /\
    (forall cur p n, In (p, n) U -> d_deallocate P cfg cur p sw <> UB) /\
    (d_release P sw <> UB /\ forall sw' e, d_release P sw <> Throw sw' e) /\
    (forall cur, d_coalesce P cfg cur sw <> UB /\ forall sw' e, d_coalesce P cfg cur sw <> Throw sw' e).
  Proof.
    intros (H & Hh). destruct (dhist_inv _ _ _ Hh) as (B & HDW & HU). destruct sw as [s w]. cbn [fst snd] in HDW.
    split; [|split; [|split]].
    - intros n Hn E. pose proof (d_allocate_ok P limP Inv PS cfg CFG s w B n HDW ltac:(lia) ltac:(lia)) as Hp.
      rewrite E in Hp. exact Hp.
    - intros cur p n Hin E. pose proof (d_deallocate_ok P limP Inv PS cfg CFG cur s w B p n HDW (Permutation_in _ HU Hin)) as Hp.
      cbv zeta in Hp. rewrite E in Hp. exact Hp.
    - pose proof (d_release_ok P limP Inv PS cfg CFG s w B HDW) as Hp. split.
      + intros E. rewrite E in Hp. exact Hp.
      + intros sw' e E. rewrite E in Hp. exact Hp.
    - intros cur. pose proof (d_coalesce_ok P limP Inv PS cfg CFG cur s w B HDW) as Hp. split.
      + intros E. rewrite E in Hp. exact Hp.
      + intros sw' e E. rewrite E in Hp. exact Hp.
  Qed.

  (** The free list is exactly the maximal gaps, in address order. *)
  Lemma dfin_merged U sw : dreach U sw -> exists L, Inv (snd sw) L /\
    (forall g, In g (map dreg (d_free (fst sw))) <-> max_gap A U L g) /\
    pairwise (fun a b => fst a + snd a <= fst b) (map dreg (d_free (fst sw))).
  Proof.
    intros (H & Hh). destruct (dhist_inv _ _ _ Hh) as (B & HDW & HU). destruct sw as [s w]. cbn [fst snd] in *.
    exists (map b_held B). split; [apply HDW|]. split.
    - intros g. symmetry. eapply d_max_gap; eauto.
    - rewrite pairwise_map. destruct HDW as (HD & _). pose proof (di_sorted _ _ _ HD) as Hs.
      assert (Hin : forall c, In c (d_free s) -> exists x, In x (cells B) /\ cell_region x = dreg c).
      { intros c Hc. apply (d_free_in A s B HD) in Hc as (x & z & Hx & _ & ->). exists x. split; [eapply dall_in; eauto|reflexivity]. }
      revert Hs Hin. generalize (d_free s). intros l. induction l as [|c l IH]; [constructor|].
      intros [H1 H2] Hin. split; [|apply IH; auto; intros; apply Hin; now right].
      intros c' Hc'. destruct (Hin c (or_introl eq_refl)) as (x & Hx & Ex). destruct (Hin c' (or_intror Hc')) as (y & Hy & Ey).
      specialize (H1 c' Hc'). unfold dlt in H1. rewrite <- Ex, <- Ey. unfold cell_region, dreg in *. cbn [fst snd].
      injection Ex as Ex1 Ex2. injection Ey as Ey1 Ey2. destruct (di_cell A s B HD y Hy) as ((Hp & _) & _).
      destruct (Z_le_gt_dec (k_data x + k_size x) (k_data y)); auto. exfalso.
      assert (x = y) by (eapply (di_overlap A s B HD x y (k_data y)); auto; lia). subst. lia.
  Qed.

  Lemma dfin_release U s w : dreach U (s, w) ->
    post (d_release P (s, w))
      (fun sw' _ => exists I R, Inv w (I ++ R) /\
         (forall l, In l I -> idle A U l) /\ (forall l, In l R -> ~ idle A U l) /\
         Inv (snd sw') R /\ pool_obs A U R (d_view (fst sw')))
      (fun _ _ => False).
  Proof.
    intros (H & Hh). destruct (dhist_inv _ _ _ Hh) as (B & HDW & HU). cbn [fst snd] in *.
    eapply post_impl; [| |apply (d_release_ok P limP Inv PS cfg CFG s w B HDW)]; auto.
    intros [s' w'] _ (B' & HP & HDW' & Hnone & _). cbn [fst snd] in *. pose proof HDW as (HD & HI).
    exists (map b_held (rel_blocks B)), (map b_held B'). rewrite <- map_app. split; [|split; [|split; [|split]]].
    - eapply (ps_perm _ _ _ PS); [|exact HI]. now apply Permutation_map.
    - intros l Hl. apply in_map_iff in Hl as (b & <- & Hb). apply filter_In in Hb as [Hb Hr].
      apply (d_rel_idle s w B U b); auto.
    - intros l Hl. apply in_map_iff in Hl as (b & <- & Hb). intros Hid.
      assert (HbB : In b B). { eapply Permutation_in; [apply Permutation_sym, HP|]. apply in_or_app; auto. }
      apply (d_rel_idle s w B U b) in Hid; auto.
      assert (In b (rel_blocks B')) by (apply filter_In; auto). rewrite Hnone in *. contradiction.
    - apply HDW'.
    - apply (d_obs s' w' B'); auto. rewrite HU. apply Permutation_sym. eapply uregs_release; eauto.
  Qed.

  Lemma dfin_release_all s w : dreach [] (s, w) ->
    post (d_release P (s, w))
      (fun sw' _ => Inv (snd sw') [] /\ v_actual (d_view (fst sw')) = 0 /\ v_total_blocks (d_view (fst sw')) = 0)
      (fun _ _ => False).
  Proof.
    intros Hr. eapply post_impl; [| |apply (dfin_release [] s w Hr)]; auto.
    intros sw' _ (I & R & H1 & H2 & H3 & H4 & H5).
    destruct R as [|l R]; [|exfalso; apply (H3 l); simpl; auto; intros u []].
    split; auto. rewrite (po_actual _ _ _ _ H5), (po_total _ _ _ _ H5). auto.
  Qed.

  Lemma dfin_hwm_upper U sw H : dhist U sw H -> forall s0, In s0 H ->
    d_aligned s0 <= d_aligned_hwm (fst sw) /\ d_actual s0 <= d_actual_hwm (fst sw).
  Proof.
    induction 1 as [w Hw|U sw H U' sw' Hh IH Hs].
    - intros s0 [<-|[]]. cbn. lia.
    - destruct (dhist_inv _ _ _ Hh) as (B & HDW & HU).
      destruct (dstep_inv _ _ _ _ Hs B HDW HU) as (B' & (HD' & _) & _ & H1 & H2 & _).
      intros s0 [<-|Hs0]; [split; [apply (di_hwm _ _ _ HD')|apply (di_ahwm _ _ _ HD')]|].
      destruct (IH s0 Hs0). lia.
  Qed.

  Lemma dfin_hwm_exact U sw H : (forall cur v, dc_heur cfg cur v = 0) -> dhist U sw H ->
    d_aligned_hwm (fst sw) = maxZ (map d_aligned H) /\ d_actual_hwm (fst sw) = maxZ (map d_actual H).
  Proof.
    intros H0. induction 1 as [w Hw|U sw H U' sw' Hh IH Hs]; [cbn; lia|].
    destruct (dhist_inv _ _ _ Hh) as (B & HDW & HU).
    destruct (dstep_inv _ _ _ _ Hs B HDW HU) as (_ & _ & _ & _ & _ & H3). destruct (H3 H0) as [E1 E2]. destruct IH as [I1 I2].
    unfold maxZ in *. cbn [map fold_right]. lia.
  Qed.

  (** *** allocate *)
  Lemma d_round n : 0 < n <= lim -> aligned_round_up A n = round_to A n.
  Proof.
    intros Hn. apply aligned_round_up_round_to; auto; [lia|]. pose proof (dk_lim _ _ CFG). fold A in Hn. lia.
  Qed.

  Lemma free_le_largest s c : In c (d_free s) -> d_size c <= v_largest (d_view s).
  Proof. intros Hc. cbn [d_view v_largest]. destruct (largest_fold (d_free s) 0) as (_ & H & _). now apply H. Qed.
  Lemma largest_free s : 0 < v_largest (d_view s) -> exists c, In c (d_free s) /\ d_size c = v_largest (d_view s).
  Proof.
    intros Hp. cbn [d_view v_largest] in *. destruct (largest_fold (d_free s) 0) as (_ & _ & [E|H]); [|exact H].
    fold (d_largest (d_free s)) in E. lia.
  Qed.

  Lemma d_use_shape r i s (w : W) : d_use r i s w = UB \/ exists s' ret, d_use r i s w = Ok (s', w) ret.
  Proof. unfold d_use. destruct (nth_error (d_free s) i); [|auto]. right. cbv zeta. eauto. Qed.

  Lemma dfin_alloc_hit U s w n : dreach U (s, w) -> 0 < n <= lim -> round_to A n <= v_largest (d_view s) ->
    exists L s' g, Inv w L /\ pool_obs A U L (d_view s) /\
      d_allocate P cfg n (s, w) = Ok (s', w) (fst g) /\
      max_gap A U L g /\ round_to A n <= snd g /\
      (forall g', max_gap A U L g' -> round_to A n <= snd g' -> snd g <= snd g') /\
      pool_obs A ((fst g, n) :: U) L (d_view s').
  Proof.
    intros (H & Hh) Hn Hr. destruct (dhist_inv _ _ _ Hh) as (B & HDW & HU). cbn [fst snd] in HDW.
    pose proof HDW as (HD & HI). pose proof (d_round n Hn) as Er. rewrite <- Er in *.
    pose proof (d_allocate_ok P limP Inv PS cfg CFG s w B n HDW ltac:(lia) ltac:(lia)) as Hp. fold A in Hp.
    assert (Hpos : 0 < aligned_round_up A n) by (rewrite Er; pose proof (round_to_spec A n HA); lia).
    destruct (largest_free s ltac:(lia)) as (c & Hc & Ec).
    assert (Hok : exists s' p, d_allocate P cfg n (s, w) = Ok (s', w) p).
    { unfold d_allocate in Hp |- *. fold A in Hp |- *. cbn [fst snd] in *. 
      destruct (d_find (aligned_round_up A n) 0 None (d_free s)) as [i|] eqn:Ef.
      - destruct (d_use_shape (aligned_round_up A n) i s w) as [E|E]; auto. rewrite E in Hp. contradiction.
      - pose proof (d_find_none _ _ Ef c Hc). lia. }
    destruct Hok as (s' & p & Hok). rewrite Hok in Hp. cbn [post fst snd] in Hp.
    destruct Hp as (B' & HDW' & HU' & _ & Hsrc & _).
    destruct Hsrc as [(x & Hx & Hxs & -> & Hxr & Hmin & _ & HH)|(Hno & _)].
    - exists (map b_held B), s', (cell_region x). cbn [cell_region fst snd].
      split; [exact HI|]. split; [eapply d_obs; eauto|]. split; [exact Hok|].
      pose proof (QW_of s w B HDW) as (HQ & Hst & _).
      assert (Hmg : max_gap A U (map b_held B) (cell_region x)).
      { apply (max_gap_iff limP qcf QCF (qof s B) B U _ HQ Hst HU). apply in_map, filter_In. split; auto. unfold is_free; now rewrite Hxs. }
      split; [exact Hmg|]. split; [exact Hxr|]. split.
      + intros g' Hg' Hfit. apply (max_gap_iff limP qcf QCF (qof s B) B U _ HQ Hst HU) in Hg'.
        apply in_map_iff in Hg' as (y & <- & Hy). apply filter_In in Hy as [Hy Hfy].
        cbn [cell_region snd] in *. apply Hmin; auto. unfold is_free in Hfy. destruct (k_st y); auto; discriminate.
      + eapply pool_obs_perm; [exact HH|]. apply (d_obs s' w B'); auto. rewrite HU'. now constructor.
    - exfalso. apply (d_free_in A s B HD) in Hc as (x & z & Hx & Hxs & ->). cbn [dblk d_size fst] in Ec.
      specialize (Hno x (dall_in _ _ _ Hx) Hxs). lia.
  Qed.

  Lemma d_grow_eq sz s w : sz + A < M64 -> 0 < sz ->
    d_grow P cfg sz (s, w) =
    match p_alloc P (sz + A) w with
    | Ok w' p => Ok (dset_base s (fset (d_base s) (align_up A p) (p, sz + A)), w') (align_up A p)
    | Throw w' e => Throw (s, w') e | UB => UB | Abort => Abort | NoFuel => NoFuel
    end.
  Proof.
    intros H1 H2. unfold d_grow, aligned_allocate. fold A. rewrite w64_small by lia.
    destruct (p_alloc P (sz + A) w); cbn [omap fst snd]; auto. destruct s; reflexivity.
  Qed.

  Lemma dfin_alloc_miss U s w n : dreach U (s, w) -> 0 < n <= lim -> v_largest (d_view s) < round_to A n ->
    let total := Z.max (round_to A n) (if v_actual (d_view s) =? 0 then dc_first cfg else dc_next cfg) + A in
    exists L, Inv w L /\ pool_obs A U L (d_view s) /\
      (forall w1 p, p_alloc P total w = Ok w1 p ->
        exists s', d_allocate P cfg n (s, w) = Ok (s', w1) (round_to A p) /\
          pool_obs A ((round_to A p, n) :: U) ((p, total) :: L) (d_view s')) /\
      (forall w1 e, p_alloc P total w = Throw w1 e ->
        forall s2 w2, d_release P (s, w1) = Ok (s2, w2) tt ->
        exists I R, Permutation L (I ++ R) /\ (forall l, In l I -> idle A U l) /\ (forall l, In l R -> ~ idle A U l) /\
          pool_obs A U R (d_view s2) /\
          (forall w3 p, p_alloc P total w2 = Ok w3 p ->
             exists s', d_allocate P cfg n (s, w) = Ok (s', w3) (round_to A p) /\
               pool_obs A ((round_to A p, n) :: U) ((p, total) :: R) (d_view s')) /\
          (forall w3 e3, p_alloc P total w2 = Throw w3 e3 ->
             d_allocate P cfg n (s, w) = Throw (s2, w3) e3)).
  Proof.
    intros (H & Hh) Hn Hr total. destruct (dhist_inv _ _ _ Hh) as (B & HDW & HU). cbn [fst snd] in HDW.
    pose proof HDW as (HD & HI). pose proof (d_round n Hn) as Er. 
    pose proof (d_allocate_ok P limP Inv PS cfg CFG s w B n HDW ltac:(lia) ltac:(lia)) as Hp. fold A in Hp. rewrite Er in Hp.
    assert (Hsm : forall c, In c (d_free s) -> d_size c < round_to A n).
    { intros c Hc. pose proof (free_le_largest s c Hc). lia. }
    assert (Hfind : d_find (round_to A n) 0 None (d_free s) = None).
    { destruct (d_find (round_to A n) 0 None (d_free s)) as [i|] eqn:Ef; auto. exfalso.
      apply d_find_some in Ef as (c & Hc & Hge & _). apply nth_error_In in Hc. specialize (Hsm c Hc). lia. }
    assert (Hsz : zmax (round_to A n) (match d_free s, d_used s with [], [] => dc_first cfg | _, _ => dc_next cfg end) =
                  Z.max (round_to A n) (if v_actual (d_view s) =? 0 then dc_first cfg else dc_next cfg) /\
                  dnew_size cfg B (round_to A n) = Z.max (round_to A n) (if v_actual (d_view s) =? 0 then dc_first cfg else dc_next cfg)).
    { unfold dnew_size. rewrite (d_empty_iff cfg s B HD), !zmax_max.
      assert (E : (match B with [] => dc_first cfg | _ => dc_next cfg end) = if v_actual (d_view s) =? 0 then dc_first cfg else dc_next cfg); [|rewrite E; auto].
      cbn [d_view v_actual]. rewrite (di_actual _ _ _ HD). destruct B as [|b B]; [reflexivity|].
      assert (Hbp : forall b', In b' (b :: B) -> 0 < b_size b') by (intros b' Hb'; apply (b_size_pos _ _ (di_blk _ _ _ HD b' Hb'))).
      assert (0 < sumZ (map b_size (b :: B))); [|destruct (Z.eqb_spec (sumZ (map b_size (b :: B))) 0); [lia|reflexivity]].
      cbn [map]. rewrite sumZ_cons. pose proof (Hbp b (or_introl eq_refl)).
      assert (0 <= sumZ (map b_size B)); [|lia]. assert (Hbp' : forall b', In b' B -> 0 < b_size b') by (intros; apply Hbp; now right).
      clear - Hbp'. induction B as [|c B IH]; [cbn; lia|]. cbn [map]. rewrite sumZ_cons. pose proof (Hbp' c (or_introl eq_refl)).
      assert (0 <= sumZ (map b_size B)) by (apply IH; intros; apply Hbp'; now right). lia. }
    destruct Hsz as [Ez Ed]. unfold dalloc_src, dfailed in Hp. rewrite Ed in Hp.
    set (sz := Z.max (round_to A n) (if v_actual (d_view s) =? 0 then dc_first cfg else dc_next cfg)) in *.
    assert (Hszb : 0 < sz /\ sz + A <= limP).
    { unfold sz. pose proof (round_to_spec A n HA).
      destruct (dk_first _ _ CFG) as [F1 F2]. destruct (dk_next _ _ CFG) as [N1 N2]. fold A in F2, N2, Hn.
      destruct (v_actual (d_view s) =? 0); lia. }
    assert (Heq : d_allocate P cfg n (s, w) =
      let* (sw1, i) := (let* (sw3, data) := match d_grow P cfg sz (s, w) with
            | Throw sw1 _ => let* (sw2, _u) := d_release P sw1 in d_grow P cfg sz sw2 | o' => o' end in
         let '(s0, w0) := sw3 in
         let actual := w64 (d_actual s0 + sz) in
         let s1 := dset_actual s0 actual (zmax actual (d_actual_hwm s0)) (w64 (d_rel_blocks s0 + 1)) (w64 (d_total_blocks s0 + 1)) in
         let '(pre, next) := d_before data (d_free s1) in
         Ok (dset_lists s1 (d_used s1) (pre ++ mkD data sz sz :: next), w0) (length pre)) in
      d_use (round_to A n) i (fst sw1) (snd sw1)).
    { unfold d_allocate, d_new_block. fold A. rewrite Er. cbn [fst]. rewrite Hfind, Ez. reflexivity. }
    clearbody sz. clear Ez. subst total. destruct Hszb as [Hsz1 Hsz2]. pose proof (dk_lim _ _ CFG) as HlM.
    assert (Hnohit : forall x, In x (cells B) -> k_st x = SFree -> round_to A n <= k_size x -> False).
    { intros x Hx Hxs Hxr. destruct (cells_dall _ _ Hx) as (z & Hz). pose proof (Hsm _ (in_d_free A s B HD x z Hz Hxs)) as Hlt.
      cbn [dblk d_size fst] in Hlt. lia. }
    rewrite Heq in Hp. rewrite Heq. clear Heq. rewrite d_grow_eq in Hp |- * by lia.
    exists (map b_held B). split; [exact HI|]. split; [eapply d_obs; eauto|]. split.
    - intros w1 p Ea. rewrite Ea in Hp |- *. cbn [bind] in Hp |- *. cbv zeta in Hp |- *.
      destruct (d_before (align_up A p) _) as [pre nx]. cbn [bind fst snd] in Hp |- *.
      match type of Hp with post (d_use ?a ?b ?c ?d) _ _ => destruct (d_use_shape a b c d) as [E|(s' & ret & E)] end;
        rewrite E in Hp |- *; [contradiction|]. cbn [post fst snd] in Hp.
      destruct Hp as (B' & HDW' & HU' & _ & Hsrc & _).
      destruct Hsrc as [(x & Hx & Hxs & -> & Hxr & Hmin & _)|(Hno & p' & B1 & -> & Hgr & HH)]; [exfalso; eauto|].
      fold A in HH, Hgr. destruct Hgr as [[Ea' ->]|(w9 & e9 & s9 & w8 & Ea' & _)]; [|congruence].
      assert (p' = p) as -> by congruence.
      assert (HI' : Inv w1 ((p, sz + A) :: map b_held B)).
      { eapply (ps_perm _ _ _ PS); [exact HH|]. apply HDW'. }
      rewrite <- (ptr_round P limP Inv PS qcf QCF _ _ _ _ HI' ltac:(lia) : align_up A p = round_to A p). exists s'. split; [reflexivity|].
      eapply pool_obs_perm; [exact HH|]. apply (d_obs s' w1 B'); auto. rewrite HU'. now constructor.
    - intros w1 e Ea s2 w2 Erel.
      assert (HI1 : Inv w1 (map b_held B)).
      { pose proof (ps_alloc _ _ _ PS w _ (sz + A) HI) as Hpa. rewrite Ea in Hpa. apply Hpa. lia. }
      pose proof (d_release_ok P limP Inv PS cfg CFG s w1 B (conj HD HI1)) as Hrel.
      rewrite Erel in Hrel. cbn [post fst snd] in Hrel. destruct Hrel as (B2 & HP2 & HDW2 & Hnone2 & _).
      exists (map b_held (rel_blocks B)), (map b_held B2). rewrite <- map_app. split; [now apply Permutation_map|].
      assert (Hidle : forall b, In b B -> (b_rel b = true <-> idle A U (b_held b))).
      { intros b Hb. apply (d_rel_idle s w B U b); auto. }
      split; [|split; [|split; [|split]]].
      + intros l Hl. apply in_map_iff in Hl as (b & <- & Hb). apply filter_In in Hb as [Hb Hbr]. now apply Hidle.
      + intros l Hl. apply in_map_iff in Hl as (b & <- & Hb). intros Hid.
        assert (HbB : In b B). { eapply Permutation_in; [apply Permutation_sym, HP2|]. apply in_or_app; auto. }
        apply Hidle in Hid; auto. assert (In b (rel_blocks B2)) by (apply filter_In; auto). rewrite Hnone2 in *. contradiction.
      + apply (d_obs s2 w2 B2); auto. rewrite HU. apply Permutation_sym. eapply uregs_release; eauto.
      + intros w3 p Ea3. rewrite Ea in Hp |- *. rewrite Erel in Hp |- *. cbn [bind] in Hp |- *. rewrite d_grow_eq in Hp |- * by lia. 
        rewrite Ea3 in Hp |- *. cbn [bind] in Hp |- *. cbv zeta in Hp |- *.
        destruct (d_before (align_up A p) _) as [pre nx]. cbn [bind fst snd] in Hp |- *.
        match type of Hp with post (d_use ?a ?b ?c ?d) _ _ => destruct (d_use_shape a b c d) as [E|(s' & ret & E)] end;
          rewrite E in Hp |- *; [contradiction|]. cbn [post fst snd] in Hp.
        destruct Hp as (B' & HDW' & HU' & _ & Hsrc & _).
        destruct Hsrc as [(x & Hx & Hxs & -> & Hxr & Hmin & _)|(Hno & p' & B1 & -> & Hgr & HH)]; [exfalso; eauto|].
        fold A in HH, Hgr. destruct Hgr as [[Ea' ->]|(w9 & e9 & s9 & w8 & Ea' & Er9 & Ea9 & HP9 & _)]; [congruence|].
        assert (w9 = w1) as -> by congruence.
        assert (s9 = s2 /\ w8 = w2) as [-> ->] by (rewrite Erel in Er9; split; congruence).
        assert (p' = p) as -> by congruence.
        assert (HBB : Permutation B1 B2).
        { apply (Permutation_app_inv_l (rel_blocks B)). eapply Permutation_trans; [apply Permutation_sym, HP9|exact HP2]. }
        assert (HI' : Inv w3 ((p, sz + A) :: map b_held B1)).
        { eapply (ps_perm _ _ _ PS); [exact HH|]. apply HDW'. }
        rewrite <- (ptr_round P limP Inv PS qcf QCF _ _ _ _ HI' ltac:(lia) : align_up A p = round_to A p). exists s'. split; [reflexivity|].
        eapply pool_obs_perm; [eapply Permutation_trans; [exact HH|constructor; apply Permutation_map, HBB]|].
        apply (d_obs s' w3 B'); auto. rewrite HU'. now constructor.
      + intros w3 e3 Ea3. rewrite Ea. rewrite Erel. cbn [bind]. rewrite d_grow_eq by lia. rewrite Ea3. reflexivity.
  Qed.

  (** *** Termination: no call runs into the model's recursion bound. *)
  Lemma dnf_release_loop todo : parent_total P -> forall keep sw, d_release_loop P keep todo sw <> NoFuel.
  Proof.
    intros [_ PD]. induction todo as [|c todo IH]; intros keep [s w]; cbn [d_release_loop]; [discriminate|].
    destruct (d_whole c); [|apply IH]. cbv zeta. unfold aligned_deallocate.
    destruct (match d_base _ _ with Some bs => bs | None => _ end) as [b sz].
    specialize (PD b sz w). destruct (p_dealloc P b sz w); cbn [omap]; try discriminate; try (apply IH); congruence.
  Qed.
  Lemma dnf_grow sz sw : parent_total P -> d_grow P cfg sz sw <> NoFuel.
  Proof.
    intros [PA _]. destruct sw as [s w]. unfold d_grow, aligned_allocate. cbv zeta.
    specialize (PA (w64 (sz + dc_align cfg)) w). destruct (p_alloc P _ w); cbn [omap]; try discriminate; congruence.
  Qed.
  Lemma bind_nf {X Y T} (o : outcome X T) (k : X -> T -> outcome X Y) : o <> NoFuel -> (forall x t, k x t <> NoFuel) -> bind o k <> NoFuel.
  Proof. destruct o; cbn [bind]; try discriminate; try congruence. Qed.
  Lemma dnf_use r i s (w : W) : d_use r i s w <> NoFuel.
  Proof. destruct (d_use_shape r i s w) as [->|(s' & ret & ->)]; discriminate. Qed.
  Lemma dnf_allocate n sw : parent_total P -> d_allocate P cfg n sw <> NoFuel.
  Proof.
    intros PT. unfold d_allocate. cbv zeta. destruct (d_find _ _ _ _); [apply dnf_use|].
    apply bind_nf; [|intros; apply dnf_use]. unfold d_new_block. cbv zeta. apply bind_nf.
    - match goal with |- context [d_grow P cfg ?z ?x] => pose proof (dnf_grow z x PT); destruct (d_grow P cfg z x) end; try discriminate; try congruence.
      apply bind_nf; [apply dnf_release_loop; auto|]. intros; now apply dnf_grow.
    - intros [s1 w1] d. destruct (d_before _ _). discriminate.
  Qed.
  Lemma dnf_dpa sug sw : parent_total P -> d_dpa_coalesce P cfg sug sw <> NoFuel.
  Proof.
    intros PT. unfold d_dpa_coalesce. destruct (1 <? _); [|discriminate]. apply bind_nf; [now apply dnf_release_loop|].
    intros sw1 _. cbv zeta. destruct (_ <? _); [|discriminate]. unfold d_coalesce_free. apply bind_nf; [now apply dnf_release_loop|].
    intros sw2 _. apply bind_nf; [now apply dnf_allocate|]. discriminate.
  Qed.
  Lemma dfin_terminates sw : parent_total P ->
    (forall n, d_allocate P cfg n sw <> NoFuel) /\ (forall cur p, d_deallocate P cfg cur p sw <> NoFuel) /\
    d_release P sw <> NoFuel /\ (forall cur, d_coalesce P cfg cur sw <> NoFuel).
  Proof.
    intros PT. split; [intros; now apply dnf_allocate|]. split; [|split].
    - intros. unfold d_deallocate. cbv zeta. destruct (_ =? 0); [discriminate|]. now apply dnf_dpa.
    - now apply dnf_release_loop.
    - intros. unfold d_coalesce. cbv zeta. destruct (_ =? 0); [discriminate|].
      match goal with |- noexcept ?o <> _ => assert (o <> NoFuel) by (now apply dnf_dpa); destruct o; cbn [noexcept]; try discriminate; congruence end.
  Qed.
End Thms.
