(** QuickPool meets the strategy contract. *)
From Verif Require Import Base BaseFacts StratModel StratFacts AlignedModel AlignedFacts QuickPoolModel
  QuickPoolInv QuickPoolFacts QuickPoolOps QuickPoolFree QuickPoolMain QuickPoolStrat.

Lemma uregs_covered A s B : QI A s B [] -> covered (uregs B) (map b_held B).
Proof.
  intros HQ. destruct HQ. intros u Hu. unfold uregs in Hu.
  apply in_map_iff in Hu as (x & <- & Hx). apply filter_In in Hx as [Hx Hu].
  apply in_cells in Hx as (b & Hb & Hx). exists (b_held b). split; [now apply in_map|].
  pose proof (cell_in_held A b x (qi_blk b Hb) Hx) as Hi.
  destruct (bo_cells _ _ (qi_blk b Hb) x Hx) as (C1 & C2 & C3).
  unfold is_used in Hu. unfold inside, cell_region, cell_alloc, cell_req in *.
  destruct (k_st x); try discriminate. cbn [fst snd] in *. lia.
Qed.

Lemma QuickPool_ok cfg fuel limP :
  qcfg_ok cfg limP ->
  StratOk (QuickPool cfg fuel) (QInv (cf_align cfg)) limP (limP - 2 * cf_align cfg).
Proof.
  intros CFG.
  assert (HQW : forall W (P : Parent W) Inv s w U L, ParentSpec P limP Inv ->
            QInv (cf_align cfg) s U L -> Inv w L ->
            exists B, QW Inv cfg s w B /\ Permutation U (uregs B)).
  { intros W P Inv s w U L HP (B & HQ & Hst & HU & HL) HI. exists B. split; auto.
    split; [exact HQ|]. split; auto. eapply (ps_perm _ _ _ HP); eauto. }
  assert (HQI : forall W (Inv : W -> list region -> Prop) s w U B, QW Inv cfg s w B -> Permutation U (uregs B) ->
            exists L, QInv (cf_align cfg) s U L /\ Inv w L).
  { intros W Inv s w U B (HQ & Hst & HI) HU. exists (map b_held B). split; auto. exists B. auto. }
  constructor; cbn [st_ty QuickPool st_make st_alloc st_dealloc st_release st_coalesce].
  - intros s U U' L L'. apply QInv_perm.
  - intros s U L (B & HQ & Hst & HU & HL) HG. split.
    + eapply good_perm; [apply Permutation_sym, HU|]. eapply uregs_good; eauto.
    + eapply covered_perm; [apply Permutation_sym, HU|apply Permutation_sym, HL|]. eapply uregs_covered; eauto.
  - intros W P Inv w HP HI. cbn. exists []. split; auto. apply QInv_init.
  - intros W P Inv s w U L n HP HR HI Hn.
    destruct (HQW W P Inv s w U L HP HR HI) as (B & HB & HU).
    eapply post_impl; [| |apply (q_allocate_ok P limP Inv HP cfg CFG s w B n HB); lia].
    + intros [s' w'] p (B' & HB' & HU' & _). cbn [fst snd] in *. apply (HQI _ _ _ _ _ B'); auto. now rewrite HU', HU.
    + intros [s' w'] e (B' & HB' & _ & (w1 & e1 & w2 & e2 & _ & _ & _ & HP' & _) & _). cbn [fst snd] in *.
      apply (HQI _ _ _ _ _ B'); auto. rewrite (uregs_release _ _ HP'). exact HU.
  - intros W P Inv s w U L p n cur HP HR HI.
    destruct (HQW W P Inv s w _ L HP HR HI) as (B & HB & HU).
    assert (Hin : In (p, n) (uregs B)) by (eapply Permutation_in; [exact HU|simpl; auto]).
    eapply post_impl; [| |apply (q_deallocate_ok P limP Inv HP cfg CFG fuel s w B p n HB Hin)]; auto.
    intros [s' w'] u (B' & HB' & HU' & _). cbn [fst snd] in *. apply (HQI _ _ _ _ _ B'); auto.
    rewrite <- HU in HU'. now apply Permutation_cons_inv, Permutation_sym in HU'.
  - intros W P Inv s w U L HP HR HI.
    destruct (HQW W P Inv s w _ L HP HR HI) as (B & HB & HU).
    eapply post_impl; [| |apply (q_release_ok P limP Inv HP cfg CFG s w B HB)]; [|contradiction].
    intros [s' w'] u (B' & HP' & HB' & _). cbn [fst snd] in *. apply (HQI _ _ _ _ _ B'); auto.
    rewrite (uregs_release _ _ HP'). exact HU.
  - intros W P Inv s w U L cur HP HR HI.
    destruct (HQW W P Inv s w _ L HP HR HI) as (B & HB & HU).
    eapply post_impl; [| |apply (q_coalesce_ok P limP Inv HP cfg CFG fuel s w B HB)]; [|contradiction].
    intros [s' w'] u (B' & HB' & HU' & _). cbn [fst snd] in *. apply (HQI _ _ _ _ _ B'); auto.
    rewrite HU'. exact HU.
Qed.
