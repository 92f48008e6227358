(** DynamicPoolList meets the strategy contract: the one of strategies used directly by the
    program, since a deallocation that coalesces may throw; and the full one when its heuristic
    never asks for coalescing. *)
From Verif Require Import Base BaseFacts StratModel StratFacts AlignedModel AlignedFacts QuickPoolModel
  QuickPoolInv QuickPoolFacts QuickPoolOps QuickPoolMain QuickPoolStratFacts DynPoolModel DynPoolInv DynPoolView DynPoolMain.

Definition DInv (A : Z) (s : dpool) (U L : list region) : Prop :=
  exists B, DI A s B /\ Permutation U (uregs B) /\ Permutation L (map b_held B).

Section Contract.
  Context (cfg : dcfg) (limP : Z) (CFG : dcfg_ok cfg limP).
  Notation A := (dc_align cfg).

  Lemma DInv_DW W (P : Parent W) Inv s w U L : ParentSpec P limP Inv -> DInv A s U L -> Inv w L ->
    exists B, DW Inv cfg s w B /\ Permutation U (uregs B).
  Proof.
    intros HP (B & HD & HU & HL) HI. exists B. split; auto. split; [exact HD|]. eapply (ps_perm _ _ _ HP); eauto.
  Qed.

  Lemma DW_DInv W (Inv : W -> list region -> Prop) s w U B : DW Inv cfg s w B -> Permutation U (uregs B) ->
    exists L, DInv A s U L /\ Inv w L.
  Proof. intros (HD & HI) HU. exists (map b_held B). split; auto. exists B. auto. Qed.

  Lemma DInv_inside s U L : DInv A s U L -> good U /\ covered U L.
  Proof.
    intros (B & HD & HU & HL).
    pose proof (QI_qof A s B HD) as HQ. split.
    - eapply good_perm; [apply Permutation_sym, HU|]. eapply uregs_good; eauto.
    - eapply covered_perm; [apply Permutation_sym, HU|apply Permutation_sym, HL|]. eapply uregs_covered; eauto.
  Qed.

  Lemma DInv_perm s U U' L L' : Permutation U U' -> Permutation L L' -> DInv A s U L -> DInv A s U' L'.
  Proof. intros H1 H2 (B & HD & HU & HL). exists B. split; [exact HD|]. now rewrite <- H1, <- H2. Qed.

  Lemma d_alloc_contract W (P : Parent W) Inv s w U L n : ParentSpec P limP Inv ->
    DInv A s U L -> Inv w L -> 0 < n <= limP - 2 * A ->
    post (d_allocate P cfg n (s, w))
      (fun sw p => exists L', DInv A (fst sw) ((p, n) :: U) L' /\ Inv (snd sw) L')
      (fun sw _ => exists L', DInv A (fst sw) U L' /\ Inv (snd sw) L').
  Proof.
    intros HP HR HI Hn. destruct (DInv_DW W P Inv s w U L HP HR HI) as (B & HB & HU).
    eapply post_impl; [| |apply (d_allocate_ok P limP Inv HP cfg CFG s w B n HB); lia].
    - intros [s' w'] p (B' & HB' & HU' & _). cbn [fst snd] in *. apply (DW_DInv _ _ _ _ _ B' HB'). now rewrite HU', HU.
    - intros [s' w'] e (B' & HB' & _ & (w1 & e1 & w2 & _ & _ & _ & HP' & _) & _). cbn [fst snd] in *.
      apply (DW_DInv _ _ _ _ _ B'); auto. rewrite (uregs_release _ _ HP'). exact HU.
  Qed.

  Lemma DynamicPoolList_leaf :
    LeafOk (DynamicPoolList cfg) (DInv A) (fun _ n => 0 < n <= limP - 2 * A) True limP.
  Proof.
    constructor; cbn [st_ty DynamicPoolList st_make st_alloc st_dealloc st_release st_coalesce].
    - intros s U U' L L'. apply DInv_perm.
    - intros s U L HD HG. exact (DInv_inside s U L HD).
    - intros W P Inv w HP HI. cbn. exists []. split; auto. exists []. split; [apply DI_init|]. split; constructor.
    - intros W P Inv s w U L n HP HR HI Hn. eapply post_impl; [| |apply (d_alloc_contract W P Inv s w U L n HP HR HI Hn)]; cbv beta; auto.
      intros [s' w'] p (L' & H1 & H2). cbn [fst snd] in *. exists L'. split; [|exact H2].
      rewrite (good_nonnull p n U); [exact H1|]. now apply (DInv_inside s' _ L').
    - intros W P Inv s w U L p n cur HP HR HI.
      destruct (DInv_DW W P Inv s w _ L HP HR HI) as (B & HB & HU).
      assert (Hin : In (p, n) (uregs B)) by (eapply Permutation_in; [exact HU|simpl; auto]).
      assert (HE : forall B' : list blk, Permutation ((p, n) :: uregs B') (uregs B) -> Permutation U (uregs B')).
      { intros B' HU'. rewrite <- HU in HU'. now apply Permutation_cons_inv, Permutation_sym in HU'. }
      eapply post_impl; [| |apply (d_deallocate_ok P limP Inv HP cfg CFG cur s w B p n HB Hin)]; cbv beta.
      + intros [s' w'] u (B' & HB' & HU' & _). cbn [fst snd] in *. apply (DW_DInv _ _ _ _ _ B'); auto.
      + intros [s' w'] u (B' & HB' & HU' & _). cbn [fst snd] in *. split; [exact I|]. apply (DW_DInv _ _ _ _ _ B'); auto.
    - intros W P Inv s w U L HP HR HI.
      destruct (DInv_DW W P Inv s w _ L HP HR HI) as (B & HB & HU).
      eapply post_impl; [| |apply (d_release_ok P limP Inv HP cfg CFG s w B HB)]; [|contradiction].
      intros [s' w'] u (B' & HP' & HB' & _). cbn [fst snd] in *. apply (DW_DInv _ _ _ _ _ B'); auto.
      rewrite (uregs_release _ _ HP'). exact HU.
    - intros W P Inv s w U L cur HP HR HI.
      destruct (DInv_DW W P Inv s w _ L HP HR HI) as (B & HB & HU).
      eapply post_impl; [| |apply (d_coalesce_ok P limP Inv HP cfg CFG cur s w B HB)]; [|contradiction].
      intros [s' w'] u (B' & HB' & HU' & _). cbn [fst snd] in *. apply (DW_DInv _ _ _ _ _ B'); auto.
      rewrite HU'. exact HU.
  Qed.

  Lemma DynamicPoolList_ok : (forall cur v, dc_heur cfg cur v = 0) ->
    StratOk (DynamicPoolList cfg) (DInv A) limP (limP - 2 * A).
  Proof.
    intros H0. pose proof DynamicPoolList_leaf as [H1 H2 H3 H4 H5 H6 H7]. constructor; auto.
    - intros W P Inv s w U L n HP HR HI Hn. now apply (d_alloc_contract W P Inv s w U L n).
    - intros W P Inv s w U L p n cur HP HR HI. pose proof (H5 W P Inv s w U L p n cur HP HR HI) as H. revert H.
      cbn [DynamicPoolList st_dealloc]. unfold d_deallocate. rewrite H0. cbn [Z.eqb fst snd post]. auto.
  Qed.
End Contract.
