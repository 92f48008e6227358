(** DynamicPoolList in a sanitized build: what every call does to the shadow. *)
From Verif Require Import Base BaseFacts StratModel StratFacts AlignedModel AlignedFacts QuickPoolModel QuickPoolInv
  QuickPoolFacts QuickPoolOps QuickPoolFree QuickPoolMain DynPoolModel DynPoolInv DynPoolFacts DynPoolOps DynPoolFree DynPoolMain
  DynPoolView SanModel SanSpec SanFacts SanQuick.

Lemma d_release_loop_dealloc {W} (P P' : Parent W) : p_dealloc P = p_dealloc P' ->
  forall todo keep sw, d_release_loop P keep todo sw = d_release_loop P' keep todo sw.
Proof.
  intros E. induction todo as [|c todo IH]; intros keep [s w]; [reflexivity|]. cbn [d_release_loop].
  destruct (d_whole c); [|apply IH].
  unfold aligned_deallocate. rewrite E.
  match goal with |- match ?x with _ => _ end = _ => destruct x; auto end.
Qed.

Section Main.
  Context {W : Type} (P : Parent (W * shadow)) (limP : Z) (Inv : W -> list region -> Prop).
  Hypothesis SP : SanParent P limP Inv.
  Context (cfg : dcfg).
  Let A := dc_align cfg.
  Hypothesis CFG : dcfg_ok cfg limP.
  Let InvZ := fun (ws : W * shadow) L => Inv (fst ws) L.
  Let S8 := A mod 8 = 0.

  Lemma yspec : ParentSpec (zP P true) limP InvZ.
  Proof. apply zP_spec, SP. Qed.

  Definition YW (s : dpool) (ws : W * shadow) (B : list blk) : Prop := DW InvZ cfg s ws B.

  Lemma yw_sh s w sh sh' B : YW s (w, sh) B -> YW s (w, sh') B.
  Proof. intros (H1 & H2). split; [exact H1|exact H2]. Qed.

  Lemma y_release_ok s w sh B : YW s (w, sh) B ->
    post (d_release (zP P true) (s, (w, sh)))
      (fun sw' _ => exists B', Permutation B (rel_blocks B ++ B') /\ YW (fst sw') (snd sw') B' /\
         sh_keeps (map b_held B') sh (snd (snd sw')) /\ rel_blocks B' = [])
      (fun _ _ => False).
  Proof.
    intros (HQ & HI). unfold d_release. rewrite (d_release_loop_dealloc (zP P true) (backP P) eq_refl).
    fold (d_release (backP P) (s, (w, sh))).
    refine (post_impl _ _ _ _ _ _ _ (d_release_ok (backP P) limP _ (backP_spec P limP Inv sh SP) cfg CFG s (w, sh) B _)); auto.
    - intros [s' [w' sh']] _ (B' & HP & (HQ' & HI' & Hk) & Hn & _). cbn [fst snd] in *.
      exists B'. split; [exact HP|]. split; [|auto]. split; [exact HQ'|exact HI'].
    - split; [exact HQ|]. split; [exact HI|apply keeps_refl].
  Qed.

  Lemma y_grown s w sh B t w' sh' p B1 : YW s (w, sh) B -> 0 < t <= limP ->
    dgrown (zP P true) s (w, sh) B t (w', sh') p B1 ->
    grows (map b_held B) ((p, t) :: map b_held B1) sh sh' /\ stays S8 (uregs B) sh sh'.
  Proof.
    intros HZ Ht HG. pose proof HZ as (HQ & HI).
    pose proof (ps_good _ _ _ (sp_spec _ _ _ SP)) as Hgood.
    destruct HG as [[E ->]|(w1 & e & s2 & w2 & E1 & E2 & E3 & HP & Hn)].
    - pose proof (z_palloc P limP Inv SP w sh (map b_held B) t HI Ht) as H. rewrite E in H. cbn [post fst snd] in H.
      destruct H as (sh1 & Hk & Es & HI'). subst sh'. pose proof (Hgood (w', sh1) _ HI') as Hg.
      split; [exists (map b_held B); split; [apply incl_refl|right; exists p, t, sh1; auto]|].
      eapply stays_keeps; [apply (live_covered A B (di_blk _ _ _ HQ))|].
      eapply keeps_trans3; [apply incl_refl|exact Hk|]. now apply keeps_poison.
    - destruct w1 as [w1 sh1], w2 as [w2 sh2].
      pose proof (z_palloc P limP Inv SP w sh (map b_held B) t HI Ht) as H. rewrite E1 in H. cbn [post fst snd] in H. destruct H as [Hk1 HI1].
      assert (HZ1 : YW s (w1, sh1) B) by (split; [exact HQ|exact HI1]).
      pose proof (y_release_ok s w1 sh1 B HZ1) as H. rewrite E2 in H. cbn [post fst snd] in H.
      destruct H as (B2 & HP2 & (HQ2 & HI2) & Hk2 & Hn2).
      assert (HPB : Permutation B1 B2).
      { apply (Permutation_app_inv_l (rel_blocks B)). now rewrite <- HP. }
      cbn [InvZ fst] in HI2.
      pose proof (z_palloc P limP Inv SP w2 sh2 (map b_held B2) t HI2 Ht) as H. rewrite E3 in H. cbn [post fst snd] in H.
      destruct H as (sh3 & Hk3 & Es & HI'). subst sh'. pose proof (Hgood (w', sh3) _ HI') as Hg.
      assert (Hinc : incl (map b_held B2) (map b_held B)).
      { apply incl_map. intros b Hb. eapply Permutation_in; [apply Permutation_sym, HP2|]. apply in_or_app; auto. }
      assert (Hk : sh_keeps (map b_held B2) sh sh3).
      { eapply keeps_trans3; [exact Hinc|exact Hk1|]. eapply keeps_trans3; [apply incl_refl|exact Hk2|exact Hk3]. }
      split.
      + exists (map b_held B2). split; [exact Hinc|]. right. exists p, t, sh3. split; auto.
        constructor. now apply Permutation_map.
      + eapply stays_keeps; [apply (live_covered_kept A B (di_blk _ _ _ HQ) B2 HP2)|].
        eapply keeps_trans3; [apply incl_refl|exact Hk|]. now apply keeps_poison.
  Qed.

  Lemma y_failed s w sh B t sw' e2 B1 : YW s (w, sh) B -> 0 < t <= limP ->
    dfailed (zP P true) s (w, sh) B t sw' e2 B1 ->
    sh_keeps (map b_held B1) sh (snd (snd sw')) /\ incl (map b_held B1) (map b_held B) /\ covered (uregs B) (map b_held B1).
  Proof.
    intros HZ Ht (w1 & e & w2 & E1 & E2 & E3 & HP & Hn). pose proof HZ as (HQ & HI).
    destruct w1 as [w1 sh1], w2 as [w2 sh2].
    pose proof (z_palloc P limP Inv SP w sh (map b_held B) t HI Ht) as H. rewrite E1 in H. cbn [post fst snd] in H. destruct H as [Hk1 HI1].
    assert (HZ1 : YW s (w1, sh1) B) by (split; [exact HQ|exact HI1]).
    pose proof (y_release_ok s w1 sh1 B HZ1) as H. rewrite E2 in H. cbn [post fst snd] in H.
    destruct H as (B2 & HP2 & (HQ2 & HI2) & Hk2 & Hn2).
    assert (HPB : Permutation B1 B2).
    { apply (Permutation_app_inv_l (rel_blocks B)). now rewrite <- HP. }
    cbn [InvZ fst] in HI2.
    pose proof (z_palloc P limP Inv SP w2 sh2 (map b_held B2) t HI2 Ht) as H. rewrite E3 in H. cbn [post fst snd] in H. destruct H as [Hk3 _].
    assert (Hinc : incl (map b_held B1) (map b_held B)).
    { apply incl_map. intros b Hb. eapply Permutation_in; [apply Permutation_sym, HP|]. apply in_or_app; auto. }
    assert (Hinc2 : incl (map b_held B1) (map b_held B2)).
    { intros l Hl. eapply Permutation_in; [apply (Permutation_map b_held HPB)|exact Hl]. }
    split; [|split; [exact Hinc|apply (live_covered_kept A B (di_blk _ _ _ HQ) B1 HP)]].
    eapply keeps_trans3; [exact Hinc|exact Hk1|]. eapply keeps_incl; [exact Hinc2|].
    eapply keeps_trans3; [apply incl_refl|exact Hk2|exact Hk3].
  Qed.

  Definition V (U0 : list region) (B : list blk) (sh : shadow) (B' : list blk) (sh' : shadow) : Prop :=
    stays S8 U0 sh sh' /\
    (S8 -> guarded sh (uregs B) (map b_held B) -> guarded sh' (uregs B') (map b_held B')).

  Lemma V_trans U0 B1 sh1 B2 sh2 B3 sh3 : V U0 B1 sh1 B2 sh2 -> V U0 B2 sh2 B3 sh3 -> V U0 B1 sh1 B3 sh3.
  Proof. intros [H1 H2] [H3 H4]. split; [eapply stays_trans; eauto|auto]. Qed.
  Lemma V_refl U0 B sh : V U0 B sh B sh.
  Proof. split; [apply stays_refl|auto]. Qed.
  Lemma V_incl U0 U1 B sh B' sh' : incl U1 U0 -> V U0 B sh B' sh' -> V U1 B sh B' sh'.
  Proof. intros Hi [H1 H2]. split; [eapply stays_incl; eauto|auto]. Qed.

  Lemma V_release s w sh B : YW s (w, sh) B ->
    post (d_release (zP P true) (s, (w, sh)))
      (fun sw' _ => exists B', YW (fst sw') (snd sw') B' /\ Permutation (uregs B') (uregs B) /\
         V (uregs B) B sh B' (snd (snd sw')))
      (fun _ _ => False).
  Proof.
    intros HZ. refine (post_impl _ _ _ _ _ _ _ (y_release_ok s w sh B HZ)); auto.
    intros [s' [w' sh']] _ (B' & HP & HZ' & Hk & _). cbn [fst snd] in *. exists B'. split; [exact HZ'|].
    pose proof (uregs_release _ _ HP) as HU. split; [exact HU|]. destruct HZ as (HQ & _). split.
    - eapply stays_keeps; [apply (live_covered_kept A B (di_blk _ _ _ HQ) B' HP)|exact Hk].
    - intros _ Hg. eapply guarded_U; [apply Permutation_sym, HU|]. eapply guarded_shrink; [|exact Hk|exact Hg].
      apply incl_map. intros b Hb. eapply Permutation_in; [apply Permutation_sym, HP|]. apply in_or_app; auto.
  Qed.

  Lemma ynew_total B r : 0 < r -> r + A <= limP -> 0 < dnew_size cfg B r + A <= limP.
  Proof.
    intros Hr Hl. pose proof (dHA limP cfg CFG) as HA0. fold A in HA0.
    destruct (dk_first _ _ CFG) as [F1 F2]. destruct (dk_next _ _ CFG) as [N1 N2]. fold A in F2, N2.
    unfold dnew_size, zmax. destruct B; match goal with |- context [?a <? ?b] => destruct (Z.ltb_spec a b) end; lia.
  Qed.

  Lemma dregs_good s B : DI A s B -> good (uregs B).
  Proof. intros H. apply (uregs_good A (DynPoolView.qof s B) B []). apply DynPoolView.QI_qof; auto. Qed.

  Lemma V_allocate s w sh B n : YW s (w, sh) B -> 0 < n -> n + 2 * A <= limP ->
    post (y_allocate P true cfg n (s, (w, sh)))
      (fun sw' p => exists B', YW (fst sw') (snd sw') B' /\ Permutation (uregs B') ((p, n) :: uregs B) /\
         V (uregs B) B sh B' (snd (snd sw')) /\
         (forall a, within (p, n) a -> poisoned (snd (snd sw')) a = false))
      (fun sw' _ => exists B', YW (fst sw') (snd sw') B' /\ Permutation (uregs B') (uregs B) /\
         V (uregs B) B sh B' (snd (snd sw'))).
  Proof.
    intros HZ Hn Hl. unfold y_allocate. apply post_bind.
    pose proof (dHA limP cfg CFG) as HA0. fold A in HA0. pose proof (dk_lim _ _ CFG) as HL.
    pose proof (aligned_round_up_spec A n HA0 Hn ltac:(lia)) as Hru. cbv zeta in Hru. destruct Hru as [Hr1 _].
    pose proof (ynew_total B (aligned_round_up A n) ltac:(lia) ltac:(lia)) as Htot.
    pose proof HZ as (HQ & _).
    refine (post_impl _ _ _ _ _ _ _ (d_allocate_ok (zP P true) limP InvZ yspec cfg CFG s (w, sh) B n HZ Hn Hl)).
    - intros [s' [w' sh']] p (B' & HZ' & HU & _ & Hsrc & _). cbn [post fst snd u_unpoison] in *. fold A in Hsrc.
      exists B'. split; [eapply yw_sh; exact HZ'|]. split; [exact HU|].
      pose proof HZ' as (HQ' & HI').
      assert (Hin : In (p, n) (uregs B')) by (eapply Permutation_in; [apply Permutation_sym, HU|simpl; auto]).
      destruct (live_cell A B' (di_blk _ _ _ HQ') (di_good _ _ _ HQ') p n Hin) as
        (x & Hx & Hxd & Hxs & X1 & X2 & X3 & X4 & X5 & X6).
      assert (HG : grows (map b_held B) (map b_held B') sh sh' /\ stays S8 (uregs B) sh sh').
      { destruct Hsrc as [(y & _ & _ & _ & _ & _ & Ew & HP)|(_ & q & B1 & _ & HG & HP)].
        - assert (sh' = sh) as -> by congruence. split; [|apply stays_refl].
          exists (map b_held B). split; [apply incl_refl|]. left. split; [exact HP|apply keeps_refl].
        - destruct (y_grown s w sh B _ w' sh' q B1 HZ Htot HG) as [(L1 & Hi & Hd) Hs]. split; [|exact Hs].
          exists L1. split; [exact Hi|]. destruct Hd as [[HP1 Hk]|(p0 & t0 & sh1 & HP1 & Hr)].
          + left. split; [now rewrite HP|exact Hk].
          + right. exists p0, t0, sh1. split; [now rewrite HP|exact Hr]. }
      destruct HG as [HG Hs]. split.
      + split.
        * eapply stays_trans; [exact Hs|]. apply stays_unpoison; try lia.
          -- intros H8. apply (align8_ptr A); auto.
          -- eapply good_perm; [exact HU|]. eapply dregs_good; eauto.
        * intros H8 Hgd. eapply guarded_U; [apply Permutation_sym, HU|]. apply guarded_unpoison; try lia.
          -- apply (align8_ptr A); auto.
          -- apply (grows_guarded _ _ _ _ _ HG Hgd).
      + intros a Ha. apply unpoison_in; try lia. exact Ha.
    - intros [s' [w' sh']] e (B' & HZ' & _ & Hf & _). cbn [fst snd] in *. fold A in Hf. exists B'. split; [exact HZ'|].
      destruct (y_failed s w sh B _ _ _ B' HZ Htot Hf) as (Hk & Hi & Hc).
      destruct Hf as (w1 & e1 & w2 & _ & _ & _ & HP & _). pose proof (uregs_release _ _ HP) as HU.
      split; [exact HU|]. cbn [fst snd] in *. split.
      + eapply stays_keeps; eauto.
      + intros _ Hg. eapply guarded_U; [apply Permutation_sym, HU|]. eapply guarded_shrink; eauto.
  Qed.

  (** [curr->size] is the rounded size of the allocation. *)
  Lemma y_lookup_size s B x n : DI A s B -> In x (cells B) -> k_st x = SUsed n ->
    exists c t, d_lookup (k_data x) (d_used s) = Some (c, t) /\ d_size c = k_size x.
  Proof.
    intros HQ Hx Hs. destruct (cells_dall _ _ Hx) as (z & Hz).
    assert (Hu : In (dblk (x, z)) (d_used s)).
    { eapply Permutation_in; [apply Permutation_sym, (di_used _ _ _ HQ)|]. apply in_map, filter_In. split; auto.
      unfold usedp, is_used. cbn [fst]. now rewrite Hs. }
    pose proof (d_lookup_spec (k_data x) (d_used s)) as Hl.
    destruct (d_lookup (k_data x) (d_used s)) as [[c t]|].
    - destruct Hl as (HP & E). exists c, t. split; [reflexivity|].
      assert (Hc : In c (d_used s)) by (eapply Permutation_in; [apply Permutation_sym, HP|simpl; auto]).
      eapply Permutation_in in Hc; [|apply (di_used _ _ _ HQ)]. apply in_map_iff in Hc as ((y & zy) & <- & Hy).
      apply filter_In in Hy as [Hy _]. apply dall_in in Hy. cbn [dblk d_data d_size fst] in *.
      pose proof (DynPoolView.QI_qof A s B HQ) as HQI.
      pose proof (qi_cells_nodup_data _ _ _ _ HQI) as Hnd.
      assert (y = x) as ->; [|reflexivity].
      clear - Hnd Hx Hy E. induction (cells B) as [|v l IH]; [destruct Hx|]. cbn [map] in Hnd. apply NoDup_cons_iff in Hnd as [N1 N2].
      destruct Hx as [->|Hx], Hy as [->|Hy]; auto.
      + exfalso. apply N1. rewrite <- E. now apply in_map.
      + exfalso. apply N1. rewrite E. now apply in_map.
    - exfalso. apply (Hl _ Hu). reflexivity.
  Qed.

  Lemma V_free s w sh B p n : YW s (w, sh) B -> In (p, n) (uregs B) ->
    exists s' sh' B', y_free true p (s, (w, sh)) = (s', (w, sh')) /\
      YW s' (w, sh') B' /\ Permutation ((p, n) :: uregs B') (uregs B) /\ V (uregs B') B sh B' sh'.
  Proof.
    intros (HQ & HI) Hin. pose proof (dHA limP cfg CFG) as HA0. fold A in HA0, HQ. cbn [InvZ fst] in HI.
    destruct (d_free_core_ok A s B p n HA0 HQ Hin) as (B1 & HQ1 & HU1 & HL1 & _).
    destruct (live_cell A B (di_blk _ _ _ HQ) (di_good _ _ _ HQ) p n Hin) as
        (x & Hx & Hxd & Hxs & X1 & X2 & X3 & X4 & X5 & X6).
    destruct (y_lookup_size s B x n HQ Hx Hxs) as (c & t & El & Ec). rewrite Hxd in El.
    exists (d_free_core p s), (asan_poison p (k_size x) sh), B1.
    split; [unfold y_free; cbn [fst snd]; rewrite El; cbn [u_poison fst snd]; now rewrite Ec|].
    split; [split; [exact HQ1|]|split; [exact HU1|split]].
    - cbn [InvZ fst]. eapply (ps_perm _ _ _ (sp_spec _ _ _ SP) (w, sh)); [apply Permutation_sym, HL1|exact HI].
    - apply stays_poison; try lia. apply (X6 _ HU1).
    - intros H8 Hg. eapply guarded_L; [apply Permutation_sym, HL1|]. eapply guarded_poison; try exact HU1; try lia; auto.
      + apply (align8_ptr A); auto.
      + rewrite X5. apply align8_round; auto; try lia.
        apply in_cells in Hx as (b & Hb & Hxb). destruct (good_mem _ _ (di_good _ _ _ HQ) (in_map b_held _ _ Hb)) as (G1 & G2 & G3).
        pose proof (bo_total _ _ (di_blk _ _ _ HQ b Hb)) as Ht. pose proof ASP_M64.
        pose proof (bo_hi _ _ (di_blk _ _ _ HQ b Hb)). pose proof (bo_lo _ _ (di_blk _ _ _ HQ b Hb)).
        pose proof (contig_inside _ _ _ (bo_contig _ _ (di_blk _ _ _ HQ b Hb)) Hxb) as Hci.
        unfold inside, cell_region in Hci. cbn [fst snd b_held] in *. unfold b_size in *. lia.
  Qed.

  Definition vend (B : list blk) (sh : shadow) (sw' : zd (W := W)) : Prop :=
    exists B', YW (fst sw') (snd sw') B' /\ Permutation (uregs B') (uregs B) /\ V (uregs B) B sh B' (snd (snd sw')).

  Lemma vend_trans B sh s1 w1 sh1 B1 sw' : YW s1 (w1, sh1) B1 -> Permutation (uregs B1) (uregs B) -> V (uregs B) B sh B1 sh1 ->
    vend B1 sh1 sw' -> vend B sh sw'.
  Proof.
    intros H1 H2 H3 (B' & K1 & K2 & K3). exists B'. split; [exact K1|]. split; [now rewrite K2|].
    eapply V_trans; [exact H3|]. eapply V_incl; [|exact K3]. intros u Hu. eapply Permutation_in; [apply Permutation_sym, H2|exact Hu].
  Qed.

  Lemma V_coalesce_free size s w sh B : YW s (w, sh) B -> 0 < size < ASP ->
    post (y_coalesce_free P true cfg size (s, (w, sh))) (fun sw' _ => vend B sh sw') (fun sw' _ => vend B sh sw').
  Proof.
    intros HW Hsz. unfold y_coalesce_free. apply post_bind.
    refine (post_impl _ _ _ _ _ _ _ (V_release s w sh B HW)); [|contradiction].
    intros [s2 [w2 sh2]] _ (B2 & HW2 & HU2 & HV2). cbn [fst snd] in *.
    pose proof (dk_asp _ _ CFG) as HASP. fold A in HASP.
    apply post_bind. refine (post_impl _ _ _ _ _ _ _ (V_allocate s2 w2 sh2 B2 size HW2 _ _)); try lia.
    - intros [s3 [w3 sh3]] p3 (B3 & HW3 & HU3 & HV3 & _). cbn [post fst snd] in *.
      assert (Hin3 : In (p3, size) (uregs B3)) by (apply (Permutation_in _ (Permutation_sym HU3)); simpl; auto).
      destruct (V_free s3 w3 sh3 B3 p3 size HW3 Hin3) as (s4 & sh4 & B4 & -> & HW4 & HU4 & HV4).
      rewrite HU3 in HU4. apply Permutation_cons_inv in HU4.
      exists B4. cbn [fst snd]. split; [exact HW4|]. split; [now rewrite HU4|].
      assert (H2 : incl (uregs B) (uregs B2)) by (intros u Hu; eapply Permutation_in; [apply Permutation_sym, HU2|exact Hu]).
      assert (H4 : incl (uregs B) (uregs B4)) by (intros u Hu; eapply Permutation_in; [apply Permutation_sym, HU4|auto]).
      eapply V_trans; [exact HV2|]. eapply V_trans; [eapply V_incl; [exact H2|exact HV3]|]. eapply V_incl; [exact H4|exact HV4].
    - intros [s3 [w3 sh3]] e (B3 & HW3 & HU3 & HV3). cbn [fst snd] in *.
      eapply vend_trans; [exact HW2|exact HU2|exact HV2|]. exists B3. auto.
  Qed.

  Lemma V_dpa_coalesce sug s w sh B : YW s (w, sh) B -> 0 <= sug < ASP ->
    post (y_dpa_coalesce P true cfg sug (s, (w, sh))) (fun sw' _ => vend B sh sw') (fun sw' _ => vend B sh sw').
  Proof.
    intros HW Hsz. unfold y_dpa_coalesce. cbn [fst].
    assert (H0 : vend B sh (s, (w, sh))) by (exists B; split; [exact HW|]; split; [reflexivity|apply V_refl]).
    destruct (1 <? d_free_blocks (d_free s)); [|exact H0].
    apply post_bind. refine (post_impl _ _ _ _ _ _ _ (V_release s w sh B HW)); [|contradiction].
    intros [s2 [w2 sh2]] _ (B2 & HW2 & HU2 & HV2). cbn [fst snd] in *.
    pose proof (di_actual_b _ _ _ (dHA limP cfg CFG) (proj1 HW2)) as Bact.
    destruct (Z.ltb_spec (d_actual s2) sug) as [Hlt|Hge].
    - refine (post_impl _ _ _ _ _ _ _ (V_coalesce_free (sug - d_actual s2) s2 w2 sh2 B2 HW2 _)); [| |lia];
        intros sw' ? K; eapply vend_trans; eauto.
    - cbn [post]. exists B2. auto.
  Qed.

  Lemma V_deallocate cur s w sh B p n : YW s (w, sh) B -> In (p, n) (uregs B) ->
    let good_end := fun sw' : zd (W := W) => exists B', YW (fst sw') (snd sw') B' /\ Permutation ((p, n) :: uregs B') (uregs B) /\
         V (uregs B') B sh B' (snd (snd sw')) in
    post (y_deallocate P true cfg cur p (s, (w, sh))) (fun sw' _ => good_end sw') (fun sw' _ => good_end sw').
  Proof.
    intros HZ Hin good_end. unfold y_deallocate.
    destruct (V_free s w sh B p n HZ Hin) as (s1 & sh1 & B1 & -> & HW1 & HU1 & HV1). cbn [fst snd].
    pose proof (d_view_bounds limP cfg CFG s1 B1 cur (proj1 HW1)) as Hv.
    assert (HK : forall sw', vend B1 sh1 sw' -> good_end sw').
    { intros sw' (B' & K1 & K2 & K3). exists B'. split; [exact K1|]. split; [now rewrite K2|].
      assert (Hi : incl (uregs B') (uregs B1)) by (intros u Hu; eapply Permutation_in; eauto).
      eapply V_trans; eapply V_incl; eauto. }
    destruct (dc_heur cfg cur (d_view s1) =? 0).
    - cbn [post]. apply HK. exists B1. cbn [fst snd]. split; [exact HW1|]. split; [reflexivity|apply V_refl].
    - refine (post_impl _ _ _ _ _ _ _ (V_dpa_coalesce _ s1 w sh1 B1 HW1 Hv)); auto.
  Qed.

  Lemma V_coalesce cur s w sh B : YW s (w, sh) B ->
    post (y_coalesce P true cfg cur (s, (w, sh))) (fun sw' _ => vend B sh sw') (fun _ _ => False).
  Proof.
    intros HW. unfold y_coalesce. cbn [fst]. pose proof (d_view_bounds limP cfg CFG s B cur (proj1 HW)) as Hv.
    destruct (dc_heur cfg cur (d_view s) =? 0).
    - cbn [post]. exists B. cbn [fst snd]. split; [exact HW|]. split; [reflexivity|apply V_refl].
    - pose proof (V_dpa_coalesce _ s w sh B HW Hv) as H.
      destruct (y_dpa_coalesce P true cfg (dc_heur cfg cur (d_view s)) (s, (w, sh))); cbn [noexcept post] in *; auto.
  Qed.

  Definition yreached (touch : bool) (U : list region) (s : dpool) (w : W) (sh : shadow) : Prop :=
    exists B, YW s (w, sh) B /\ Permutation U (uregs B) /\ (S8 -> guarded sh U (map b_held B)) /\
      (touch = false -> forall u a, In u U -> within u a -> poisoned sh a = false).

  Lemma yreached_step touch U sh U' s' w' sh' B B' :
    Permutation U (uregs B) -> Permutation U' (uregs B') -> YW s' (w', sh') B' ->
    V U' B sh B' sh' -> (touch = false -> forall u a, In u U' -> within u a -> poisoned sh a = true -> False) ->
    (S8 -> guarded sh U (map b_held B)) -> yreached touch U' s' w' sh'.
  Proof.
    intros HU HU' HZ [H1 H2] Hl Hg. exists B'. split; [exact HZ|]. split; [exact HU'|]. split.
    - intros H8. eapply guarded_U; [apply Permutation_sym, HU'|]. apply H2; auto. eapply guarded_U; [exact HU|auto].
    - intros Ht u a Hu Ha. apply not_true_is_false. intros E. destruct (H1 u a Hu Ha) as [H _]. eapply Hl; eauto.
  Qed.

  Context (lim : Z).
  Hypothesis Hlim : lim + 2 * A <= limP.

  Lemma ystep_reached touch U s w sh U' s' w' sh' :
    yreached touch U s w sh -> ystep P cfg lim Inv touch (U, (s, (w, sh))) (U', (s', (w', sh'))) -> yreached touch U' s' w' sh'.
  Proof.
    intros (B & HZ & HU & Hg & Hl) Hs.
    assert (Hl' : touch = false -> forall u a, In u U -> within u a -> poisoned sh a = true -> False).
    { intros Ht u a Hu Ha E. rewrite (Hl Ht u a Hu Ha) in E. discriminate. }
    assert (HinU : forall u, In u U -> In u (uregs B)) by (intros u Hu; eapply Permutation_in; eauto).
    inversion Hs; subst.
    - match goal with H : y_allocate _ _ _ ?n _ = _, H1 : 0 < ?n <= _ |- _ => pose proof (V_allocate s w sh B n HZ ltac:(lia) ltac:(lia)) as Hp; rewrite H in Hp end.
      cbn [post fst snd] in Hp. destruct Hp as (B' & HZ' & HU1 & [HT1 HT2] & Hnew).
      exists B'. split; [exact HZ'|]. split; [rewrite HU1, HU; reflexivity|]. split.
      + intros H8. eapply guarded_U; [rewrite HU, <- HU1; reflexivity|]. apply HT2; auto. eapply guarded_U; [exact HU|auto].
      + intros Ht u a [<-|Hu] Ha; [apply Hnew, Ha|]. apply not_true_is_false. intros E.
        destruct (HT1 u a (HinU u Hu) Ha) as [Hx _]. eapply Hl'; eauto.
    - match goal with H : y_allocate _ _ _ ?n _ = _, H1 : 0 < ?n <= _ |- _ => pose proof (V_allocate s w sh B n HZ ltac:(lia) ltac:(lia)) as Hp; rewrite H in Hp end.
      cbn [post fst snd] in Hp. destruct Hp as (B' & HZ' & HU1 & HT).
      eapply (yreached_step touch U' sh U' s' w' sh' B B'); auto; [now rewrite HU1|]. eapply V_incl; [exact HinU|exact HT].
    - match goal with H : y_deallocate _ _ _ ?cur ?p _ = _, H1 : Permutation U ((?p, ?n) :: _) |- _ =>
        pose proof (V_deallocate cur s w sh B p n HZ (Permutation_in _ HU (Permutation_in _ (Permutation_sym H1) (or_introl eq_refl)))) as Hp;
        cbv zeta in Hp; rewrite H in Hp; rename H1 into HPu end.
      cbn [post fst snd] in Hp. destruct Hp as (B' & HZ' & HU1 & HT).
      assert (HU' : Permutation U' (uregs B')).
      { apply Permutation_cons_inv with (a := (p, n)). rewrite HU1, <- HPu. exact HU. }
      eapply (yreached_step touch U sh U' s' w' sh' B B'); auto.
      + eapply V_incl; [|exact HT]. intros u Hu. eapply Permutation_in; eauto.
      + intros Ht u a Hu. apply Hl'; auto. eapply Permutation_in; [apply Permutation_sym, HPu|]. simpl; auto.
    - match goal with H : y_deallocate _ _ _ ?cur ?p _ = _, H1 : Permutation U ((?p, ?n) :: _) |- _ =>
        pose proof (V_deallocate cur s w sh B p n HZ (Permutation_in _ HU (Permutation_in _ (Permutation_sym H1) (or_introl eq_refl)))) as Hp;
        cbv zeta in Hp; rewrite H in Hp; rename H1 into HPu end.
      cbn [post fst snd] in Hp. destruct Hp as (B' & HZ' & HU1 & HT).
      assert (HU' : Permutation U' (uregs B')).
      { apply Permutation_cons_inv with (a := (p, n)). rewrite HU1, <- HPu. exact HU. }
      eapply (yreached_step touch U sh U' s' w' sh' B B'); auto.
      + eapply V_incl; [|exact HT]. intros u Hu. eapply Permutation_in; eauto.
      + intros Ht u a Hu. apply Hl'; auto. eapply Permutation_in; [apply Permutation_sym, HPu|]. simpl; auto.
    - match goal with H : y_release _ _ _ = _ |- _ => unfold y_release in H; pose proof (V_release s w sh B HZ) as Hp; rewrite H in Hp end.
      cbn [post fst snd] in Hp. destruct Hp as (B' & HZ' & HU1 & HT).
      eapply (yreached_step touch U' sh U' s' w' sh' B B'); auto; [now rewrite HU1|]. eapply V_incl; [exact HinU|exact HT].
    - match goal with H : y_coalesce _ _ _ ?cur _ = _ |- _ => pose proof (V_coalesce cur s w sh B HZ) as Hp; rewrite H in Hp end.
      cbn [post fst snd] in Hp. destruct Hp as (B' & HZ' & HU1 & HT).
      eapply (yreached_step touch U' sh U' s' w' sh' B B'); auto; [now rewrite HU1|]. eapply V_incl; [exact HinU|exact HT].
    - match goal with H : forall L, Inv w L -> _ |- _ => rename H into He end.
      destruct HZ as (HQ & HI). destruct (He _ HI) as [HI' Hk].
      exists B. split; [split; [exact HQ|exact HI']|]. split; [exact HU|]. split.
      + intros H8. eapply guarded_shrink; [apply incl_refl|exact Hk|auto].
      + intros Ht u a Hu Ha. destruct (live_covered A B (di_blk _ _ _ HQ) u (HinU u Hu)) as (l & Hl1 & Hi).
        rewrite (Hk l a Hl1); [eauto|]. unfold inside, within in *. lia.
    - match goal with H : forall a, (forall u, In u _ -> _) -> _ |- _ => rename H into He end.
      exists B. split; [eapply yw_sh; exact HZ|]. split; [exact HU|]. split; [|discriminate].
      intros H8 l a Hl1 Hd Hn. rewrite He by exact Hn. apply (Hg H8 l a); auto.
  Qed.

  Lemma yreach_reached touch U sw : yreach P cfg lim Inv touch U sw ->
    yreached touch U (fst sw) (fst (snd sw)) (snd (snd sw)).
  Proof.
    induction 1 as [w sh HI|U sw U' sw' Hr IH Hs].
    - exists []. split; [split; [apply DI_init|exact HI]|]. split; [constructor|].
      split; [intros _ l a []|intros _ u a []].
    - destruct sw as [s [w sh]], sw' as [s' [w' sh']]. cbn [fst snd] in *. eapply ystep_reached; eauto.
  Qed.

  Lemma dfin_live U s w sh : yreach P cfg lim Inv false U (s, (w, sh)) ->
    forall u a, In u U -> within u a -> poisoned sh a = false.
  Proof. intros H. destruct (yreach_reached _ _ _ H) as (B & _ & _ & _ & Hl). exact (Hl eq_refl). Qed.

  Lemma dfin_guarded touch U s w sh : A mod 8 = 0 -> yreach P cfg lim Inv touch U (s, (w, sh)) ->
    exists L, Inv w L /\ covered U L /\ guarded sh U L.
  Proof.
    intros H8 H. destruct (yreach_reached _ _ _ H) as (B & (HQ & HI) & HU & Hg & _). cbn [fst snd] in *.
    exists (map b_held B). split; [exact HI|]. split; [|auto].
    intros u Hu. apply (live_covered A B (di_blk _ _ _ HQ)). eapply Permutation_in; eauto.
  Qed.

  Lemma dstays_undisturbed U U0 sh sh' : stays S8 U0 sh sh' -> incl U U0 -> undisturbed A U sh sh'.
  Proof.
    intros H Hi u a Hu Ha. destruct (H u a (Hi u Hu) Ha) as [H1 H2]. split; [exact H1|].
    intros H8. apply bool_eq_iff. split; auto.
  Qed.

  Lemma dfin_alloc touch U s w sh n s' w' sh' p : yreach P cfg lim Inv touch U (s, (w, sh)) -> 0 < n <= lim ->
    y_allocate P true cfg n (s, (w, sh)) = Ok (s', (w', sh')) p ->
    undisturbed A U sh sh' /\ forall a, within (p, n) a -> poisoned sh' a = false.
  Proof.
    intros H Hn E. destruct (yreach_reached _ _ _ H) as (B & HZ & HU & _). cbn [fst snd] in *.
    pose proof (V_allocate s w sh B n HZ ltac:(lia) ltac:(lia)) as Hp. rewrite E in Hp. cbn [post fst snd] in Hp.
    destruct Hp as (B' & _ & _ & [HT _] & Hnew). split; [|exact Hnew]. eapply dstays_undisturbed; [exact HT|].
    intros u Hu. eapply Permutation_in; eauto.
  Qed.

  Lemma dfin_other touch U s w sh s' w' sh' cur : yreach P cfg lim Inv touch U (s, (w, sh)) ->
    (exists n e, 0 < n <= lim /\ y_allocate P true cfg n (s, (w, sh)) = Throw (s', (w', sh')) e) \/
    y_release P true (s, (w, sh)) = Ok (s', (w', sh')) tt \/ y_coalesce P true cfg cur (s, (w, sh)) = Ok (s', (w', sh')) tt ->
    undisturbed A U sh sh'.
  Proof.
    intros H E. destruct (yreach_reached _ _ _ H) as (B & HZ & HU & _). cbn [fst snd] in *.
    assert (Hi : incl U (uregs B)) by (intros u Hu; eapply Permutation_in; eauto).
    destruct E as [(n & e & Hn & E)|[E|E]].
    - pose proof (V_allocate s w sh B n HZ ltac:(lia) ltac:(lia)) as Hp. rewrite E in Hp. cbn [post fst snd] in Hp.
      destruct Hp as (B' & _ & _ & [HT _]). eapply dstays_undisturbed; eauto.
    - unfold y_release in E. pose proof (V_release s w sh B HZ) as Hp. rewrite E in Hp. cbn [post fst snd] in Hp.
      destruct Hp as (B' & _ & _ & [HT _]). eapply dstays_undisturbed; eauto.
    - pose proof (V_coalesce cur s w sh B HZ) as Hp. rewrite E in Hp. cbn [post fst snd] in Hp.
      destruct Hp as (B' & _ & _ & [HT _]). eapply dstays_undisturbed; eauto.
  Qed.

  Lemma dfin_free touch U U' s w sh s' w' sh' cur p n : yreach P cfg lim Inv touch U (s, (w, sh)) ->
    Permutation U ((p, n) :: U') ->
    y_deallocate P true cfg cur p (s, (w, sh)) = Ok (s', (w', sh')) tt \/
    (exists e, y_deallocate P true cfg cur p (s, (w, sh)) = Throw (s', (w', sh')) e) ->
    undisturbed A U' sh sh'.
  Proof.
    intros H HP E. destruct (yreach_reached _ _ _ H) as (B & HZ & HU & _). cbn [fst snd] in *.
    pose proof (V_deallocate cur s w sh B p n HZ (Permutation_in _ HU (Permutation_in _ (Permutation_sym HP) (or_introl eq_refl)))) as Hp.
    cbv zeta in Hp.
    assert (Hp' : exists B', YW s' (w', sh') B' /\ Permutation ((p, n) :: uregs B') (uregs B) /\ V (uregs B') B sh B' sh').
    { destruct E as [E|(e & E)]; rewrite E in Hp; exact Hp. }
    clear Hp. destruct Hp' as (B' & _ & HU1 & [HT _]).
    eapply dstays_undisturbed; [exact HT|]. intros u Hu.
    assert (HU' : Permutation U' (uregs B')).
    { apply Permutation_cons_inv with (a := (p, n)). rewrite HU1, <- HP. exact HU. }
    eapply Permutation_in; eauto.
  Qed.

  Lemma dfin_good touch U s w sh : yreach P cfg lim Inv touch U (s, (w, sh)) -> good U.
  Proof.
    intros H. destruct (yreach_reached _ _ _ H) as (B & (HQ & _) & HU & _). cbn [fst snd] in *.
    eapply good_perm; [apply Permutation_sym, HU|]. eapply dregs_good; eauto.
  Qed.
End Main.
