(** QuickPool in a sanitized build: what every call does to the shadow. *)
From Verif Require Import Base BaseFacts StratModel StratFacts AlignedModel AlignedFacts QuickPoolModel QuickPoolInv
  QuickPoolFacts QuickPoolOps QuickPoolFree QuickPoolMain QuickPoolStratFacts DynPoolModel SanModel SanSpec SanFacts.

(** [release] only ever calls the parent's [deallocate]. *)
Lemma q_release_loop_dealloc {W} (P P' : Parent W) : p_dealloc P = p_dealloc P' ->
  forall todo sw, q_release_loop P todo sw = q_release_loop P' todo sw.
Proof.
  intros E. induction todo as [|e todo IH]; intros [s w]; [reflexivity|]. cbn [q_release_loop].
  destruct (q_chunks s (e_chunk e)) as [c|]; [|reflexivity].
  destruct ((c_size c =? c_csize c) && c_free c); [|apply IH].
  unfold aligned_deallocate. rewrite E.
  match goal with |- match ?x with _ => _ end = _ => destruct x; auto end.
  match goal with |- match ?x with _ => _ end = _ => destruct x; auto end.
Qed.

Lemma zP_spec {W} (P : Parent (W * shadow)) host lim Inv :
  ParentSpec P lim (fun ws L => Inv (fst ws) L) -> ParentSpec (zP P host) lim (fun ws L => Inv (fst ws) L).
Proof.
  intros [H1 H2 H3 H4]. constructor; auto.
  intros w L n HI Hn. cbn [zP p_alloc]. apply post_bind. eapply post_impl; [| |apply (H3 w L n HI Hn)]; auto.
  intros [w' sh'] p HI'. cbn [post]. unfold u_poison. destruct host; exact HI'.
Qed.

(** A parent to which memory can only be given back, and the shadow of what is kept. *)
Definition backP {W} (P : Parent W) : Parent W := mkParent (fun _ w => Throw w OutOfMemory) (p_dealloc P).

Lemma backP_spec {W} (P : Parent (W * shadow)) lim Inv sh0 : SanParent P lim Inv ->
  ParentSpec (backP P) lim (fun ws L => Inv (fst ws) L /\ sh_keeps L sh0 (snd ws)).
Proof.
  intros [[H1 H2 H3 H4] Ha Hd]. constructor.
  - intros w L L' HP [HI Hk]. split; [eapply H1; eauto|]. eapply keeps_incl; [|exact Hk].
    intros l Hl. eapply Permutation_in; [apply Permutation_sym, HP|exact Hl].
  - intros w L [HI _]. eapply H2; eauto.
  - intros w L n HI Hn. exact HI.
  - intros [w sh] L p n [HI Hk]. cbn [fst snd backP p_dealloc] in *.
    pose proof (H4 (w, sh) L p n HI) as Hp. pose proof (Hd w sh L p n HI) as Hq.
    destruct (p_dealloc P p n (w, sh)) as [ws []|ws e| | |]; cbn [post] in *; auto.
    split; auto. eapply keeps_trans3; [|exact Hk|exact Hq]. intros l Hl; simpl; auto.
Qed.

Section Main.
  Context {W : Type} (P : Parent (W * shadow)) (limP : Z) (Inv : W -> list region -> Prop).
  Hypothesis SP : SanParent P limP Inv.
  Context (cfg : qcfg).
  Let A := cf_align cfg.
  Hypothesis CFG : qcfg_ok cfg limP.
  Let InvZ := fun (ws : W * shadow) L => Inv (fst ws) L.
  Let S8 := A mod 8 = 0.

  Lemma zspec : ParentSpec (zP P true) limP InvZ.
  Proof. apply zP_spec, SP. Qed.

  Definition ZW (s : qpool) (ws : W * shadow) (B : list blk) : Prop := QW InvZ cfg s ws B.

  Lemma zw_sh s w sh sh' B : ZW s (w, sh) B -> ZW s (w, sh') B.
  Proof. intros (H1 & H2 & H3). split; [exact H1|]. split; [exact H2|exact H3]. Qed.

  Lemma z_release_ok s w sh B : ZW s (w, sh) B ->
    post (q_release (zP P true) (s, (w, sh)))
      (fun sw' _ => exists B', Permutation B (rel_blocks B ++ B') /\ ZW (fst sw') (snd sw') B' /\
         sh_keeps (map b_held B') sh (snd (snd sw')) /\ rel_blocks B' = [])
      (fun _ _ => False).
  Proof.
    intros (HQ & Hst & HI). unfold q_release. rewrite (q_release_loop_dealloc (zP P true) (backP P) eq_refl).
    fold (q_release (backP P) (s, (w, sh))).
    refine (post_impl _ _ _ _ _ _ _ (q_release_ok (backP P) limP _ (backP_spec P limP Inv sh SP) cfg CFG s (w, sh) B _)); auto.
    - intros [s' [w' sh']] _ (B' & HP & (HQ' & Hst' & HI' & Hk) & Hn & _). cbn [fst snd] in *.
      exists B'. split; [exact HP|]. split; [|auto]. split; [exact HQ'|]. split; [exact Hst'|exact HI'].
    - split; [exact HQ|]. split; [exact Hst|]. split; [exact HI|apply keeps_refl].
  Qed.

  (** One request to the parent, as [aligned_allocate] makes it. *)
  Lemma z_palloc w sh L n : Inv w L -> 0 < n <= limP ->
    post (p_alloc (zP P true) n (w, sh))
      (fun ws p => exists sh1, sh_keeps L sh sh1 /\ snd ws = asan_poison p n sh1 /\ Inv (fst ws) ((p, n) :: L))
      (fun ws _ => sh_keeps L sh (snd ws) /\ Inv (fst ws) L).
  Proof.
    intros HI Hn. cbn [zP p_alloc].
    pose proof (ps_alloc _ _ _ (sp_spec _ _ _ SP) (w, sh) L n HI Hn) as H1.
    pose proof (sp_alloc _ _ _ SP w sh L n HI Hn) as H2.
    destruct (p_alloc P n (w, sh)) as [[w' sh'] p|[w' sh'] e| | |]; cbn [bind post u_poison fst snd] in *; auto.
    exists sh'. auto.
  Qed.

  Definition total_ok (s : qpool) (r : Z) : Prop := 0 < new_size cfg s r + A <= limP.

  Lemma z_grown s w sh B t w' sh' p B1 : ZW s (w, sh) B -> 0 < t <= limP ->
    grown (zP P true) s (w, sh) B t (w', sh') p B1 ->
    grows (map b_held B) ((p, t) :: map b_held B1) sh sh' /\ stays S8 (uregs B) sh sh'.
  Proof.
    intros HZ Ht HG. pose proof HZ as (HQ & Hst & HI).
    pose proof (ps_good _ _ _ (sp_spec _ _ _ SP)) as Hgood.
    destruct HG as [[E ->]|(w1 & e & s2 & w2 & E1 & E2 & E3 & HP & Hn)].
    - pose proof (z_palloc w sh (map b_held B) t HI Ht) as H. rewrite E in H. cbn [post fst snd] in H.
      destruct H as (sh1 & Hk & Es & HI'). subst sh'. pose proof (Hgood (w', sh1) _ HI') as Hg.
      split; [exists (map b_held B); split; [apply incl_refl|right; exists p, t, sh1; auto]|].
      eapply stays_keeps; [apply (live_covered A B (qi_blk _ _ _ _ HQ))|].
      eapply keeps_trans3; [apply incl_refl|exact Hk|]. now apply keeps_poison.
    - destruct w1 as [w1 sh1], w2 as [w2 sh2].
      pose proof (z_palloc w sh (map b_held B) t HI Ht) as H. rewrite E1 in H. cbn [post fst snd] in H. destruct H as [Hk1 HI1].
      assert (HZ1 : ZW s (w1, sh1) B) by (split; [exact HQ|]; split; [exact Hst|exact HI1]).
      pose proof (z_release_ok s w1 sh1 B HZ1) as H. rewrite E2 in H. cbn [post fst snd] in H.
      destruct H as (B2 & HP2 & (HQ2 & Hst2 & HI2) & Hk2 & Hn2).
      assert (HPB : Permutation B1 B2).
      { apply (Permutation_app_inv_l (rel_blocks B)). now rewrite <- HP. }
      cbn [InvZ fst] in HI2.
      pose proof (z_palloc w2 sh2 (map b_held B2) t HI2 Ht) as H. rewrite E3 in H. cbn [post fst snd] in H.
      destruct H as (sh3 & Hk3 & Es & HI'). subst sh'. pose proof (Hgood (w', sh3) _ HI') as Hg.
      assert (Hinc : incl (map b_held B2) (map b_held B)).
      { apply incl_map. intros b Hb. eapply Permutation_in; [apply Permutation_sym, HP2|]. apply in_or_app; auto. }
      assert (Hk : sh_keeps (map b_held B2) sh sh3).
      { eapply keeps_trans3; [exact Hinc|exact Hk1|]. eapply keeps_trans3; [apply incl_refl|exact Hk2|exact Hk3]. }
      split.
      + exists (map b_held B2). split; [exact Hinc|]. right. exists p, t, sh3. split; auto.
        constructor. now apply Permutation_map.
      + eapply stays_keeps; [apply (live_covered_kept A B (qi_blk _ _ _ _ HQ) B2 HP2)|].
        eapply keeps_trans3; [apply incl_refl|exact Hk|]. now apply keeps_poison.
  Qed.

  Lemma z_failed s w sh B t sw' B1 : ZW s (w, sh) B -> 0 < t <= limP ->
    failed (zP P true) s (w, sh) B t sw' B1 ->
    sh_keeps (map b_held B1) sh (snd (snd sw')) /\ incl (map b_held B1) (map b_held B) /\ covered (uregs B) (map b_held B1).
  Proof.
    intros HZ Ht (w1 & e & w2 & e2 & E1 & E2 & E3 & HP & Hn). pose proof HZ as (HQ & Hst & HI).
    destruct w1 as [w1 sh1], w2 as [w2 sh2].
    pose proof (z_palloc w sh (map b_held B) t HI Ht) as H. rewrite E1 in H. cbn [post fst snd] in H. destruct H as [Hk1 HI1].
    assert (HZ1 : ZW s (w1, sh1) B) by (split; [exact HQ|]; split; [exact Hst|exact HI1]).
    pose proof (z_release_ok s w1 sh1 B HZ1) as H. rewrite E2 in H. cbn [post fst snd] in H.
    destruct H as (B2 & HP2 & (HQ2 & Hst2 & HI2) & Hk2 & Hn2).
    assert (HPB : Permutation B1 B2).
    { apply (Permutation_app_inv_l (rel_blocks B)). now rewrite <- HP. }
    cbn [InvZ fst] in HI2.
    pose proof (z_palloc w2 sh2 (map b_held B2) t HI2 Ht) as H. rewrite E3 in H. cbn [post fst snd] in H. destruct H as [Hk3 _].
    assert (Hinc : incl (map b_held B1) (map b_held B)).
    { apply incl_map. intros b Hb. eapply Permutation_in; [apply Permutation_sym, HP|]. apply in_or_app; auto. }
    assert (Hinc2 : incl (map b_held B1) (map b_held B2)).
    { intros l Hl. eapply Permutation_in; [apply (Permutation_map b_held HPB)|exact Hl]. }
    split; [|split; [exact Hinc|apply (live_covered_kept A B (qi_blk _ _ _ _ HQ) B1 HP)]].
    eapply keeps_trans3; [exact Hinc|exact Hk1|]. eapply keeps_incl; [exact Hinc2|].
    eapply keeps_trans3; [apply incl_refl|exact Hk2|exact Hk3].
  Qed.

  (** [T U0 B sh B' sh']: the live bytes of [U0] stay as they are, and the pool stays guarded. *)
  Definition T (U0 : list region) (B : list blk) (sh : shadow) (B' : list blk) (sh' : shadow) : Prop :=
    stays S8 U0 sh sh' /\
    (S8 -> guarded sh (uregs B) (map b_held B) -> guarded sh' (uregs B') (map b_held B')).

  Lemma T_trans U0 B1 sh1 B2 sh2 B3 sh3 : T U0 B1 sh1 B2 sh2 -> T U0 B2 sh2 B3 sh3 -> T U0 B1 sh1 B3 sh3.
  Proof. intros [H1 H2] [H3 H4]. split; [eapply stays_trans; eauto|auto]. Qed.
  Lemma T_refl U0 B sh : T U0 B sh B sh.
  Proof. split; [apply stays_refl|auto]. Qed.
  Lemma T_incl U0 U1 B sh B' sh' : incl U1 U0 -> T U0 B sh B' sh' -> T U1 B sh B' sh'.
  Proof. intros Hi [H1 H2]. split; [eapply stays_incl; eauto|auto]. Qed.

  Lemma guarded_U sh U U' L : Permutation U U' -> guarded sh U L -> guarded sh U' L.
  Proof. intros HP H l a Hl Hd Hn. apply (H l a Hl Hd). intros u Hu. apply Hn. eapply Permutation_in; eauto. Qed.
  Lemma guarded_L sh U L L' : Permutation L L' -> guarded sh U L -> guarded sh U L'.
  Proof. intros HP H l a Hl. apply H. eapply Permutation_in; [apply Permutation_sym, HP|exact Hl]. Qed.

  Lemma T_release s w sh B : ZW s (w, sh) B ->
    post (q_release (zP P true) (s, (w, sh)))
      (fun sw' _ => exists B', ZW (fst sw') (snd sw') B' /\ Permutation (uregs B') (uregs B) /\
         T (uregs B) B sh B' (snd (snd sw')))
      (fun _ _ => False).
  Proof.
    intros HZ. refine (post_impl _ _ _ _ _ _ _ (z_release_ok s w sh B HZ)); auto.
    intros [s' [w' sh']] _ (B' & HP & HZ' & Hk & _). cbn [fst snd] in *. exists B'. split; [exact HZ'|].
    pose proof (uregs_release _ _ HP) as HU. split; [exact HU|]. destruct HZ as (HQ & _). split.
    - eapply stays_keeps; [apply (live_covered_kept A B (qi_blk _ _ _ _ HQ) B' HP)|exact Hk].
    - intros _ Hg. eapply guarded_U; [apply Permutation_sym, HU|]. eapply guarded_shrink; [|exact Hk|exact Hg].
      apply incl_map. intros b Hb. eapply Permutation_in; [apply Permutation_sym, HP|]. apply in_or_app; auto.
  Qed.

  Lemma new_total s r : 0 < r -> r + A <= limP -> 0 < new_size cfg s r + A <= limP.
  Proof.
    intros Hr Hl. pose proof (HA limP cfg CFG) as HA0. fold A in HA0.
    destruct (qc_first _ _ CFG) as [F1 F2]. destruct (qc_next _ _ CFG) as [N1 N2]. fold A in F2, N2.
    unfold new_size, zmax. destruct (q_actual s =? 0);
      match goal with |- context [?a <? ?b] => destruct (Z.ltb_spec a b) end; lia.
  Qed.

  Lemma T_allocate s w sh B n : ZW s (w, sh) B -> 0 < n -> n + 2 * A <= limP ->
    post (z_allocate P true cfg n (s, (w, sh)))
      (fun sw' p => exists B', ZW (fst sw') (snd sw') B' /\ Permutation (uregs B') ((p, n) :: uregs B) /\
         T (uregs B) B sh B' (snd (snd sw')) /\
         (forall a, within (p, n) a -> poisoned (snd (snd sw')) a = false))
      (fun sw' _ => exists B', ZW (fst sw') (snd sw') B' /\ Permutation (uregs B') (uregs B) /\
         T (uregs B) B sh B' (snd (snd sw'))).
  Proof.
    intros HZ Hn Hl. unfold z_allocate. apply post_bind.
    pose proof (HA limP cfg CFG) as HA0. fold A in HA0. pose proof (qc_lim _ _ CFG) as HL.
    pose proof (aligned_round_up_spec A n HA0 Hn ltac:(lia)) as Hru. cbv zeta in Hru. destruct Hru as [Hr1 _].
    pose proof (new_total s (aligned_round_up A n) ltac:(lia) ltac:(lia)) as Htot.
    pose proof HZ as (HQ & _).
    refine (post_impl _ _ _ _ _ _ _ (q_allocate_ok (zP P true) limP InvZ zspec cfg CFG s (w, sh) B n HZ Hn Hl)).
    - intros [s' [w' sh']] p (B' & HZ' & HU & _ & Hsrc & _). cbn [post fst snd u_unpoison] in *. fold A in Hsrc.
      exists B'. split; [eapply zw_sh; exact HZ'|]. split; [exact HU|].
      pose proof HZ' as (HQ' & _ & HI').
      assert (Hin : In (p, n) (uregs B')) by (eapply Permutation_in; [apply Permutation_sym, HU|simpl; auto]).
      destruct (live_cell A B' (qi_blk _ _ _ _ HQ') (qi_good _ _ _ _ HQ') p n Hin) as
        (x & Hx & Hxd & Hxs & X1 & X2 & X3 & X4 & X5 & X6).
      assert (HG : grows (map b_held B) (map b_held B') sh sh' /\ stays S8 (uregs B) sh sh').
      { destruct Hsrc as [(y & _ & _ & _ & _ & _ & Ew & HP)|(_ & q & B1 & _ & HG & HP)].
        - assert (sh' = sh) as -> by congruence. split; [|apply stays_refl].
          exists (map b_held B). split; [apply incl_refl|]. left. split; [exact HP|apply keeps_refl].
        - destruct (z_grown s w sh B _ w' sh' q B1 HZ Htot HG) as [(L1 & Hi & Hd) Hs]. split; [|exact Hs].
          exists L1. split; [exact Hi|]. destruct Hd as [[HP1 Hk]|(p0 & t0 & sh1 & HP1 & Hr)].
          + left. split; [now rewrite HP|exact Hk].
          + right. exists p0, t0, sh1. split; [now rewrite HP|exact Hr]. }
      destruct HG as [HG Hs]. split.
      + split.
        * eapply stays_trans; [exact Hs|]. apply stays_unpoison; try lia.
          -- intros H8. apply (align8_ptr A); auto.
          -- eapply good_perm; [exact HU|]. eapply uregs_good; eauto.
        * intros H8 Hgd. eapply guarded_U; [apply Permutation_sym, HU|]. apply guarded_unpoison; try lia.
          -- apply (align8_ptr A); auto.
          -- apply (grows_guarded _ _ _ _ _ HG Hgd).
      + intros a Ha. apply unpoison_in; try lia. exact Ha.
    - intros [s' [w' sh']] e (B' & HZ' & _ & Hf & _). cbn [fst snd] in *. fold A in Hf. exists B'. split; [exact HZ'|].
      destruct (z_failed s w sh B _ _ B' HZ Htot Hf) as (Hk & Hi & Hc).
      destruct Hf as (w1 & e1 & w2 & e2 & _ & _ & _ & HP & _). pose proof (uregs_release _ _ HP) as HU.
      split; [exact HU|]. cbn [fst snd] in *. split.
      + eapply stays_keeps; eauto.
      + intros _ Hg. eapply guarded_U; [apply Permutation_sym, HU|]. eapply guarded_shrink; eauto.
  Qed.

  (** [chunk->size] is the rounded size of the allocation. *)
  Lemma z_chunk_size_eq s B x n : QI A s B [] -> In x (cells B) -> k_st x = SUsed n -> z_chunk_size (k_data x) s = k_size x.
  Proof.
    intros HQ Hx Hs. destruct (cells_focus _ _ Hx) as (l1 & l2 & d & p & t & B1 & HP).
    pose proof (QI_perm _ _ _ _ _ HP HQ) as HQ1. pose proof (qi_seg _ _ _ _ HQ1 _ (or_introl eq_refl)) as Hseg. cbn [b_cells] in Hseg.
    pose proof (seg_lookup _ _ _ _ _ _ _ Hseg) as Hlx.
    unfold z_chunk_size. rewrite (pm_find_in (q_ptrmap s) (k_data x) (k_id x)).
    - rewrite Hlx. reflexivity.
    - eapply Permutation_NoDup; [apply Permutation_sym, (Permutation_map fst (qi_pm _ _ _ _ HQ))|].
      cbn [app]. rewrite map_map. cbn [cell_pm fst]. apply NoDup_filter_map. eapply qi_cells_nodup_data; eauto.
    - eapply Permutation_in; [apply Permutation_sym, (qi_pm _ _ _ _ HQ)|]. cbn [app].
      apply in_map_iff. exists x. split; [reflexivity|]. apply filter_In. split; auto. unfold is_used. now rewrite Hs.
  Qed.

  (** The part of [deallocate] before the heuristic. *)
  Lemma T_free s w sh B p n : ZW s (w, sh) B -> In (p, n) (uregs B) ->
    exists s' B', q_free_core p s = Some s' /\
      ZW s' (w, asan_poison p (z_chunk_size p s) sh) B' /\ Permutation ((p, n) :: uregs B') (uregs B) /\
      T (uregs B') B sh B' (asan_poison p (z_chunk_size p s) sh).
  Proof.
    intros (HQ & Hst & HI) Hin. pose proof (HA limP cfg CFG) as HA0. fold A in HA0, HQ. cbn [InvZ fst] in HI.
    destruct (q_free_core_ok A s B p n HA0 HQ Hst Hin) as (s1 & B1 & E1 & HQ1 & Hst1 & HU1 & HL1 & _).
    exists s1, B1. split; [exact E1|].
    destruct (live_cell A B (qi_blk _ _ _ _ HQ) (qi_good _ _ _ _ HQ) p n Hin) as
        (x & Hx & Hxd & Hxs & X1 & X2 & X3 & X4 & X5 & X6).
    assert (Ec : z_chunk_size p s = k_size x) by (rewrite <- Hxd; eapply z_chunk_size_eq; eauto). rewrite Ec.
    split; [split; [exact HQ1|split; [exact Hst1|]]|split; [exact HU1|split]].
    - cbn [InvZ fst]. eapply (ps_perm _ _ _ (sp_spec _ _ _ SP) (w, sh)); [apply Permutation_sym, HL1|exact HI].
    - apply stays_poison; try lia. apply (X6 _ HU1).
    - intros H8 Hg. eapply guarded_L; [apply Permutation_sym, HL1|]. eapply guarded_poison; try exact HU1; try lia; auto.
      + apply (align8_ptr A); auto.
      + rewrite X5. apply align8_round; auto; try lia.
        pose proof (qc_lim _ _ CFG). pose proof (qc_asp _ _ CFG). fold A in H0.
        pose proof (align8_ptr A p HA0 H8 X4).
        destruct (Z_lt_dec (n + A) M64); auto. exfalso.
        apply uregs_in in Hin as (x' & Hx' & _ & Hs').
        apply in_cells in Hx' as (b & Hb & Hxb). destruct (good_mem _ _ (qi_good _ _ _ _ HQ) (in_map b_held _ _ Hb)) as (G1 & G2 & G3).
        destruct (bo_cells _ _ (qi_blk _ _ _ _ HQ b Hb) x' Hxb) as (D1 & D2 & D3). rewrite Hs' in D3.
        pose proof (cell_in_held A b x' (qi_blk _ _ _ _ HQ b Hb) Hxb) as Hi. unfold inside, cell_region in Hi. cbn [fst snd] in Hi.
        pose proof (bo_total _ _ (qi_blk _ _ _ _ HQ b Hb)) as Ht. pose proof ASP_M64.
        pose proof (bo_hi _ _ (qi_blk _ _ _ _ HQ b Hb)). pose proof (bo_lo _ _ (qi_blk _ _ _ _ HQ b Hb)).
        pose proof (contig_inside _ _ _ (bo_contig _ _ (qi_blk _ _ _ _ HQ b Hb)) Hxb) as Hci.
        unfold inside, cell_region in Hci. cbn [fst snd b_held] in *. unfold b_size in *. lia.
  Qed.

  Lemma T_deallocate fuel : forall s w sh B p n, ZW s (w, sh) B -> In (p, n) (uregs B) ->
    post (z_deallocate P true cfg fuel p (s, (w, sh)))
      (fun sw' _ => exists B', ZW (fst sw') (snd sw') B' /\ Permutation ((p, n) :: uregs B') (uregs B) /\
         T (uregs B') B sh B' (snd (snd sw')))
      (fun _ _ => False).
  Proof.
    induction fuel as [|fuel IH]; intros s w sh B p n HZ Hin;
      destruct (T_free s w sh B p n HZ Hin) as (s1 & B1 & E1 & HZ1 & HU1 & HT1);
      cbn [z_deallocate fst snd]; rewrite E1; cbn [u_poison fst snd]; set (sh1 := asan_poison p (z_chunk_size p s) sh) in *.
    - destruct (cf_heur cfg (q_view s1) =? 0); cbn [post]; auto. cbn [fst snd]. exists B1. auto.
    - pose proof (q_view_bounds limP cfg CFG _ _ _ (proj1 HZ1)) as Hv. set (sug := cf_heur cfg (q_view s1)) in *.
      destruct (sug =? 0); [cbn [post fst snd]; exists B1; auto|].
      destruct (1 <? Z.of_nat (length (q_sizemap s1))); [|cbn [noexcept post fst snd]; exists B1; auto].
      pose proof (T_release s1 w sh1 B1 HZ1) as Hrel.
      destruct (q_release (zP P true) (s1, (w, sh1))) as [[s2 [w2 sh2]] []|[s2 w2] e| | |]; cbn [bind noexcept post fst snd] in *; auto; try contradiction.
      destruct Hrel as (B2 & HZ2 & HU2 & HT2).
      destruct (Z.ltb_spec (q_actual s2) sug) as [Hlt|Hge]; cbn [noexcept post fst snd].
      2:{ exists B2. split; [exact HZ2|]. split; [rewrite HU2; exact HU1|].
          eapply T_trans; [eapply T_incl; [|exact HT1]|eapply T_incl; [|exact HT2]]; intros u Hu; (eapply Permutation_in; [exact HU2|exact Hu]). }
      pose proof (qi_actual_b _ _ _ _ (HA limP cfg CFG) (proj1 HZ2)) as Bact.
      pose proof (qc_asp _ _ CFG) as HASP. fold A in HASP.
      pose proof (T_allocate s2 w2 sh2 B2 (sug - q_actual s2) HZ2 ltac:(lia) ltac:(lia)) as Hal.
      destruct (z_allocate P true cfg (sug - q_actual s2) (s2, (w2, sh2))) as [[s3 [w3 sh3]] p3|[s3 w3] e| | |];
        cbn [bind noexcept post fst snd] in *; auto.
      destruct Hal as (B3 & HZ3 & HU3 & HT3 & _).
      assert (Hin3 : In (p3, sug - q_actual s2) (uregs B3)).
      { eapply Permutation_in; [apply Permutation_sym, HU3|]. simpl; auto. }
      specialize (IH s3 w3 sh3 B3 p3 _ HZ3 Hin3).
      destruct (z_deallocate P true cfg fuel p3 (s3, (w3, sh3))) as [[s4 [w4 sh4]] []|[s4 w4] e| | |];
        cbn [bind noexcept post fst snd] in *; auto.
      destruct IH as (B4 & HZ4 & HU4 & HT4). exists B4. split; [exact HZ4|].
      rewrite HU3 in HU4. apply Permutation_cons_inv in HU4.
      split; [rewrite HU4, HU2; exact HU1|].
      assert (H42 : incl (uregs B4) (uregs B2)) by (intros u Hu; eapply Permutation_in; [exact HU4|exact Hu]).
      assert (H41 : incl (uregs B4) (uregs B1)) by (intros u Hu; eapply Permutation_in; [exact HU2|auto]).
      eapply T_trans; [eapply T_incl; [exact H41|exact HT1]|].
      eapply T_trans; [eapply T_incl; [exact H41|exact HT2]|].
      eapply T_trans; [eapply T_incl; [exact H42|exact HT3]|]. exact HT4.
  Qed.

  Lemma T_coalesce fuel s w sh B : ZW s (w, sh) B ->
    post (z_coalesce P true cfg fuel (s, (w, sh)))
      (fun sw' _ => exists B', ZW (fst sw') (snd sw') B' /\ Permutation (uregs B') (uregs B) /\
         T (uregs B) B sh B' (snd (snd sw')))
      (fun _ _ => False).
  Proof.
    intros HZ. unfold z_coalesce, z_do_coalesce. cbn [fst].
    pose proof (q_view_bounds limP cfg CFG _ _ _ (proj1 HZ)) as Hv. set (sug := cf_heur cfg (q_view s)) in *.
    assert (H0 : exists B', ZW s (w, sh) B' /\ Permutation (uregs B') (uregs B) /\ T (uregs B) B sh B' sh).
    { exists B. split; [exact HZ|]. split; [reflexivity|apply T_refl]. }
    destruct (sug =? 0); [exact H0|].
    destruct (1 <? Z.of_nat (length (q_sizemap s))); [|exact H0]. clear H0.
    pose proof (T_release s w sh B HZ) as Hrel.
    destruct (q_release (zP P true) (s, (w, sh))) as [[s2 [w2 sh2]] []|[s2 w2] e| | |]; cbn [bind noexcept post fst snd] in *; auto; try contradiction.
    destruct Hrel as (B2 & HZ2 & HU2 & HT2).
    assert (H2 : incl (uregs B) (uregs B2)) by (intros u Hu; eapply Permutation_in; [apply Permutation_sym, HU2|exact Hu]).
    destruct (Z.ltb_spec (q_actual s2) sug) as [Hlt|Hge]; cbn [noexcept post fst snd]; [|exists B2; auto].
    pose proof (qi_actual_b _ _ _ _ (HA limP cfg CFG) (proj1 HZ2)) as Bact.
    pose proof (qc_asp _ _ CFG) as HASP. fold A in HASP.
    pose proof (T_allocate s2 w2 sh2 B2 (sug - q_actual s2) HZ2 ltac:(lia) ltac:(lia)) as Hal.
    destruct (z_allocate P true cfg (sug - q_actual s2) (s2, (w2, sh2))) as [[s3 [w3 sh3]] p3|[s3 w3] e| | |];
      cbn [bind noexcept post fst snd] in *; auto.
    destruct Hal as (B3 & HZ3 & HU3 & HT3 & _).
    assert (Hin3 : In (p3, sug - q_actual s2) (uregs B3)).
    { eapply Permutation_in; [apply Permutation_sym, HU3|]. simpl; auto. }
    pose proof (T_deallocate fuel s3 w3 sh3 B3 p3 _ HZ3 Hin3) as Hde.
    destruct (z_deallocate P true cfg fuel p3 (s3, (w3, sh3))) as [[s4 [w4 sh4]] []|[s4 w4] e| | |];
      cbn [bind noexcept post fst snd] in *; auto.
    destruct Hde as (B4 & HZ4 & HU4 & HT4). exists B4. split; [exact HZ4|].
    rewrite HU3 in HU4. apply Permutation_cons_inv in HU4. split; [now rewrite HU4|].
    assert (H4 : incl (uregs B) (uregs B4)) by (intros u Hu; eapply Permutation_in; [apply Permutation_sym, HU4|auto]).
    eapply T_trans; [exact HT2|]. eapply T_trans; [eapply T_incl; [exact H2|exact HT3]|]. eapply T_incl; [exact H4|exact HT4].
  Qed.

  (** Every reachable state. *)
  Definition reached (touch : bool) (U : list region) (s : qpool) (w : W) (sh : shadow) : Prop :=
    exists B, ZW s (w, sh) B /\ Permutation U (uregs B) /\ (S8 -> guarded sh U (map b_held B)) /\
      (touch = false -> forall u a, In u U -> within u a -> poisoned sh a = false).

  Lemma reached_step touch U sh U' s' w' sh' B B' :
    Permutation U (uregs B) -> Permutation U' (uregs B') -> ZW s' (w', sh') B' ->
    T U' B sh B' sh' -> (touch = false -> forall u a, In u U' -> within u a -> poisoned sh a = true -> False) ->
    (S8 -> guarded sh U (map b_held B)) -> reached touch U' s' w' sh'.
  Proof.
    intros HU HU' HZ [H1 H2] Hl Hg. exists B'. split; [exact HZ|]. split; [exact HU'|]. split.
    - intros H8. eapply guarded_U; [apply Permutation_sym, HU'|]. apply H2; auto. eapply guarded_U; [exact HU|auto].
    - intros Ht u a Hu Ha. apply not_true_is_false. intros E. destruct (H1 u a Hu Ha) as [H _]. eapply Hl; eauto.
  Qed.

  Context (fuel : nat) (lim : Z).
  Hypothesis Hlim : lim + 2 * A <= limP.

  Lemma step_reached touch U s w sh U' s' w' sh' :
    reached touch U s w sh -> zstep P cfg fuel lim Inv touch (U, (s, (w, sh))) (U', (s', (w', sh'))) -> reached touch U' s' w' sh'.
  Proof.
    intros (B & HZ & HU & Hg & Hl) Hs.
    assert (Hl' : touch = false -> forall u a, In u U -> within u a -> poisoned sh a = true -> False).
    { intros Ht u a Hu Ha E. rewrite (Hl Ht u a Hu Ha) in E. discriminate. }
    assert (HinU : forall u, In u U -> In u (uregs B)) by (intros u Hu; eapply Permutation_in; eauto).
    inversion Hs; subst.
    - match goal with H : z_allocate _ _ _ ?n _ = _, H1 : 0 < ?n <= _ |- _ => pose proof (T_allocate s w sh B n HZ ltac:(lia) ltac:(lia)) as Hp; rewrite H in Hp end.
      cbn [post fst snd] in Hp. destruct Hp as (B' & HZ' & HU1 & [HT1 HT2] & Hnew).
      exists B'. split; [exact HZ'|]. split; [rewrite HU1, HU; reflexivity|]. split.
      + intros H8. eapply guarded_U; [rewrite HU, <- HU1; reflexivity|]. apply HT2; auto. eapply guarded_U; [exact HU|auto].
      + intros Ht u a [<-|Hu] Ha; [apply Hnew, Ha|]. apply not_true_is_false. intros E.
        destruct (HT1 u a (HinU u Hu) Ha) as [Hx _]. eapply Hl'; eauto.
    - match goal with H : z_allocate _ _ _ ?n _ = _, H1 : 0 < ?n <= _ |- _ => pose proof (T_allocate s w sh B n HZ ltac:(lia) ltac:(lia)) as Hp; rewrite H in Hp end.
      cbn [post fst snd] in Hp. destruct Hp as (B' & HZ' & HU1 & HT).
      eapply (reached_step touch U' sh U' s' w' sh' B B'); auto; [now rewrite HU1|]. eapply T_incl; [exact HinU|exact HT].
    - match goal with H : z_deallocate _ _ _ _ ?p _ = _, H1 : Permutation U ((?p, ?n) :: _) |- _ =>
        pose proof (T_deallocate fuel s w sh B p n HZ (Permutation_in _ HU (Permutation_in _ (Permutation_sym H1) (or_introl eq_refl)))) as Hp;
        rewrite H in Hp; rename H1 into HPu end.
      cbn [post fst snd] in Hp. destruct Hp as (B' & HZ' & HU1 & HT).
      assert (HU' : Permutation U' (uregs B')).
      { apply Permutation_cons_inv with (a := (p, n)). rewrite HU1, <- HPu. exact HU. }
      eapply (reached_step touch U sh U' s' w' sh' B B'); auto.
      + eapply T_incl; [|exact HT]. intros u Hu. eapply Permutation_in; eauto.
      + intros Ht u a Hu. apply Hl'; auto. eapply Permutation_in; [apply Permutation_sym, HPu|]. simpl; auto.
    - match goal with H : z_release _ _ _ = _ |- _ => unfold z_release in H; pose proof (T_release s w sh B HZ) as Hp; rewrite H in Hp end.
      cbn [post fst snd] in Hp. destruct Hp as (B' & HZ' & HU1 & HT).
      eapply (reached_step touch U' sh U' s' w' sh' B B'); auto; [now rewrite HU1|]. eapply T_incl; [exact HinU|exact HT].
    - match goal with H : z_coalesce _ _ _ _ _ = _ |- _ => pose proof (T_coalesce fuel s w sh B HZ) as Hp; rewrite H in Hp end.
      cbn [post fst snd] in Hp. destruct Hp as (B' & HZ' & HU1 & HT).
      eapply (reached_step touch U' sh U' s' w' sh' B B'); auto; [now rewrite HU1|]. eapply T_incl; [exact HinU|exact HT].
    - match goal with H : forall L, Inv w L -> _ |- _ => rename H into He end.
      destruct HZ as (HQ & Hst & HI). destruct (He _ HI) as [HI' Hk].
      exists B. split; [split; [exact HQ|split; [exact Hst|exact HI']]|]. split; [exact HU|]. split.
      + intros H8. eapply guarded_shrink; [apply incl_refl|exact Hk|auto].
      + intros Ht u a Hu Ha. destruct (live_covered A B (qi_blk _ _ _ _ HQ) u (HinU u Hu)) as (l & Hl1 & Hi).
        rewrite (Hk l a Hl1); [eauto|]. unfold inside, within in *. lia.
    - match goal with H : forall a, (forall u, In u _ -> _) -> _ |- _ => rename H into He end.
      exists B. split; [eapply zw_sh; exact HZ|]. split; [exact HU|]. split; [|discriminate].
      intros H8 l a Hl1 Hd Hn. rewrite He by exact Hn. apply (Hg H8 l a); auto.
  Qed.

  Lemma reach_reached touch U sw : zreach P cfg fuel lim Inv touch U sw ->
    reached touch U (fst sw) (fst (snd sw)) (snd (snd sw)).
  Proof.
    induction 1 as [w sh HI|U sw U' sw' Hr IH Hs].
    - exists []. split; [split; [apply QI_init|split; [intros x []|exact HI]]|]. split; [constructor|].
      split; [intros _ l a []|intros _ u a []].
    - destruct sw as [s [w sh]], sw' as [s' [w' sh']]. cbn [fst snd] in *. eapply step_reached; eauto.
  Qed.

  Lemma fin_live U s w sh : zreach P cfg fuel lim Inv false U (s, (w, sh)) ->
    forall u a, In u U -> within u a -> poisoned sh a = false.
  Proof. intros H. destruct (reach_reached _ _ _ H) as (B & _ & _ & _ & Hl). exact (Hl eq_refl). Qed.

  Lemma fin_guarded touch U s w sh : A mod 8 = 0 -> zreach P cfg fuel lim Inv touch U (s, (w, sh)) ->
    exists L, Inv w L /\ covered U L /\ guarded sh U L.
  Proof.
    intros H8 H. destruct (reach_reached _ _ _ H) as (B & (HQ & _ & HI) & HU & Hg & _). cbn [fst snd] in *.
    exists (map b_held B). split; [exact HI|]. split; [|auto].
    intros u Hu. apply (live_covered A B (qi_blk _ _ _ _ HQ)). eapply Permutation_in; eauto.
  Qed.

  Lemma stays_undisturbed U U0 sh sh' : stays S8 U0 sh sh' -> incl U U0 -> undisturbed A U sh sh'.
  Proof.
    intros H Hi u a Hu Ha. destruct (H u a (Hi u Hu) Ha) as [H1 H2]. split; [exact H1|].
    intros H8. apply bool_eq_iff. split; auto.
  Qed.

  Lemma fin_alloc touch U s w sh n s' w' sh' p : zreach P cfg fuel lim Inv touch U (s, (w, sh)) -> 0 < n <= lim ->
    z_allocate P true cfg n (s, (w, sh)) = Ok (s', (w', sh')) p ->
    undisturbed A U sh sh' /\ forall a, within (p, n) a -> poisoned sh' a = false.
  Proof.
    intros H Hn E. destruct (reach_reached _ _ _ H) as (B & HZ & HU & _). cbn [fst snd] in *.
    pose proof (T_allocate s w sh B n HZ ltac:(lia) ltac:(lia)) as Hp. rewrite E in Hp. cbn [post fst snd] in Hp.
    destruct Hp as (B' & _ & _ & [HT _] & Hnew). split; [|exact Hnew]. eapply stays_undisturbed; [exact HT|].
    intros u Hu. eapply Permutation_in; eauto.
  Qed.

  Lemma fin_other touch U s w sh s' w' sh' : zreach P cfg fuel lim Inv touch U (s, (w, sh)) ->
    (exists n e, 0 < n <= lim /\ z_allocate P true cfg n (s, (w, sh)) = Throw (s', (w', sh')) e) \/
    z_release P true (s, (w, sh)) = Ok (s', (w', sh')) tt \/ z_coalesce P true cfg fuel (s, (w, sh)) = Ok (s', (w', sh')) tt ->
    undisturbed A U sh sh'.
  Proof.
    intros H E. destruct (reach_reached _ _ _ H) as (B & HZ & HU & _). cbn [fst snd] in *.
    assert (Hi : incl U (uregs B)) by (intros u Hu; eapply Permutation_in; eauto).
    destruct E as [(n & e & Hn & E)|[E|E]].
    - pose proof (T_allocate s w sh B n HZ ltac:(lia) ltac:(lia)) as Hp. rewrite E in Hp. cbn [post fst snd] in Hp.
      destruct Hp as (B' & _ & _ & [HT _]). eapply stays_undisturbed; eauto.
    - unfold z_release in E. pose proof (T_release s w sh B HZ) as Hp. rewrite E in Hp. cbn [post fst snd] in Hp.
      destruct Hp as (B' & _ & _ & [HT _]). eapply stays_undisturbed; eauto.
    - pose proof (T_coalesce fuel s w sh B HZ) as Hp. rewrite E in Hp. cbn [post fst snd] in Hp.
      destruct Hp as (B' & _ & _ & [HT _]). eapply stays_undisturbed; eauto.
  Qed.

  Lemma fin_free touch U U' s w sh s' w' sh' p n : zreach P cfg fuel lim Inv touch U (s, (w, sh)) ->
    Permutation U ((p, n) :: U') -> z_deallocate P true cfg fuel p (s, (w, sh)) = Ok (s', (w', sh')) tt ->
    undisturbed A U' sh sh'.
  Proof.
    intros H HP E. destruct (reach_reached _ _ _ H) as (B & HZ & HU & _). cbn [fst snd] in *.
    pose proof (T_deallocate fuel s w sh B p n HZ (Permutation_in _ HU (Permutation_in _ (Permutation_sym HP) (or_introl eq_refl)))) as Hp.
    rewrite E in Hp. cbn [post fst snd] in Hp. destruct Hp as (B' & _ & HU1 & [HT _]).
    eapply stays_undisturbed; [exact HT|]. intros u Hu.
    assert (HU' : Permutation U' (uregs B')).
    { apply Permutation_cons_inv with (a := (p, n)). rewrite HU1, <- HP. exact HU. }
    eapply Permutation_in; eauto.
  Qed.

  (** The pool is itself such a parent. *)

  Lemma fin_good touch U s w sh : zreach P cfg fuel lim Inv touch U (s, (w, sh)) -> good U.
  Proof.
    intros H. destruct (reach_reached _ _ _ H) as (B & (HQ & _) & HU & _). cbn [fst snd] in *.
    eapply good_perm; [apply Permutation_sym, HU|]. eapply uregs_good; eauto.
  Qed.

  Lemma fin_parent : A mod 8 = 0 ->
    SanParent (z_parent P true cfg fuel) lim (fun sw U => exists sh B, ZW (fst sw) (snd sw, sh) B /\ Permutation U (uregs B)).
  Proof.
    intros H8. constructor.
    - constructor.
      + intros sw U U' HP (sh & B & HZ & HU). exists sh, B. split; auto. now rewrite <- HP.
      + intros [[s w] sh0] U (sh & B & (HQ & _) & HU). eapply good_perm; [apply Permutation_sym, HU|]. eapply uregs_good; eauto.
      + intros [[s w] sh] U n (sh0 & B & HZ & HU) Hn. cbn [fst snd] in *. cbn [z_parent p_alloc fst snd].
        pose proof (T_allocate s w sh B n (zw_sh _ _ _ sh _ HZ) ltac:(lia) ltac:(lia)) as Hp.
        destruct (z_allocate P true cfg n (s, (w, sh))) as [[s' [w' sh']] p|[s' [w' sh']] e| | |]; cbn [omap assoc_sw post fst snd] in *; auto.
        * destruct Hp as (B' & HZ' & HU' & _). exists sh', B'. split; auto. now rewrite HU', HU.
        * destruct Hp as (B' & HZ' & HU' & _). exists sh', B'. split; auto. now rewrite HU'.
      + intros [[s w] sh] U p n (sh0 & B & HZ & HU). cbn [fst snd] in *. cbn [z_parent p_dealloc fst snd].
        pose proof (T_deallocate fuel s w sh B p n (zw_sh _ _ _ sh _ HZ) (Permutation_in _ HU (or_introl eq_refl))) as Hp.
        destruct (z_deallocate P true cfg fuel p (s, (w, sh))) as [[s' [w' sh']] []|[s' [w' sh']] e| | |]; cbn [omap assoc_sw post fst snd] in *; auto.
        destruct Hp as (B' & HZ' & HU' & _). exists sh', B'. split; auto.
        apply Permutation_cons_inv with (a := (p, n)). now rewrite HU'.
    - intros [s w] sh U n (sh0 & B & HZ & HU) Hn. cbn [fst snd] in *. cbn [z_parent p_alloc fst snd].
      pose proof (T_allocate s w sh B n (zw_sh _ _ _ sh _ HZ) ltac:(lia) ltac:(lia)) as Hp.
      assert (Hk : forall sh', stays S8 (uregs B) sh sh' -> sh_keeps U sh sh').
      { intros sh' Hs u a Hu Ha. destruct (Hs u a (Permutation_in _ HU Hu) Ha) as [K1 K2]. apply bool_eq_iff. split; auto. }
      destruct (z_allocate P true cfg n (s, (w, sh))) as [[s' [w' sh']] p|[s' [w' sh']] e| | |]; cbn [omap assoc_sw post fst snd] in *; auto.
      + destruct Hp as (B' & _ & _ & [HT _] & _). auto.
      + destruct Hp as (B' & _ & _ & [HT _]). auto.
    - intros [s w] sh U p n (sh0 & B & HZ & HU). cbn [fst snd] in *. cbn [z_parent p_dealloc fst snd].
      pose proof (T_deallocate fuel s w sh B p n (zw_sh _ _ _ sh _ HZ) (Permutation_in _ HU (or_introl eq_refl))) as Hp.
      destruct (z_deallocate P true cfg fuel p (s, (w, sh))) as [[s' [w' sh']] []|[s' [w' sh']] e| | |]; cbn [omap assoc_sw post fst snd] in *; auto.
      destruct Hp as (B' & _ & HU' & [HT _]). intros u a Hu Ha.
      assert (HUU : Permutation U (uregs B')).
      { apply Permutation_cons_inv with (a := (p, n)). now rewrite HU'. }
      destruct (HT u a (Permutation_in _ HUU Hu) Ha) as [K1 K2]. apply bool_eq_iff. split; auto.
  Qed.

  Lemma fin_parent_init w : Inv w [] ->
    exists sh B, ZW (fst (q_init, w)) (snd (q_init, w), sh) B /\ Permutation [] (uregs B).
  Proof.
    intros HI. exists (fun _ => 0), []. split; [|constructor]. cbn [fst snd].
    split; [apply QI_init|]. split; [intros x []|exact HI].
  Qed.
End Main.
