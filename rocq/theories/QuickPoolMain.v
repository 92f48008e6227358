(** QuickPool satisfies the client contract over any parent that does. *)
From Verif Require Import Base BaseFacts AlignedModel AlignedFacts QuickPoolModel QuickPoolInv QuickPoolFacts QuickPoolOps QuickPoolFree.

(** [U]: live allocations (address, requested size); [L]: regions held from the
    parent. *)
Definition QInv (A : Z) (s : qpool) (U L : list region) : Prop :=
  exists B, QI A s B [] /\ (forall x, In x (cells B) -> stable x) /\
            Permutation U (uregs B) /\ Permutation L (map b_held B).

Lemma QInv_perm A s U U' L L' :
  Permutation U U' -> Permutation L L' -> QInv A s U L -> QInv A s U' L'.
Proof.
  intros H1 H2 (B & HQ & Hs & HU & HL). exists B. split; [exact HQ|]. split; [exact Hs|]. split.
  - now rewrite <- H1.
  - now rewrite <- H2.
Qed.

Lemma uregs_good A s B extra : QI A s B extra -> good (uregs B).
Proof.
  intros HQ. destruct HQ. unfold uregs.
  assert (HD : pairwise disj (map cell_region (cells B))) by (eapply cells_disj; eauto).
  assert (HW : forall x, In x (cells B) -> is_used x = true ->
             wf_region (cell_alloc x) /\ inside (cell_alloc x) (cell_region x)).
  { intros x Hx Hu. apply in_cells in Hx as (b & Hb & Hx).
    pose proof (cell_in_held A b x (qi_blk b Hb) Hx) as Hi.
    destruct (bo_cells _ _ (qi_blk b Hb) x Hx) as (C1 & C2 & C3).
    destruct (proj1 qi_good (b_held b) (in_map _ _ _ Hb)) as (G1 & G2 & G3).
    unfold is_used in Hu. unfold inside, cell_region, cell_alloc, cell_req, wf_region in *.
    destruct (k_st x); try discriminate. cbn [fst snd] in *. lia. }
  generalize (cells B) HD HW. clear. intros l. induction l as [|x l IH]; intros HD HW; [apply good_nil|].
  cbn [map pairwise] in HD. destruct HD as [HD1 HD2].
  assert (IH' : good (map cell_alloc (filter is_used l))).
  { apply IH; auto. intros y Hy. apply HW. simpl; auto. }
  cbn [filter]. destruct (is_used x) eqn:Hu; [|exact IH'].
  cbn [map]. apply good_cons. destruct (HW x (or_introl eq_refl) Hu) as [W1 W2].
  split; [exact W1|]. split; [|exact IH'].
  intros r Hr. apply in_map_iff in Hr as (y & <- & Hy). apply filter_In in Hy as [Hy Huy].
  destruct (HW y (or_intror Hy) Huy) as [_ V2]. specialize (HD1 _ (in_map cell_region _ _ Hy)).
  unfold inside, disj in *. lia.
Qed.

Lemma QI_init A : QI A q_init [] [].
Proof.
  constructor; cbn; auto; try (intros ? []); try constructor; try reflexivity; try lia;
    try apply good_nil; unfold ASP; try lia; try (intros ? []).
Qed.

Lemma QInv_init A : QInv A q_init [] [].
Proof. exists []. split; [apply QI_init|]. split; [intros x []|]. split; constructor. Qed.

(** Adding and removing whole blocks. *)
Lemma QI_remove_block A s x d p t B :
  0 < A ->
  QI A s (mkBlk [x] d p t :: B) [] -> k_st x = SFree ->
  forall sm, Permutation (q_sizemap s) (cell_entry x :: sm) -> sorted_sm sm ->
  QI A (mkQ (fdel (q_chunks s) (k_id x)) (q_ptrmap s) sm (fdel (q_base s) d) (q_fresh s)
            (q_total_blocks s - 1) (q_rel_blocks s - 1) (q_aligned s) (q_aligned_hwm s)
            (q_actual s - k_size x) (q_rel_bytes s - k_size x) (q_actual_hwm s)) B [].
Proof.
  intros HA HQ Hst sm HP Hs. pose proof HQ as HQ0. destruct HQ.
  pose proof (focus_perm [] [x] [] d p t B) as HF. cbn [app rest] in HF.
  change (rest [] [] B) with (cells B) in HF.
  assert (Hx : is_free x = true /\ is_used x = false /\ is_rel x = true).
  { unfold is_free, is_used, is_rel. now rewrite Hst. }
  destruct Hx as (Hf & Hu & Hr).
  assert (Hsz : b_size (mkBlk [x] d p t) = k_size x) by (unfold b_size, csum; cbn; lia).
  assert (Hrb : rel_blocks (mkBlk [x] d p t :: B) = mkBlk [x] d p t :: rel_blocks B).
  { unfold rel_blocks. cbn [filter]. unfold b_rel at 1. qs. now rewrite Hr. }
  assert (Hids : NoDup (k_id x :: map k_id (cells B))).
  { eapply Permutation_NoDup; [|exact qi_nodup]. apply (Permutation_map k_id HF). }
  apply NoDup_cons_iff in Hids as [N1 N2].
  assert (HP' : Permutation (q_sizemap s) (cell_entry x :: map cell_entry (filter is_free (cells B)))).
  { rewrite qi_sm, (Permutation_map cell_entry (Permutation_filter is_free _ _ HF)).
    cbn [filter]. rewrite Hf. reflexivity. }
  constructor; qs; auto.
  - intros b Hb. eapply seg_frame; [|apply qi_seg; simpl; auto].
    intros y Hy. apply fdel_ne. intros E. apply N1. rewrite <- E. apply in_map, in_cells. eauto.
  - intros y Hy. apply qi_ids. rewrite cells_cons. apply in_or_app; auto.
  - intros b Hb. apply qi_blk; simpl; auto.
  - eapply Permutation_cons_inv with (a := cell_entry x). rewrite <- HP. exact HP'.
  - eapply sorted_tok_sub; eauto.
  - intros e He. apply qi_tokb. eapply Permutation_in; [apply Permutation_sym, HP|]. simpl; auto.
  - rewrite qi_pm. cbn [app]. rewrite (Permutation_map cell_pm (Permutation_filter is_used _ _ HF)).
    cbn [filter]. rewrite Hu. reflexivity.
  - intros b Hb. rewrite fdel_ne; [apply qi_base; simpl; auto|].
    apply (b_data_inj A (mkBlk [x] d p t) B); auto.
  - rewrite qi_actual. cbn [map sumZ]. lia.
  - rewrite qi_total. cbn [length]. lia.
  - rewrite qi_relb, Hrb. cbn [length]. lia.
  - rewrite qi_rel, Hrb. cbn [map sumZ]. lia.
  - rewrite qi_aligned, (sumZ_perm _ _ (Permutation_map k_size (Permutation_filter is_used _ _ HF))).
    cbn [filter]. rewrite Hu. reflexivity.
  - cbn [map] in qi_good. now apply good_cons in qi_good.
  - pose proof (b_size_pos _ _ (qi_blk _ (or_introl eq_refl))). lia.
Qed.

Lemma QI_add_block A s d p t B size :
  pow2_align A ->
  QI A s B [] -> 0 < size -> t = size + A -> d = align_up A p -> p <= d < p + A -> d mod A = 0 ->
  good ((p, t) :: map b_held B) ->
  QI A (mkQ (fset (q_chunks s) (q_fresh s) (mkChunk d size size true 0 0 0)) (q_ptrmap s) (q_sizemap s)
            (fset (q_base s) d (p, t)) (q_fresh s + 1)
            (q_total_blocks s + 1) (q_rel_blocks s + 1) (q_aligned s) (q_aligned_hwm s)
            (q_actual s + size) (q_rel_bytes s + size) (zmax (q_actual s + size) (q_actual_hwm s)))
     (mkBlk [mkCell (q_fresh s) d size STaken 0] d p t :: B) [].
Proof.
  intros HpA HQ Hsz Ht Hau Hd Hm Hg. pose proof (pow2_align_pos A HpA) as HA.
  pose proof HQ as HQ0. destruct HQ.
  set (x := mkCell (q_fresh s) d size STaken 0). set (b := mkBlk [x] d p t).
  pose proof (focus_perm [] [x] [] d p t B) as HF. cbn [app] in HF.
  change (rest [] [] B) with (cells B) in HF. fold b in HF.
  assert (Hbs : b_size b = size) by (unfold b_size, csum, b; cbn; lia).
  assert (Hbok : blk_ok A b).
  { constructor; unfold b; qs.
    - discriminate.
    - cbn [contig]. auto.
    - intros y [<-|[]]. unfold cell_ok, x; qs. auto.
    - cbn. auto.
    - lia.
    - fold b. rewrite Hbs. lia.
    - fold b. rewrite Hbs. lia.
    - exact Hau. }
  assert (Hok : forall b', In b' (b :: B) -> blk_ok A b') by (intros b' [<-|Hb']; auto).
  assert (Hgb : good (map b_held (b :: B))) by exact Hg.
  assert (Hrb : rel_blocks (b :: B) = b :: rel_blocks B) by reflexivity.
  pose proof (sum_blocks_bound A (b :: B) ltac:(lia) Hok Hgb) as HS. cbn [map sumZ length] in HS. rewrite Hbs in HS.
  constructor; qs; auto.
  - intros b' [<-|Hb'].
    + rewrite Hbs. cbn [b b_cells seg]. cbn [x k_id]. rewrite fset_eq. split; auto.
    + eapply seg_frame; [|apply qi_seg; auto]. intros y Hy. apply fset_ne.
      assert (0 < k_id y < q_fresh s); [|lia]. apply qi_ids, in_cells; eauto.
  - eapply Permutation_NoDup; [apply Permutation_sym, (Permutation_map k_id HF)|].
    cbn [map x k_id]. constructor; auto. intros Hin. apply in_map_iff in Hin as (y & E & Hy).
    specialize (qi_ids y Hy). lia.
  - intros y Hy. eapply Permutation_in in Hy; [|exact HF]. destruct Hy as [<-|Hy].
    + cbn [x k_id]. lia.
    + specialize (qi_ids y Hy). lia.
  - intros e He. specialize (qi_tokb e He). lia.
  - intros b' [<-|Hb'].
    + cbn [b b_data]. now rewrite fset_eq.
    + rewrite fset_ne; [apply qi_base; auto|]. apply (b_data_inj A b B); auto.
  - rewrite qi_actual. cbn [map sumZ]. lia.
  - rewrite qi_total. cbn [length]. lia.
  - rewrite qi_relb, Hrb. cbn [length]. lia.
  - rewrite qi_rel, Hrb. cbn [map sumZ]. lia.
  - lia.
  - unfold zmax. destruct (Z.ltb_spec (q_actual_hwm s) (q_actual s + size)); lia.
Qed.

(** Marking a free fragment as taken when its entry leaves the size map. *)
Lemma QI_take A s l1 x l2 d p t B sm :
  QI A s (mkBlk (l1 ++ x :: l2) d p t :: B) [] -> k_st x = SFree ->
  Permutation (q_sizemap s) (cell_entry x :: sm) -> sorted_sm sm ->
  let x' := mkCell (k_id x) (k_data x) (k_size x) STaken (k_it x) in
  QI A (set_sizemap s sm) (mkBlk (l1 ++ x' :: l2) d p t :: B) [].
Proof.
  intros HQ Hst HP Hs x'. pose proof HQ as HQ0. destruct HQ.
  pose proof (focus_perm l1 [x] l2 d p t B) as HF. cbn [app] in HF.
  assert (Hx : is_free x = true /\ is_used x = false /\ is_rel x = true).
  { unfold is_free, is_used, is_rel. now rewrite Hst. }
  destruct Hx as (Hf & Hu & Hr).
  pose proof (qi_blk _ (or_introl eq_refl)) as Hb. destruct Hb; qs.
  change (x' :: l2) with ([x'] ++ l2).
  eapply (QI_replace A s _ l1 [x] l2 d p t B [] [] [x']); qs; auto.
  - discriminate.
  - pose proof (qi_seg _ (or_introl eq_refl)) as Hseg. qs. unfold b_size in Hseg; qs.
    cbn [app]. apply seg_app in Hseg as [Hs1 Hs2]. cbn [seg hd_id] in Hs1, Hs2. destruct Hs2 as [Hs2 Hs3].
    apply seg_app. split; [exact Hs1|]. cbn [seg]. split; [|exact Hs3].
    cbn [x' k_id]. rewrite Hs2. unfold cell_chunk, x'; qs. rewrite Hst. reflexivity.
  - lia.
  - intros z [<-|[]]. cbn [x' k_id]. apply qi_ids. eapply Permutation_in; [apply Permutation_sym, HF|]. simpl; auto.
  - cbn [app map x' k_id]. eapply Permutation_NoDup; [|exact qi_nodup]. apply (Permutation_map k_id HF).
  - apply contig_app in bo_contig as [_ Hc]. cbn [contig] in Hc. cbn [contig x' k_data k_size]. tauto.
  - intros z [<-|[]]. destruct (bo_cells x ltac:(apply in_or_app; simpl; auto)) as (C1 & C2 & C3).
    unfold cell_ok, x'; qs. auto.
  - apply merged_app in bo_merged as (M1 & M2 & M3). apply merged_app. cbn [app merged hd_rel] in *.
    change (is_rel x') with true. rewrite Hr in *. auto.
  - cbn [filter map]. change (is_free x') with false. cbn [map app].
    eapply Permutation_cons_inv with (a := cell_entry x). rewrite <- HP.
    rewrite qi_sm, (Permutation_map cell_entry (Permutation_filter is_free _ _ HF)).
    cbn [filter]. rewrite Hf. reflexivity.
  - eapply sorted_tok_sub; eauto.
  - intros e He. apply qi_tokb. eapply Permutation_in; [apply Permutation_sym, HP|]. simpl; auto.
  - cbn [filter map app]. change (is_used x') with false. cbn [map app].
    rewrite qi_pm. cbn [app]. rewrite (Permutation_map cell_pm (Permutation_filter is_used _ _ HF)).
    cbn [filter]. rewrite Hu. reflexivity.
  - rewrite qi_relb. cbn [app]. rewrite !rel_blocks_mid. change (is_rel x') with true. rewrite Hr.
    destruct l1, l2; reflexivity.
  - rewrite qi_rel. cbn [app]. rewrite !rel_blocks_mid. change (is_rel x') with true. rewrite Hr.
    destruct l1, l2; reflexivity.
  - rewrite qi_aligned, (sumZ_perm _ _ (Permutation_map k_size (Permutation_filter is_used _ _ HF))).
    cbn [filter]. rewrite Hu. reflexivity.
Qed.

(** What a heuristic may return; met by all heuristics QuickPool ships. *)
Definition heur_ok (h : qview -> Z) : Prop :=
  forall v, 0 <= v_actual v < ASP -> 0 <= v_aligned_hwm v < ASP -> 0 <= h v < ASP.

Record qcfg_ok (cfg : qcfg) (limP : Z) : Prop := {
  qc_align : pow2_align (cf_align cfg);
  qc_first : 0 <= cf_first cfg /\ cf_first cfg + cf_align cfg <= limP;
  qc_next : 0 <= cf_next cfg /\ cf_next cfg + cf_align cfg <= limP;
  qc_lim : limP < M64;
  qc_asp : ASP <= limP - 2 * cf_align cfg;
  qc_heur : heur_ok (cf_heur cfg)
}.

Section Main.
  Context {W : Type} (P : Parent W) (limP : Z) (Inv : W -> list region -> Prop).
  Hypothesis PS : ParentSpec P limP Inv.
  Context (cfg : qcfg).
  Let A := cf_align cfg.
  Hypothesis CFG : qcfg_ok cfg limP.

  Lemma HpA : pow2_align A. Proof. apply CFG. Qed.
  Lemma HA : 0 < A. Proof. pose proof (pow2_align_pos A HpA). lia. Qed.

  (** Full description of a pool state together with its parent. *)
  Definition QW (s : qpool) (w : W) (B : list blk) : Prop :=
    QI A s B [] /\ (forall x, In x (cells B) -> stable x) /\ Inv w (map b_held B).

  Definition b_whole_entry (b : blk) (e : sm_entry) : Prop :=
    exists x, b_cells b = [x] /\ cell_entry x = e.

  Lemma q_release_loop_ok todo : forall s w B,
    QW s w B -> incl todo (q_sizemap s) -> NoDup (map e_tok todo) ->
    post (q_release_loop P todo (s, w))
      (fun sw' _ => exists R B', Permutation B (R ++ B') /\ QW (fst sw') (snd sw') B' /\
         (forall b, In b R -> b_rel b = true) /\
         (forall b e, In b B' -> In e todo -> ~ b_whole_entry b e) /\
         q_ptrmap (fst sw') = q_ptrmap s /\ q_aligned (fst sw') = q_aligned s /\
         q_aligned_hwm (fst sw') = q_aligned_hwm s /\ q_actual_hwm (fst sw') = q_actual_hwm s)
      (fun _ _ => False).
  Proof.
    induction todo as [|e todo IH]; intros s w B (HQ & Hst & HI) Hincl Hnd.
    - cbn [q_release_loop post]. exists [], B. split; [reflexivity|]. split; [split; auto|].
      cbn. repeat split; auto; intros b [].
    - cbn [q_release_loop]. cbn [map] in Hnd. apply NoDup_cons_iff in Hnd as [Hne Hnd].
      assert (Hin : In e (q_sizemap s)) by (apply Hincl; simpl; auto).
      pose proof Hin as Hin'. eapply Permutation_in in Hin'; [|apply (qi_sm _ _ _ _ HQ)].
      apply in_map_iff in Hin' as (x & Ee & Hx). apply filter_In in Hx as [Hx Hfx].
      assert (Hsx : k_st x = SFree) by (unfold is_free in Hfx; destruct (k_st x); auto; discriminate).
      destruct (cells_focus _ _ Hx) as (l1 & l2 & d & p & t & B1 & HP).
      pose proof (QI_perm _ _ _ _ _ HP HQ) as HQ1.
      pose proof (qi_seg _ _ _ _ HQ1 _ (or_introl eq_refl)) as Hseg. qs.
      pose proof (seg_lookup _ _ _ _ _ _ _ Hseg) as Hlx.
      pose proof (qi_blk _ _ _ _ HQ1 _ (or_introl eq_refl)) as Hbok.
      assert (Hec : e_chunk e = k_id x) by (subst e; reflexivity).
      assert (Het : e_tok e = k_it x) by (subst e; reflexivity).
      rewrite Hec, Hlx. qs. rewrite Hsx. cbn [st_free]. rewrite andb_true_r.
      unfold b_size at 1. qs. rewrite (whole_block _ _ _ _ (bo_contig _ _ Hbok)).
      assert (Hnd_blocks : NoDup (map k_id (cells B))) by apply (qi_nodup _ _ _ _ HQ).
      destruct (match l1, l2 with [], [] => true | _, _ => false end) eqn:Ew.
      + assert (l1 = [] /\ l2 = []) as [-> ->] by (destruct l1, l2; try discriminate; auto).
        cbn [app] in *.
        assert (Hd : k_data x = d) by (pose proof (bo_contig _ _ Hbok) as Hc; qs; cbn [contig] in Hc; tauto).
        assert (Hcs : b_size (mkBlk [x] d p t) = k_size x) by (unfold b_size, csum; cbn; lia).
        assert (Hkp : 0 < k_size x) by (destruct (bo_cells _ _ Hbok x (or_introl eq_refl)); auto).
        assert (Hge : k_size x <= q_rel_bytes s /\ 1 <= q_rel_blocks s /\ 1 <= q_total_blocks s /\ k_size x <= q_actual s).
        { rewrite (qi_rel _ _ _ _ HQ1), (qi_relb _ _ _ _ HQ1), (qi_total _ _ _ _ HQ1), (qi_actual _ _ _ _ HQ1).
          assert (Hr0 : rel_blocks (mkBlk [x] d p t :: B1) = mkBlk [x] d p t :: rel_blocks B1).
          { unfold rel_blocks; cbn [filter]. unfold b_rel at 1. qs. unfold is_rel. rewrite Hsx. reflexivity. }
          rewrite Hr0. cbn [map sumZ length]. rewrite Hcs.
          assert (HN : forall b, In b B1 -> 0 <= b_size b).
          { intros b Hb. pose proof (b_size_pos _ _ (qi_blk _ _ _ _ HQ1 b (or_intror Hb))). lia. }
          pose proof (sum_filter_le b_rel b_size B1 HN). unfold rel_blocks. lia. }
        pose proof (qi_actual_b _ _ _ _ HA HQ) as Bact.
        pose proof (qi_total_b _ _ _ _ HA HQ) as Btot.
        pose proof (qi_relb_b _ _ _ _ HA HQ) as Brelb.
        pose proof (qi_rel_b _ _ _ _ HQ) as Brel.
        pose proof ASP_M64 as HAM.
        rewrite Hcs. rewrite !w64_small by lia.
        unfold aligned_deallocate. rewrite Hd.
        pose proof (qi_base _ _ _ _ HQ1 _ (or_introl eq_refl)) as Hbase. qs. rewrite Hbase.
        unfold b_held at 1. qs.
        pose proof (ps_dealloc _ _ _ PS w (map b_held B1) p t) as Hde.
        assert (HI1 : Inv w ((p, t) :: map b_held B1)).
        { eapply (ps_perm _ _ _ PS); [|exact HI]. rewrite (Permutation_map b_held HP). reflexivity. }
        specialize (Hde HI1).
        destruct (p_dealloc P p t w) as [w' []| | | |]; cbn [omap post] in *; auto; try contradiction.
        cbn [fst snd]. qs.
        destruct (sm_erase_in _ _ (qi_toks _ _ _ _ HQ) Hin) as (sm & Esm & Psm).
        rewrite Het in Esm. rewrite Het, Esm.
        destruct (sm_erase_sorted _ _ _ Esm (qi_sorted _ _ _ _ HQ)) as [Hsort Hinc].
        rewrite <- Ee in Psm.
        pose proof (QI_remove_block _ _ _ _ _ _ _ HA HQ1 Hsx sm Psm Hsort) as HQ2.
        assert (HQW2 : QW (mkQ (fdel (q_chunks s) (k_id x)) (q_ptrmap s) sm (fdel (q_base s) d) (q_fresh s)
            (q_total_blocks s - 1) (q_rel_blocks s - 1) (q_aligned s) (q_aligned_hwm s)
            (q_actual s - k_size x) (q_rel_bytes s - k_size x) (q_actual_hwm s)) w' B1).
        { split; [exact HQ2|]. split; [|exact Hde]. intros y Hy. apply Hst.
          eapply Permutation_in; [apply Permutation_sym, (cells_perm _ _ HP)|]. rewrite cells_cons. apply in_or_app; auto. }
        assert (Hincl2 : incl todo sm).
        { intros e' He'. assert (H0 : In e' (q_sizemap s)) by (apply Hincl; simpl; auto).
          eapply Permutation_in in H0; [|exact Psm]. destruct H0 as [H0|H0]; auto.
          exfalso. apply Hne. rewrite Het. replace (k_it x) with (e_tok e') by (now rewrite <- H0). now apply in_map. }
        specialize (IH _ _ _ HQW2 Hincl2 Hnd). unfold set_sizemap, set_chunks, set_base, set_blocks, set_bytes in *. qs.
        eapply post_impl; [| |exact IH]; [|auto].
        intros [s3 w3] _ (R & B' & HPR & HQ3 & HR & Hno & E1 & E2 & E3 & E4). cbn [fst snd] in *.
        exists (mkBlk [x] d p t :: R), B'. split; [|split; [exact HQ3|split; [|split]]].
        * rewrite HP. cbn [app]. constructor. exact HPR.
        * intros b [<-|Hb]; auto. unfold b_rel. qs. unfold is_rel. now rewrite Hsx.
        * intros b e' Hb [<-|He']; [|auto]. intros (y & Hy1 & Hy2).
          assert (HbB : In b B1). { eapply Permutation_in; [apply Permutation_sym, HPR|]. apply in_or_app; auto. }
          pose proof (qi_nodup _ _ _ _ HQ1) as ND. rewrite cells_cons in ND. qs. cbn [app map] in ND.
          apply NoDup_cons_iff in ND as [ND _]. apply ND. rewrite <- Ee in Hy2. inv Hy2.
          apply in_map_iff. exists y. split; auto. apply in_cells. exists b. rewrite Hy1. simpl; auto.
        * auto.
      + assert (HQW : QW s w B) by (split; auto).
        specialize (IH s w B HQW (fun e' He' => Hincl e' (or_intror He')) Hnd).
        eapply post_impl; [| |exact IH]; [|auto].
        intros [s3 w3] _ (R & B' & HPR & HQ3 & HR & Hno & Erest). cbn [fst snd] in *.
        exists R, B'. split; [exact HPR|]. split; [exact HQ3|]. split; [exact HR|]. split; [|exact Erest].
        intros b e' Hb [<-|He']; [|auto]. intros (y & Hy1 & Hy2).
        assert (HbB : In b B). { eapply Permutation_in; [apply Permutation_sym, HPR|]. apply in_or_app; auto. }
        (* y and x have the same id, hence are the same fragment of the same block *)
        assert (Hyid : k_id y = k_id x) by (rewrite <- Hec, <- Hy2; reflexivity).
        assert (HbP : In b (mkBlk (l1 ++ x :: l2) d p t :: B1)) by (eapply Permutation_in; eauto).
        destruct HbP as [<-|HbP].
        * qs. destruct l1 as [|z l1]; [|destruct l1; discriminate].
          destruct l2; discriminate.
        * pose proof (qi_nodup _ _ _ _ HQ1) as ND. rewrite cells_cons in ND. qs.
          rewrite map_app in ND. rewrite map_app in ND. cbn [map] in ND. rewrite <- app_assoc in ND. cbn [app] in ND.
          apply NoDup_remove_2 in ND. apply ND. rewrite !in_app_iff. right; right.
          apply in_map_iff. exists y. split; auto. apply in_cells. exists b. rewrite Hy1. simpl; auto.
  Qed.

  (** [release()] returns exactly the completely free blocks. *)
  Lemma q_release_ok s w B :
    QW s w B ->
    post (q_release P (s, w))
      (fun sw' _ => exists B', Permutation B (rel_blocks B ++ B') /\ QW (fst sw') (snd sw') B' /\
         rel_blocks B' = [] /\
         q_ptrmap (fst sw') = q_ptrmap s /\ q_aligned (fst sw') = q_aligned s /\
         q_aligned_hwm (fst sw') = q_aligned_hwm s /\ q_actual_hwm (fst sw') = q_actual_hwm s)
      (fun _ _ => False).
  Proof.
    intros HQW. unfold q_release. cbn [fst].
    assert (HQ : QI A s B []) by apply HQW.
    eapply post_impl; [| |apply (q_release_loop_ok _ s w B HQW)]; auto.
    - intros [s' w'] _ (R & B' & HP & HQ' & HR & Hno & Erest). cbn [fst snd] in *.
      assert (Hnone : rel_blocks B' = []).
      { destruct (rel_blocks B') as [|b l] eqn:E; auto. exfalso.
        assert (Hb : In b B' /\ b_rel b = true) by (apply filter_In; fold (rel_blocks B'); rewrite E; simpl; auto).
        destruct Hb as [Hb Hbr]. unfold b_rel in Hbr.
        destruct (b_cells b) as [|x [|y t]] eqn:Ec; try discriminate.
        assert (HbB : In b B). { eapply Permutation_in; [apply Permutation_sym, HP|]. apply in_or_app; auto. }
        assert (Hxc : In x (cells B)) by (apply in_cells; exists b; rewrite Ec; simpl; auto).
        apply (Hno b (cell_entry x) Hb).
        - eapply Permutation_in; [apply Permutation_sym, (qi_sm _ _ _ _ HQ)|]. apply in_map, filter_In. split; auto.
          destruct HQW as (_ & Hst & _). destruct (Hst x Hxc) as [E1|[r E1]]; unfold is_rel, is_free in *; rewrite E1 in *; auto.
        - exists x. auto. }
      exists B'. split; [|split; [exact HQ'|split; [exact Hnone|exact Erest]]].
      assert (HRB : Permutation (rel_blocks B) R).
      { unfold rel_blocks. rewrite (Permutation_filter b_rel _ _ HP), filter_app.
        fold (rel_blocks B'). rewrite Hnone, app_nil_r.
        assert (filter b_rel R = R) as ->; [|reflexivity].
        clear -HR. induction R as [|b R IH]; simpl; auto. rewrite (HR b) by (simpl; auto).
        f_equal. apply IH. intros; apply HR; simpl; auto. }
      rewrite HRB. exact HP.
    - apply incl_refl.
    - apply (qi_toks _ _ _ _ HQ).
  Qed.

  Lemma uregs_app B1 B2 : uregs (B1 ++ B2) = uregs B1 ++ uregs B2.
  Proof. unfold uregs, cells. now rewrite flat_map_app, filter_app, map_app. Qed.

  Lemma uregs_rel_nil B : (forall b, In b B -> b_rel b = true) -> uregs B = [].
  Proof.
    induction B as [|b B IH]; intros H; [reflexivity|].
    change (b :: B) with ([b] ++ B). rewrite uregs_app, IH by (intros; apply H; simpl; auto).
    rewrite app_nil_r. specialize (H b (or_introl eq_refl)). unfold uregs, cells, b_rel in *. cbn [flat_map].
    destruct (b_cells b) as [|x [|y l]]; try discriminate. cbn [app filter].
    unfold is_rel, is_used in *. destruct (k_st x); try discriminate; reflexivity.
  Qed.

  Lemma uregs_release B B' : Permutation B (rel_blocks B ++ B') -> Permutation (uregs B') (uregs B).
  Proof.
    intros HP. rewrite (uregs_perm _ _ HP), uregs_app, (uregs_rel_nil (rel_blocks B)); [reflexivity|].
    intros b Hb. now apply filter_In in Hb.
  Qed.

  (** One attempt to obtain memory for a new block. *)
  Lemma q_grow_ok s w B size :
    QW s w B -> 0 < size -> size + A <= limP ->
    post (q_grow P cfg size (s, w))
      (fun sw' d => exists p,
         (fst sw' : qpool) = set_base s (fset (q_base s) d (p, size + A)) /\
         p_alloc P (size + A) w = Ok (snd sw') p /\
         d = align_up A p /\ p <= d < p + A /\ d mod A = 0 /\ Inv (snd sw') ((p, size + A) :: map b_held B))
      (fun sw' e => (fst sw' : qpool) = s /\ QW (fst sw') (snd sw') B /\ p_alloc P (size + A) w = Throw (snd sw') e).
  Proof.
    intros (HQ & Hst & HI) Hs Hl. unfold q_grow, aligned_allocate. fold A.
    pose proof HA as HA0. pose proof (qc_lim _ _ CFG) as HL.
    rewrite w64_small by lia.
    pose proof (ps_alloc _ _ _ PS w _ (size + A) HI ltac:(lia)) as Ha.
    destruct (p_alloc P (size + A) w) as [w' p|w' e| | |]; cbn [omap post fst snd] in *; auto.
    - exists p. split; [reflexivity|]. split; [reflexivity|].
      pose proof (ps_good _ _ _ PS _ _ Ha) as Hg. apply good_cons in Hg as ((G1 & G2 & G3) & _).
      cbn [fst snd] in *. pose proof ASP_M64.
      pose proof (align_up_spec A p HpA ltac:(lia)) as Hal. cbv zeta in Hal.
      assert (p + A <= M64) by lia. specialize (Hal H0). split; [reflexivity|]. repeat split; try tauto; lia.
    - split; [destruct s; reflexivity|]. split; [|reflexivity]. split; [|split; auto]. destruct s; exact HQ.
  Qed.

  (** Size of the block requested for a rounded request that no free fragment
      can serve. *)
  Definition new_size (s : qpool) (rounded : Z) : Z :=
    zmax rounded (if q_actual s =? 0 then cf_first cfg else cf_next cfg).

  (** The parent supplied [total] bytes at [p], at the first attempt or after the
      idle blocks were given back; [B'] are the blocks kept. *)
  Definition grown (s : qpool) (w : W) (B : list blk) (total : Z) (w' : W) (p : Z) (B' : list blk) : Prop :=
    (p_alloc P total w = Ok w' p /\ B' = B) \/
    (exists w1 e s2 w2, p_alloc P total w = Throw w1 e /\ q_release P (s, w1) = Ok (s2, w2) tt /\
       p_alloc P total w2 = Ok w' p /\ Permutation B (rel_blocks B ++ B') /\ rel_blocks B' = []).

  (** Both attempts failed. *)
  Definition failed (s : qpool) (w : W) (B : list blk) (total : Z) (sw' : qw (W := W)) (B' : list blk) : Prop :=
    exists w1 e w2 e2, p_alloc P total w = Throw w1 e /\ q_release P (s, w1) = Ok (fst sw', w2) tt /\
       p_alloc P total w2 = Throw (snd sw') e2 /\ Permutation B (rel_blocks B ++ B') /\ rel_blocks B' = [].

  Lemma q_new_block_ok s w B rounded :
    QW s w B -> 0 < rounded -> rounded + A <= limP ->
    post (q_new_block P cfg rounded (s, w))
      (fun sw' c => exists x d p t B',
         k_id x = c /\ k_st x = STaken /\ rounded <= k_size x /\
         QI A (fst sw') (mkBlk [x] d p t :: B') [] /\
         (forall y, In y (cells B') -> stable y) /\
         Inv (snd sw') ((p, t) :: map b_held B') /\
         k_data x = align_up A p /\ t = new_size s rounded + A /\
         grown s w B (new_size s rounded + A) (snd sw') p B' /\
         k_size x = new_size s rounded /\
         q_ptrmap (fst sw') = q_ptrmap s /\ q_aligned (fst sw') = q_aligned s /\
         q_aligned_hwm (fst sw') = q_aligned_hwm s /\
         q_actual_hwm (fst sw') = Z.max (q_actual_hwm s) (q_actual (fst sw')))
      (fun sw' _ => exists B', QW (fst sw') (snd sw') B' /\
         failed s w B (new_size s rounded + A) sw' B' /\
         q_aligned (fst sw') = q_aligned s /\
         q_aligned_hwm (fst sw') = q_aligned_hwm s /\ q_actual_hwm (fst sw') = q_actual_hwm s).
  Proof.
    intros HQW Hr Hl. unfold q_new_block. cbn [fst]. fold (new_size s rounded).
    set (sz := new_size s rounded) in *.
    assert (Hsz : rounded <= sz /\ sz + A <= limP).
    { unfold sz, new_size, zmax. destruct (qc_first _ _ CFG) as [F1 F2]. destruct (qc_next _ _ CFG) as [N1 N2]. fold A in F2, N2.
      destruct (q_actual s =? 0); match goal with |- context [?a <? ?b] => destruct (Z.ltb_spec a b) end; lia. }
    destruct Hsz as [Hsz1 Hsz2].
    (* the part after the block has been obtained *)
    assert (Hfin : forall s0 w1 B' d p, QI A s0 B' [] -> (forall y, In y (cells B') -> stable y) ->
      grown s w B (sz + A) w1 p B' ->
      q_ptrmap s0 = q_ptrmap s -> q_aligned s0 = q_aligned s -> q_aligned_hwm s0 = q_aligned_hwm s ->
      q_actual_hwm s0 = q_actual_hwm s ->
      d = align_up A p -> p <= d < p + A -> d mod A = 0 -> Inv w1 ((p, sz + A) :: map b_held B') ->
      post
        (let s := set_base s0 (fset (q_base s0) d (p, sz + A)) in
         let actual := w64 (q_actual s + sz) in
         let s1 := set_bytes s actual (w64 (q_rel_bytes s + sz)) (zmax actual (q_actual_hwm s)) in
         let s2 := set_blocks s1 (w64 (q_total_blocks s1 + 1)) (w64 (q_rel_blocks s1 + 1)) in
         let c := q_fresh s2 in
         let s3 := set_chunks s2 (fset (q_chunks s2) c (mkChunk d sz sz true 0 0 0)) in
         Ok (set_fresh s3 (c + 1), w1) c)
        (fun sw' c => exists x d p t B',
         k_id x = c /\ k_st x = STaken /\ rounded <= k_size x /\
         QI A (fst sw') (mkBlk [x] d p t :: B') [] /\
         (forall y, In y (cells B') -> stable y) /\
         Inv (snd sw') ((p, t) :: map b_held B') /\
         k_data x = align_up A p /\ t = sz + A /\
         grown s w B (sz + A) (snd sw') p B' /\
         k_size x = sz /\
         q_ptrmap (fst sw') = q_ptrmap s /\ q_aligned (fst sw') = q_aligned s /\
         q_aligned_hwm (fst sw') = q_aligned_hwm s /\
         q_actual_hwm (fst sw') = Z.max (q_actual_hwm s) (q_actual (fst sw')))
        (fun sw' (_ : exn) => exists B', QW (fst sw') (snd sw') B' /\
         failed s w B (sz + A) sw' B' /\
         q_aligned (fst sw') = q_aligned s /\
         q_aligned_hwm (fst sw') = q_aligned_hwm s /\ q_actual_hwm (fst sw') = q_actual_hwm s)).
    { intros s0 w1 B' d p HQ Hst HB E1 E2 E3 E4 Hau Hd Hm HI. cbv zeta. cbn [post fst snd].
      pose proof (ps_good _ _ _ PS _ _ HI) as Hg.
      pose proof (QI_add_block A s0 d p (sz + A) B' sz HpA HQ ltac:(lia) eq_refl Hau Hd Hm Hg) as HQ2.
      exists (mkCell (q_fresh s0) d sz STaken 0), d, p, (sz + A), B'. qs.
      assert (Hb : sumZ (map b_size B') + sz + A * Z.of_nat (S (length B')) < ASP).
      { pose proof (sum_blocks_bound A _ HA (qi_blk _ _ _ _ HQ2) (qi_good _ _ _ _ HQ2)) as HS.
        cbn [map sumZ length] in HS. unfold b_size at 1 3 in HS. unfold csum in HS. cbn [b_cells map sumZ k_size] in HS. lia. }
      pose proof (qi_actual _ _ _ _ HQ) as Ea. pose proof (qi_total _ _ _ _ HQ) as Et.
      pose proof (qi_actual_b _ _ _ _ HA HQ) as Bact.
      pose proof (qi_relb_b _ _ _ _ HA HQ) as Brelb. pose proof (qi_relb _ _ _ _ HQ) as Er.
      pose proof (qi_rel_b _ _ _ _ HQ) as Brel. pose proof ASP_M64 as HAM. pose proof HA as HA0.
      pose proof (rel_len B') as Hrl.
      split; [reflexivity|]. split; [reflexivity|]. split; [lia|].
      split; [|split; [exact Hst|split; [exact HI|split; [exact Hau|split; [reflexivity|split; [exact HB|]]]]]].
      - unfold set_fresh, set_chunks, set_blocks, set_bytes, set_base. qs.
        rewrite !w64_small by nia. exact HQ2.
      - split; [reflexivity|]. repeat (split; [assumption|]). rewrite E4. unfold zmax.
        match goal with |- (if ?a <? ?b then _ else _) = _ => destruct (Z.ltb_spec a b) end; lia. }
    pose proof (q_grow_ok s w B sz HQW ltac:(lia) Hsz2) as Hg1.
    destruct (q_grow P cfg sz (s, w)) as [[s1 w1] d|[s1 w1] e| | |]; cbn [bind post fst snd] in *; auto.
    - destruct Hg1 as (p & -> & Ep & Hau & Hd & Hm & HI). destruct HQW as (HQ & Hst & _).
      apply (Hfin s w1 B d p); auto. left; auto.
    - destruct Hg1 as (-> & Hg1 & Ep). pose proof (q_release_ok s w1 B Hg1) as Hrel.
      destruct (q_release P (s, w1)) as [[s2 w2] []|[s2 w2] e2| | |] eqn:Erel; cbn [bind post fst snd] in *; auto; try contradiction.
      destruct Hrel as (B' & HP & HQW2 & Hnone & R1 & R2 & R3 & R4).
      pose proof (q_grow_ok s2 w2 B' sz HQW2 ltac:(lia) Hsz2) as Hg2.
      destruct (q_grow P cfg sz (s2, w2)) as [[s3 w3] d|[s3 w3] e3| | |]; cbn [bind post fst snd] in *; auto.
      + destruct Hg2 as (p & -> & Ep2 & Hau & Hd & Hm & HI). destruct HQW2 as (HQ & Hst & _).
        apply (Hfin s2 w3 B' d p); auto. right. exists w1, e, s2, w2. auto.
      + destruct Hg2 as (-> & Hg2 & Ep2). exists B'. split; [exact Hg2|]. split; [|auto].
        exists w1, e, w2, e3. auto.
  Qed.

  (** Where the memory of a successful allocation came from. *)
  Definition alloc_src (s : qpool) (w : W) (B : list blk) (rounded : Z) (w' : W) (ptr : Z) (B' : list blk) : Prop :=
    (exists x, In x (cells B) /\ k_st x = SFree /\ ptr = k_data x /\ rounded <= k_size x /\
       (forall y, In y (cells B) -> k_st y = SFree -> rounded <= k_size y -> k_size x <= k_size y) /\
       w' = w /\ Permutation (map b_held B') (map b_held B)) \/
    ((forall y, In y (cells B) -> k_st y = SFree -> k_size y < rounded) /\
     exists p B1, ptr = align_up A p /\ grown s w B (new_size s rounded + A) w' p B1 /\
       Permutation (map b_held B') ((p, new_size s rounded + A) :: map b_held B1)).

  Lemma q_allocate_ok s w B n :
    QW s w B -> 0 < n -> n + 2 * A <= limP ->
    post (q_allocate P cfg n (s, w))
      (fun sw' p => exists B', QW (fst sw') (snd sw') B' /\
         Permutation (uregs B') ((p, n) :: uregs B) /\
         q_aligned (fst sw') = q_aligned s + aligned_round_up A n /\
         alloc_src s w B (aligned_round_up A n) (snd sw') p B' /\
         q_aligned_hwm (fst sw') = Z.max (q_aligned_hwm s) (q_aligned (fst sw')) /\
         q_actual_hwm (fst sw') = Z.max (q_actual_hwm s) (q_actual (fst sw')))
      (fun sw' _ => exists B', QW (fst sw') (snd sw') B' /\
         (forall y, In y (cells B) -> k_st y = SFree -> k_size y < aligned_round_up A n) /\
         failed s w B (new_size s (aligned_round_up A n) + A) sw' B' /\
         q_aligned (fst sw') = q_aligned s /\
         q_aligned_hwm (fst sw') = q_aligned_hwm s /\ q_actual_hwm (fst sw') = q_actual_hwm s).
  Proof.
    intros HQW Hn Hl. unfold q_allocate. fold A. cbn [fst snd].
    pose proof HA as HA0. pose proof (qc_lim _ _ CFG) as HL.
    pose proof (aligned_round_up_spec A n HA0 Hn ltac:(lia)) as Hru. cbv zeta in Hru.
    set (r := aligned_round_up A n) in *. destruct Hru as [Hr1 Hr2].
    assert (Hsm : forall y, In y (cells B) -> k_st y = SFree -> In (cell_entry y) (q_sizemap s)).
    { intros y Hy Hys. destruct HQW as (HQ & _). eapply Permutation_in; [apply Permutation_sym, (qi_sm _ _ _ _ HQ)|].
      apply in_map, filter_In. split; auto. unfold is_free. now rewrite Hys. }
    destruct (sm_lower_bound r (q_sizemap s)) as [e|] eqn:Elb.
    - destruct HQW as (HQ & Hst & HI).
      pose proof (sm_lower_bound_least _ _ _ (qi_sorted _ _ _ _ HQ) Elb) as Hleast.
      apply sm_lower_bound_some in Elb as [Hin Hge].
      destruct (sm_erase_in _ _ (qi_toks _ _ _ _ HQ) Hin) as (sm & Esm & Psm). rewrite Esm.
      destruct (sm_erase_sorted _ _ _ Esm (qi_sorted _ _ _ _ HQ)) as [Hsort _].
      pose proof Hin as Hin'. eapply Permutation_in in Hin'; [|apply (qi_sm _ _ _ _ HQ)].
      apply in_map_iff in Hin' as (x & Ee & Hx). apply filter_In in Hx as [Hx Hfx].
      assert (Hsx : k_st x = SFree) by (unfold is_free in Hfx; destruct (k_st x); auto; discriminate).
      destruct (cells_focus _ _ Hx) as (l1 & l2 & d & p & t & B1 & HP).
      pose proof (QI_perm _ _ _ _ _ HP HQ) as HQ1. rewrite <- Ee in Psm.
      pose proof (QI_take _ _ _ _ _ _ _ _ _ _ HQ1 Hsx Psm Hsort) as HQ2. cbv zeta in HQ2.
      set (x' := mkCell (k_id x) (k_data x) (k_size x) STaken (k_it x)) in *.
      assert (Hks : e_size e = k_size x) by (subst e; reflexivity).
      assert (Hkc : e_chunk e = k_id x) by (subst e; reflexivity).
      destruct (q_use_chunk_ok A _ l1 x' l2 d p t B1 n w r HA0 HQ2 eq_refl Hn eq_refl ltac:(lia) Hr2) as
        (s' & lx & Eu & HQ3 & HU & Ea & Et & Eal & Hlx & Ehw & Eahw).
      { cbn [x' k_size]. lia. }
      rewrite Hkc. change (k_id x) with (k_id x'). rewrite Eu. cbn [post fst snd].
      exists (mkBlk (l1 ++ lx ++ l2) d p t :: B1). split; [|split; [|split; [exact Eal|split; [|split]]]].
      + split; [exact HQ3|]. split.
        * intros y Hy. eapply Permutation_in in Hy; [|apply focus_perm].
          apply in_app_or in Hy as [Hy|Hy]; [auto|]. apply Hst.
          eapply Permutation_in; [apply Permutation_sym, (cells_perm _ _ HP)|].
          eapply Permutation_in; [apply Permutation_sym, (focus_perm l1 [x] l2 d p t B1)|]. simpl; auto.
        * eapply (ps_perm _ _ _ PS); [|exact HI]. rewrite (Permutation_map b_held HP). reflexivity.
      + rewrite HU. constructor. rewrite (uregs_perm _ _ HP).
        unfold uregs. rewrite (Permutation_map cell_alloc (Permutation_filter is_used _ _ (focus_perm l1 [x'] l2 d p t B1))).
        rewrite (Permutation_map cell_alloc (Permutation_filter is_used _ _ (focus_perm l1 [x] l2 d p t B1))).
        cbn [filter app]. change (is_used x') with false.
        replace (is_used x) with false by (unfold is_used; now rewrite Hsx). reflexivity.
      + left. exists x. split; [exact Hx|]. split; [exact Hsx|]. split; [reflexivity|]. split; [lia|].
        split; [|split; [reflexivity|]].
        * intros y Hy Hys Hyr. specialize (Hleast _ (Hsm y Hy Hys) Hyr). rewrite Hks in Hleast. exact Hleast.
        * rewrite (Permutation_map b_held HP). reflexivity.
      + exact Ehw.
      + rewrite Eahw, Ea. pose proof (qi_ahwm _ _ _ _ HQ). cbn [set_sizemap q_actual q_actual_hwm]. lia.
    - assert (Hno : forall y, In y (cells B) -> k_st y = SFree -> k_size y < r).
      { intros y Hy Hys. apply (sm_lower_bound_none _ _ Elb _ (Hsm y Hy Hys)). }
      apply post_bind. eapply post_impl; [| |apply (q_new_block_ok s w B r HQW); lia].
      + intros [s1 w1] c (x & d & p & t & B' & Hid & Hst & Hsz & HQ & Hstab & HI & Hxd & Ht & HB & Hks & Ept & Eal & Eh1 & Eh2). cbn [fst snd] in *.
        destruct (q_use_chunk_ok A s1 [] x [] d p t B' n w1 r HA0 HQ Hst Hn eq_refl ltac:(lia) Hr2 Hsz) as
          (s' & lx & Eu & HQ3 & HU & Ea & Et & Eal2 & Hlx & Ehw & Eahw).
        rewrite <- Hid, Eu. cbn [post fst snd].
        exists (mkBlk ([] ++ lx ++ []) d p t :: B'). split; [|split; [|split; [|split; [|split]]]].
        * split; [exact HQ3|]. split; [|exact HI].
          intros y Hy. eapply Permutation_in in Hy; [|apply focus_perm].
          apply in_app_or in Hy as [Hy|Hy]; auto.
        * rewrite HU. constructor. change (mkBlk ([] ++ [x]) d p t :: B') with ([mkBlk [x] d p t] ++ B').
          rewrite uregs_app. rewrite (uregs_rel_nil [mkBlk [x] d p t]).
          -- cbn [app]. destruct HB as [[_ ->]|(w9 & e9 & s9 & w8 & _ & _ & _ & HB & _)]; [reflexivity|apply uregs_release, HB].
          -- intros b [<-|[]]. unfold b_rel. qs. unfold is_rel. now rewrite Hst.
        * rewrite Eal2, Eal. reflexivity.
        * right. split; [exact Hno|]. exists p, B'. split; [exact Hxd|]. split; [exact HB|].
          rewrite <- Ht. reflexivity.
        * rewrite Ehw, Eh1. reflexivity.
        * rewrite Eahw, Ea. exact Eh2.
      + intros [s1 w1] e (B' & HQW' & Hf & E1 & E2 & E3). exists B'. auto 10.
  Qed.

  Lemma q_view_bounds s B extra : QI A s B extra ->
    0 <= cf_heur cfg (q_view s) < ASP.
  Proof.
    intros HQ. apply (qc_heur _ _ CFG); cbn [q_view v_actual v_aligned_hwm].
    - apply (qi_actual_b _ _ _ _ HA HQ).
    - pose proof (qi_aligned_b _ _ _ _ HQ). pose proof (qi_hwm _ _ _ _ HQ). lia.
  Qed.

  (** [deallocate] of a live allocation, including any coalescing it triggers. *)
  Lemma q_deallocate_ok fuel : forall s w B p n,
    QW s w B -> In (p, n) (uregs B) ->
    post (q_deallocate P cfg fuel p (s, w))
      (fun sw' _ => exists B', QW (fst sw') (snd sw') B' /\
         Permutation ((p, n) :: uregs B') (uregs B) /\
         q_aligned_hwm s <= q_aligned_hwm (fst sw') /\ q_actual_hwm s <= q_actual_hwm (fst sw'))
      (fun _ _ => False).
  Proof.
    induction fuel as [|fuel IH]; intros s w B p n (HQ & Hst & HI) Hin;
      destruct (q_free_core_ok A s B p n HA HQ Hst Hin) as
        (s1 & B1 & E1 & HQ1 & Hst1 & HU1 & HL1 & _ & _ & _ & _ & Eh1 & Eh2).
    - cbn [q_deallocate fst snd]. rewrite E1. destruct (cf_heur cfg (q_view s1) =? 0); cbn [post]; auto.
      cbn [fst snd]. exists B1. split; [|split; [exact HU1|lia]]. split; [exact HQ1|]. split; [exact Hst1|].
      eapply (ps_perm _ _ _ PS); [apply Permutation_sym, HL1|exact HI].
    - assert (HQW1 : QW s1 w B1).
      { split; [exact HQ1|]. split; [exact Hst1|].
        eapply (ps_perm _ _ _ PS); [apply Permutation_sym, HL1|exact HI]. }
      cbn [q_deallocate fst snd]. rewrite E1.
      pose proof (q_view_bounds _ _ _ HQ1) as Hv. set (sug := cf_heur cfg (q_view s1)) in *.
      destruct (sug =? 0).
      { cbn [post fst snd]. exists B1. split; [exact HQW1|]. split; [exact HU1|lia]. }
      destruct (1 <? Z.of_nat (length (q_sizemap s1))); [|cbn [noexcept post fst snd]; exists B1; split; [exact HQW1|]; split; [exact HU1|lia]].
      pose proof (q_release_ok s1 w B1 HQW1) as Hrel.
      destruct (q_release P (s1, w)) as [[s2 w2] []|[s2 w2] e| | |]; cbn [bind noexcept post fst snd] in *; auto; try contradiction.
      destruct Hrel as (B2 & HP2 & HQW2 & _ & _ & _ & Er1 & Er2).
      pose proof (uregs_release _ _ HP2) as HU2.
      destruct (Z.ltb_spec (q_actual s2) sug) as [Hlt|Hge]; cbn [noexcept post fst snd].
      2:{ exists B2. split; [exact HQW2|]. split; [rewrite HU2; exact HU1|lia]. }
      pose proof (qi_actual_b _ _ _ _ HA (proj1 HQW2)) as Bact.
      pose proof (qc_asp _ _ CFG) as HASP. fold A in HASP.
      pose proof (q_allocate_ok s2 w2 B2 (sug - q_actual s2) HQW2 ltac:(lia) ltac:(lia)) as Hal.
      destruct (q_allocate P cfg (sug - q_actual s2) (s2, w2)) as [[s3 w3] p3|[s3 w3] e| | |];
        cbn [bind noexcept post fst snd] in *; auto.
      destruct Hal as (B3 & HQW3 & HU3 & _ & _ & Ea1 & Ea2).
      assert (Hin3 : In (p3, sug - q_actual s2) (uregs B3)).
      { eapply Permutation_in; [apply Permutation_sym, HU3|]. simpl; auto. }
      specialize (IH s3 w3 B3 p3 _ HQW3 Hin3).
      destruct (q_deallocate P cfg fuel p3 (s3, w3)) as [[s4 w4] []|[s4 w4] e| | |];
        cbn [bind noexcept post fst snd] in *; auto.
      destruct IH as (B4 & HQW4 & HU4 & Eh3 & Eh4). exists B4. split; [exact HQW4|]. split; [|lia].
      rewrite HU3 in HU4. apply Permutation_cons_inv in HU4. rewrite HU4, HU2. exact HU1.
  Qed.

  Lemma q_coalesce_ok fuel s w B :
    QW s w B ->
    post (q_coalesce P cfg fuel (s, w))
      (fun sw' _ => exists B', QW (fst sw') (snd sw') B' /\ Permutation (uregs B') (uregs B) /\
         q_aligned_hwm s <= q_aligned_hwm (fst sw') /\ q_actual_hwm s <= q_actual_hwm (fst sw'))
      (fun _ _ => False).
  Proof.
    intros HQW. unfold q_coalesce, q_do_coalesce. cbn [fst].
    pose proof (q_view_bounds _ _ _ (proj1 HQW)) as Hv. set (sug := cf_heur cfg (q_view s)) in *.
    destruct (sug =? 0); [cbn [post fst snd]; exists B; split; [exact HQW|]; split; [reflexivity|lia]|].
    destruct (1 <? Z.of_nat (length (q_sizemap s))); [|cbn [noexcept post fst snd]; exists B; split; [exact HQW|]; split; [reflexivity|lia]].
    pose proof (q_release_ok s w B HQW) as Hrel.
    destruct (q_release P (s, w)) as [[s2 w2] []|[s2 w2] e| | |]; cbn [bind noexcept post fst snd] in *; auto; try contradiction.
    destruct Hrel as (B2 & HP2 & HQW2 & _ & _ & _ & Er1 & Er2).
    pose proof (uregs_release _ _ HP2) as HU2.
    destruct (Z.ltb_spec (q_actual s2) sug) as [Hlt|Hge]; cbn [noexcept post fst snd]; [|exists B2; split; [exact HQW2|]; split; [exact HU2|lia]].
    pose proof (qi_actual_b _ _ _ _ HA (proj1 HQW2)) as Bact.
    pose proof (qc_asp _ _ CFG) as HASP. fold A in HASP.
    pose proof (q_allocate_ok s2 w2 B2 (sug - q_actual s2) HQW2 ltac:(lia) ltac:(lia)) as Hal.
    destruct (q_allocate P cfg (sug - q_actual s2) (s2, w2)) as [[s3 w3] p3|[s3 w3] e| | |];
      cbn [bind noexcept post fst snd] in *; auto.
    destruct Hal as (B3 & HQW3 & HU3 & _ & _ & Ea1 & Ea2).
    assert (Hin3 : In (p3, sug - q_actual s2) (uregs B3)).
    { eapply Permutation_in; [apply Permutation_sym, HU3|]. simpl; auto. }
    pose proof (q_deallocate_ok fuel s3 w3 B3 p3 _ HQW3 Hin3) as Hde.
    destruct (q_deallocate P cfg fuel p3 (s3, w3)) as [[s4 w4] []|[s4 w4] e| | |];
      cbn [bind noexcept post fst snd] in *; auto.
    destruct Hde as (B4 & HQW4 & HU4 & Eh3 & Eh4). exists B4. split; [exact HQW4|]. split; [|lia].
    rewrite HU3 in HU4. apply Permutation_cons_inv in HU4. rewrite HU4. exact HU2.
  Qed.

  (** The pool as a parent of other strategies. *)
  Definition q_parent (fuel : nat) : Parent (qw (W := W)) :=
    mkParent (q_allocate P cfg) (fun p _ => q_deallocate P cfg fuel p).

  Definition q_inv (sw : qw (W := W)) (U : list region) : Prop :=
    exists B, QW (fst sw) (snd sw) B /\ Permutation U (uregs B).

  Theorem q_parent_spec fuel : ParentSpec (q_parent fuel) (limP - 2 * A) q_inv.
  Proof.
    constructor.
    - intros sw U U' HP (B & HQW & HU). exists B. split; auto. now rewrite <- HP.
    - intros [s w] U (B & (HQ & _) & HU). eapply good_perm; [apply Permutation_sym, HU|].
      eapply uregs_good; eauto.
    - intros [s w] U n (B & HQW & HU) Hn. cbn [q_parent p_alloc fst snd] in *.
      eapply post_impl; [| |apply (q_allocate_ok s w B n HQW); lia].
      + intros sw' p (B' & HQW' & HU' & _). exists B'. split; auto. now rewrite HU', HU.
      + intros sw' _ (B' & HQW' & _ & (w1 & e & w2 & e2 & _ & _ & _ & HP & _) & _). exists B'. split; auto.
        rewrite (uregs_release _ _ HP). exact HU.
    - intros [s w] U p n (B & HQW & HU). cbn [q_parent p_dealloc fst snd] in *.
      assert (Hin : In (p, n) (uregs B)) by (eapply Permutation_in; [exact HU|simpl; auto]).
      eapply post_impl; [| |apply (q_deallocate_ok fuel s w B p n HQW Hin)]; auto.
      intros sw' _ (B' & HQW' & HU' & _). exists B'. split; auto.
      rewrite <- HU in HU'. now apply Permutation_cons_inv, Permutation_sym in HU'.
  Qed.
End Main.
