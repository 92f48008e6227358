(** QuickPool [deallocate]: merging and returning a fragment to the size map. *)
From Verif Require Import Base BaseFacts AlignedModel AlignedFacts QuickPoolModel QuickPoolInv QuickPoolFacts QuickPoolOps.

(** Replace the fragments [lx] of the focus block by [ly]. *)
Lemma QI_replace A s s' l1 lx l2 d p t B extra extra' ly :
  QI A s (mkBlk (l1 ++ lx ++ l2) d p t :: B) extra ->
  ly <> [] ->
  csum ly = csum lx ->
  seg (q_chunks s') (csum (l1 ++ lx ++ l2)) 0 (l1 ++ ly ++ l2) 0 ->
  (forall y, In y (cells B) -> q_chunks s' (k_id y) = q_chunks s (k_id y)) ->
  q_fresh s <= q_fresh s' ->
  (forall y, In y ly -> 0 < k_id y < q_fresh s') ->
  NoDup (map k_id (ly ++ rest l1 l2 B)) ->
  contig (d + csum l1) ly ->
  (forall y, In y ly -> cell_ok A y) ->
  merged (l1 ++ ly ++ l2) ->
  Permutation (q_sizemap s') (map cell_entry (filter is_free ly) ++ map cell_entry (filter is_free (rest l1 l2 B))) ->
  sorted_sm (q_sizemap s') ->
  NoDup (map e_tok (q_sizemap s')) ->
  (forall e, In e (q_sizemap s') -> e_tok e < q_fresh s') ->
  Permutation (q_ptrmap s') (extra' ++ map cell_pm (filter is_used ly) ++ map cell_pm (filter is_used (rest l1 l2 B))) ->
  q_base s' = q_base s ->
  q_actual s' = q_actual s -> q_actual_hwm s' = q_actual_hwm s ->
  q_total_blocks s' = q_total_blocks s ->
  q_rel_blocks s' = Z.of_nat (length (rel_blocks (mkBlk (l1 ++ ly ++ l2) d p t :: B))) ->
  q_rel_bytes s' = sumZ (map b_size (rel_blocks (mkBlk (l1 ++ ly ++ l2) d p t :: B))) ->
  q_aligned s' = sumZ (map k_size (filter is_used ly)) + sumZ (map k_size (filter is_used (rest l1 l2 B))) ->
  q_aligned s' <= q_aligned_hwm s' < ASP ->
  QI A s' (mkBlk (l1 ++ ly ++ l2) d p t :: B) extra'.
Proof.
  intros HQ Hne Hcs Hseg Hfr Hfresh Hids Hnd Hcon Hok Hmer Hsm Hsorted Htoks Htokb Hpm Hbase Hact Hahwm Htot Hrb Hr Hal Hhwm.
  destruct HQ.
  pose proof (focus_perm l1 lx l2 d p t B) as HF.
  pose proof (focus_perm l1 ly l2 d p t B) as HF'.
  assert (Hsz : csum (l1 ++ ly ++ l2) = csum (l1 ++ lx ++ l2)) by (rewrite !csum_app; lia).
  assert (HR : forall y, In y (rest l1 l2 B) -> 0 < k_id y < q_fresh s').
  { intros y Hy. assert (0 < k_id y < q_fresh s); [|lia]. apply qi_ids.
    eapply Permutation_in; [apply Permutation_sym, HF|]. apply in_or_app; auto. }
  pose proof (qi_blk _ (or_introl eq_refl)) as Hb.
  constructor; auto.
  - intros b [<-|Hbb].
    + unfold b_size. qs. rewrite Hsz. exact Hseg.
    + eapply seg_frame; [|apply qi_seg; simpl; auto]. intros y Hy. apply Hfr, in_cells; eauto.
  - eapply Permutation_NoDup; [apply Permutation_sym, (Permutation_map k_id HF')|]. exact Hnd.
  - intros y Hy. eapply Permutation_in in Hy; [|exact HF']. apply in_app_or in Hy as [Hy|Hy]; auto.
  - intros b [<-|Hbb]; [|apply qi_blk; simpl; auto]. destruct Hb; qs. constructor; qs; auto.
    + intros E. apply app_eq_nil in E as [_ E]. apply app_eq_nil in E as [E _]. auto.
    + apply contig_app in bo_contig as [Hc1 Hc2]. apply contig_app in Hc2 as [Hc2 Hc3].
      apply contig_app. split; auto. apply contig_app. split; auto. rewrite Hcs. auto.
    + intros y Hy. apply in_app_or in Hy as [Hy|Hy]; [apply bo_cells, in_or_app; auto|].
      apply in_app_or in Hy as [Hy|Hy]; auto. apply bo_cells, in_or_app; right; apply in_or_app; auto.
    + unfold b_size in *; qs. rewrite Hsz. auto.
    + unfold b_size in *; qs. rewrite Hsz. auto.
  - rewrite Hsm, (Permutation_map cell_entry (Permutation_filter is_free _ _ HF')).
    now rewrite filter_app_map.
  - rewrite Hpm, (Permutation_map cell_pm (Permutation_filter is_used _ _ HF')).
    now rewrite filter_app_map.
  - intros b Hbb. rewrite Hbase. destruct Hbb as [<-|Hbb]; [|apply qi_base; simpl; auto].
    apply (qi_base _ (or_introl eq_refl)).
  - rewrite Hact, qi_actual. cbn [map sumZ]. unfold b_size at 1 3. qs. now rewrite Hsz.
  - rewrite Htot, qi_total. reflexivity.
  - rewrite Hal, (sumZ_perm _ _ (Permutation_map k_size (Permutation_filter is_used _ _ HF'))).
    now rewrite filter_app_map, sumZ_app.
  - lia.
  - rewrite Hact, Hahwm. auto.
Qed.

Lemma rel_blocks_mid l1 x l2 d p t B :
  rel_blocks (mkBlk (l1 ++ x :: l2) d p t :: B) =
  if is_rel x && match l1, l2 with [], [] => true | _, _ => false end
  then mkBlk (l1 ++ x :: l2) d p t :: rel_blocks B else rel_blocks B.
Proof.
  unfold rel_blocks. cbn [filter]. rewrite b_rel_mid.
  destruct l1, l2; rewrite ?andb_true_r, ?andb_false_r; reflexivity.
Qed.

Lemma rest_in l1 l2 B y :
  In y (rest l1 l2 B) <-> In y l1 \/ In y l2 \/ In y (cells B).
Proof. unfold rest. rewrite !in_app_iff. tauto. Qed.

Lemma stable_st_free x : stable x -> st_free (k_st x) = is_free x.
Proof. intros [E|[r E]]; unfold is_free; rewrite E; reflexivity. Qed.

Lemma last_split {T} (l : list T) : l = [] \/ exists l' y, l = l' ++ [y].
Proof.
  destruct (rev l) as [|y l'] eqn:E.
  - left. apply (f_equal (@rev T)) in E. now rewrite rev_involutive in E.
  - right. apply (f_equal (@rev T)) in E. rewrite rev_involutive in E. simpl in E. eauto.
Qed.

Lemma hd_id_cases l : (l = [] /\ hd_id l 0 = 0) \/ exists y t, l = y :: t /\ hd_id l 0 = k_id y.
Proof. destruct l as [|y t]; [auto|right; eauto]. Qed.

Lemma sorted_tok_sub (l l' : list sm_entry) e : Permutation l (e :: l') -> NoDup (map e_tok l) -> NoDup (map e_tok l').
Proof.
  intros HP HN. eapply Permutation_NoDup in HN; [|apply (Permutation_map e_tok HP)]. simpl in HN. now inv HN.
Qed.

Definition same_but (s s' : qpool) : Prop :=
  q_ptrmap s' = q_ptrmap s /\ q_base s' = q_base s /\ q_actual s' = q_actual s /\
  q_total_blocks s' = q_total_blocks s /\ q_rel_blocks s' = q_rel_blocks s /\
  q_rel_bytes s' = q_rel_bytes s /\ q_aligned s' = q_aligned s /\
  q_aligned_hwm s' = q_aligned_hwm s /\ q_actual_hwm s' = q_actual_hwm s /\ q_fresh s' = q_fresh s.

Lemma q_merge_prev_ok A s l1 x l2 d p t B extra :
  0 < A ->
  QI A s (mkBlk (l1 ++ x :: l2) d p t :: B) extra ->
  k_st x = SFreed ->
  (forall y, In y (rest l1 l2 B) -> stable y) ->
  exists s' l1' x',
    q_merge_prev (k_id x) s = Some (s', k_id x') /\
    QI A s' (mkBlk (l1' ++ x' :: l2) d p t :: B) extra /\
    k_st x' = SFreed /\ last_rel l1' false = false /\
    (forall y, In y (rest l1' l2 B) -> In y (rest l1 l2 B)) /\
    Permutation (filter is_used (cells (mkBlk (l1' ++ x' :: l2) d p t :: B)))
                (filter is_used (cells (mkBlk (l1 ++ x :: l2) d p t :: B))) /\
    same_but s s'.
Proof.
  intros HA HQ Hst Hstab. pose proof HQ as HQ0. destruct HQ.
  pose proof (qi_seg _ (or_introl eq_refl)) as Hseg. qs.
  pose proof (seg_lookup _ _ _ _ _ _ _ Hseg) as Hx.
  unfold q_merge_prev. rewrite Hx. qs.
  assert (Hnx : is_used x = false /\ is_free x = false /\ is_rel x = false).
  { unfold is_used, is_free, is_rel. now rewrite Hst. }
  destruct Hnx as (Hnu & Hnf & Hnr).
  destruct (last_split l1) as [->|(l1' & y & ->)].
  - cbn [last_id]. rewrite Z.eqb_refl. exists s, [], x. unfold same_but. split; [reflexivity|]. split; [exact HQ0|]. repeat split; auto using Permutation_refl.
  - rewrite last_id_app. cbn [last_id].
    assert (Hy : In y (rest (l1' ++ [y]) l2 B)).
    { apply rest_in. left. apply in_or_app; simpl; auto. }
    pose proof (focus_perm l1' [y; x] l2 d p t B) as HF.
    assert (El : l1' ++ [y; x] ++ l2 = (l1' ++ [y]) ++ x :: l2) by (rewrite <- app_assoc; reflexivity).
    assert (Hyc : In y (cells (mkBlk ((l1' ++ [y]) ++ x :: l2) d p t :: B))).
    { rewrite cells_cons. qs. apply in_or_app. left. apply in_or_app. left. apply in_or_app. simpl; auto. }
    pose proof (qi_ids y Hyc) as Hyb.
    destruct (Z.eqb_spec (k_id y) 0) as [E|_]; [lia|].
    pose proof Hseg as Hseg'. rewrite <- app_assoc in Hseg'. cbn [app] in Hseg'.
    pose proof (seg_lookup _ _ _ _ _ _ _ Hseg') as Hly. rewrite Hly. qs.
    rewrite (stable_st_free y (Hstab y Hy)).
    destruct (is_free y) eqn:Efy.
    2:{ exists s, (l1' ++ [y]), x. unfold same_but. split; [reflexivity|]. split; [exact HQ0|]. repeat split; auto using Permutation_refl.
        rewrite last_rel_app. cbn [last_rel].
        destruct (Hstab y Hy) as [E|[r E]]; unfold is_free, is_rel in *; rewrite E in *; [discriminate|reflexivity]. }
    rewrite <- El in *. cbn [app] in HF.
    assert (Hin : In (cell_entry y) (q_sizemap s)).
    { eapply Permutation_in; [apply Permutation_sym, qi_sm|]. apply in_map, filter_In. split; auto. }
    destruct (sm_erase_in _ _ qi_toks Hin) as (sm & Esm & Psm).
    unfold e_tok in Esm; cbn [cell_entry snd] in Esm. rewrite Esm.
    destruct (sm_erase_sorted _ _ _ Esm qi_sorted) as [Hsort Hincl].
    pose proof (qi_blk _ (or_introl eq_refl)) as Hb. destruct Hb; qs.
    pose proof (qi_actual_b _ _ _ _ HA HQ0) as Bact. pose proof ASP_M64 as HAM.
    assert (Hcon := bo_contig). apply contig_app in Hcon as [Hc1 Hc2]. cbn [contig app] in Hc2.
    destruct Hc2 as (Hd1 & Hp1 & Hd2 & Hp2 & Hc3).
    pose proof (csum_nonneg _ _ Hc1) as Hn1. pose proof (csum_nonneg _ _ Hc3) as Hn3.
    assert (Hsb : k_size y + k_size x <= q_actual s).
    { rewrite qi_actual. cbn [map sumZ]. unfold b_size at 1. qs. rewrite !csum_app. cbn [csum map sumZ].
      assert (0 <= sumZ (map b_size B)).
      { apply sumZ_nonneg. intros z Hz. apply in_map_iff in Hz as (b' & <- & Hb').
        pose proof (b_size_pos _ _ (qi_blk b' (or_intror Hb'))). lia. }
      fold (csum l1') (csum l2). lia. }
    rewrite (w64_small (k_size y + k_size x)) by lia.
    set (y' := mkCell (k_id y) (k_data y) (k_size y + k_size x) SFreed (k_it y)).
    change ([y; x] ++ l2) with (y :: x :: l2) in *.
    set (cs := b_size (mkBlk (l1' ++ y :: x :: l2) d p t)) in *.
    assert (HR1 : NoDup (k_id y :: k_id x :: map k_id (rest l1' l2 B))).
    { eapply Permutation_NoDup; [|exact qi_nodup]. apply (Permutation_map k_id HF). }
    pose proof HR1 as HR1'. apply NoDup_cons_iff in HR1' as [N1 N2]. apply NoDup_cons_iff in N2 as [N2 N3].
    assert (Hneyx : k_id y <> k_id x). { simpl in N1. intros E. apply N1. auto. }
    assert (HneR : forall z, In z (rest l1' l2 B) -> k_id z <> k_id y /\ k_id z <> k_id x).
    { intros z Hz. split; intros E.
      - apply N1. simpl. right. rewrite <- E. now apply in_map.
      - apply N2. rewrite <- E. now apply in_map. }
    assert (HRb : forall z, In z (rest l1' l2 B) -> 0 < k_id z < q_fresh s).
    { intros z Hz. apply qi_ids. eapply Permutation_in; [apply Permutation_sym, HF|]. simpl; auto. }
    set (yc := mkChunk (k_data y) (k_size y + k_size x) cs true (last_id l1' 0) (hd_id l2 0) (k_it y)).
    cbn [app] in Hseg. apply seg_app in Hseg as [Hs1 Hs2]. cbn [seg hd_id app] in Hs1, Hs2.
    destruct Hs2 as (_ & _ & Hs2).
    replace (st_free (k_st y)) with true by (rewrite (stable_st_free y (Hstab y Hy)); auto).
    assert (HL : exists m2,
       (if hd_id l2 0 =? 0 then Some (fset (q_chunks s) (k_id y) yc)
        else match fset (q_chunks s) (k_id y) yc (hd_id l2 0) with
             | None => None
             | Some n => Some (fset (fset (q_chunks s) (k_id y) yc) (hd_id l2 0)
                 (mkChunk (c_data n) (c_size n) (c_csize n) (c_free n) (k_id y) (c_next n) (c_it n)))
             end) = Some m2 /\
       seg (fdel m2 (k_id x)) cs (k_id y) l2 0 /\ m2 (k_id y) = Some yc /\
       (forall z, In z l1' \/ In z (cells B) -> m2 (k_id z) = q_chunks s (k_id z))).
    { destruct l2 as [|z l2].
      - cbn [hd_id]. rewrite Z.eqb_refl. eexists. split; [reflexivity|]. split; [exact I|]. split; [apply fset_eq|].
        intros z Hz. apply fset_ne. apply HneR, rest_in. tauto.
      - cbn [hd_id]. assert (HzR : In z (rest l1' (z :: l2) B)) by (apply rest_in; simpl; auto).
        pose proof (HRb z HzR). pose proof (HneR z HzR) as [Hz1 Hz2].
        destruct (Z.eqb_spec (k_id z) 0); [lia|]. cbn [seg] in Hs2. destruct Hs2 as [Hz Hs2].
        rewrite fset_ne by auto. rewrite Hz. eexists. split; [reflexivity|]. qs.
        assert (HnR : NoDup (map k_id (l1' ++ (z :: l2) ++ cells B))) by exact N3.
        assert (Hzne : forall u, In u (l1' ++ l2 ++ cells B) -> k_id u <> k_id z).
        { intros u Hu E. rewrite map_app in HnR. cbn [map app] in HnR. apply NoDup_remove_2 in HnR.
          apply HnR. rewrite <- E, <- map_app. now apply in_map. }
        split; [|split].
        + cbn [seg]. split; [rewrite fdel_ne by auto; apply fset_eq|].
          eapply seg_frame; [|exact Hs2]. intros u Hu.
          assert (HuR : In u (rest l1' (z :: l2) B)) by (apply rest_in; simpl; auto).
          pose proof (HneR u HuR) as [Hu1 Hu2].
          rewrite fdel_ne by auto. rewrite !fset_ne; auto. apply Hzne.
          apply in_or_app; right; apply in_or_app; auto.
        + rewrite fset_ne by auto. apply fset_eq.
        + intros u Hu. rewrite !fset_ne; auto.
          * apply HneR, rest_in. tauto.
          * apply Hzne. rewrite !in_app_iff. tauto. }
    destruct HL as (m2 & Em2 & Hsl2 & Hm2y & Hm2k). rewrite Em2.
    assert (Hst3 : forall z, In z l1' \/ In z (cells B) -> fdel m2 (k_id x) (k_id z) = q_chunks s (k_id z)).
    { intros z Hz. rewrite fdel_ne; auto. apply HneR, rest_in. tauto. }
    assert (Hmm : merged (l1' ++ y' :: l2) /\ last_rel l1' false = false).
    { apply merged_app in bo_merged as (M1 & M2 & M3). cbn [app merged hd_rel] in M2, M3.
      assert (is_rel y = true) by (unfold is_rel, is_free in *; destruct (k_st y); auto; discriminate).
      rewrite H, andb_true_r in M3. split; auto. apply merged_app. split; auto.
      split; [|now rewrite M3]. cbn [merged]. split; [reflexivity|tauto]. }
    destruct Hmm as [Hmer Hlast].
    assert (Hfp : Permutation (q_sizemap s) (cell_entry y :: map cell_entry (filter is_free (rest l1' l2 B)))).
    { rewrite qi_sm, (Permutation_map cell_entry (Permutation_filter is_free _ _ HF)).
      cbn [filter]. rewrite Efy, Hnf. reflexivity. }
    assert (Huy : is_used y = false) by (unfold is_used, is_free in *; destruct (k_st y); auto; discriminate).
    exists (set_sizemap (set_chunks s (fdel m2 (k_id x))) sm), l1', y'.
    split; [reflexivity|]. split; [|split; [|split; [|split; [|split]]]].
    + change (y' :: l2) with ([y'] ++ l2).
      eapply (QI_replace A s _ l1' [y; x] l2 d p t B extra extra [y']); qs; auto.
      * discriminate.
      * unfold csum; cbn [map sumZ]. cbn [y' k_size]. lia.
      * cbn [app]. apply seg_app. split; [|cbn [seg]; split].
        -- eapply seg_frame; [|exact Hs1]. auto.
        -- cbn [y' k_id]. rewrite fdel_ne by auto. rewrite Hm2y. reflexivity.
        -- exact Hsl2.
      * lia.
      * intros z [<-|[]]. exact Hyb.
      * cbn [app map y' k_id]. constructor; [|exact N3]. intros Hi. apply N1. simpl; auto.
      * cbn [contig y' k_data k_size]. repeat split; auto; lia.
      * intros z [<-|[]]. destruct (bo_cells y ltac:(apply in_or_app; simpl; auto)) as (C1 & C2 & C3).
        unfold cell_ok, y'; qs. repeat split; auto. lia.
      * cbn [filter map app]. change (is_free y') with false. cbn [map app].
        eapply Permutation_cons_inv with (a := cell_entry y). rewrite <- Psm. exact Hfp.
      * eapply sorted_tok_sub; eauto.
      * change (is_used y') with false in *. cbn [filter map app]. change (is_used y') with false. cbn [map app].
        rewrite qi_pm, (Permutation_map cell_pm (Permutation_filter is_used _ _ HF)).
        cbn [filter]. rewrite Huy, Hnu. reflexivity.
      * rewrite qi_relb. do 2 f_equal. cbn [app]. rewrite !rel_blocks_mid.
        change (is_rel y') with false.
        destruct l1'; rewrite ?andb_false_r; reflexivity.
      * rewrite qi_rel. do 2 f_equal. cbn [app]. rewrite !rel_blocks_mid.
        change (is_rel y') with false.
        destruct l1'; rewrite ?andb_false_r; reflexivity.
      * rewrite qi_aligned, (sumZ_perm _ _ (Permutation_map k_size (Permutation_filter is_used _ _ HF))).
        cbn [filter]. rewrite Huy, Hnu. change (is_used y') with false. reflexivity.
    + reflexivity.
    + exact Hlast.
    + intros z Hz. apply rest_in in Hz. apply rest_in. rewrite in_app_iff. tauto.
    + pose proof (focus_perm l1' [y'] l2 d p t B) as HF'. cbn [app] in HF' |- *.
      rewrite (Permutation_filter is_used _ _ HF'), (Permutation_filter is_used _ _ HF).
      cbn [filter]. rewrite Huy, Hnu. change (is_used y') with false. reflexivity.
    + unfold same_but. qs. repeat split; auto.
Qed.

Lemma q_merge_next_ok A s l1 x l2 d p t B extra :
  0 < A ->
  QI A s (mkBlk (l1 ++ x :: l2) d p t :: B) extra ->
  k_st x = SFreed ->
  (forall y, In y (rest l1 l2 B) -> stable y) ->
  exists s' x' l2',
    q_merge_next (k_id x) s = Some s' /\
    QI A s' (mkBlk (l1 ++ x' :: l2') d p t :: B) extra /\
    k_id x' = k_id x /\ k_st x' = SFreed /\ hd_rel l2' = false /\
    (forall y, In y (rest l1 l2' B) -> In y (rest l1 l2 B)) /\
    Permutation (filter is_used (cells (mkBlk (l1 ++ x' :: l2') d p t :: B)))
                (filter is_used (cells (mkBlk (l1 ++ x :: l2) d p t :: B))) /\
    same_but s s'.
Proof.
  intros HA HQ Hst Hstab. pose proof HQ as HQ0. destruct HQ.
  pose proof (qi_seg _ (or_introl eq_refl)) as Hseg. qs.
  pose proof (seg_lookup _ _ _ _ _ _ _ Hseg) as Hx.
  unfold q_merge_next. rewrite Hx. qs.
  assert (Hnx : is_used x = false /\ is_free x = false /\ is_rel x = false).
  { unfold is_used, is_free, is_rel. now rewrite Hst. }
  destruct Hnx as (Hnu & Hnf & Hnr).
  destruct l2 as [|y l2].
  - cbn [hd_id]. rewrite Z.eqb_refl. exists s, x, []. unfold same_but. split; [reflexivity|]. split; [exact HQ0|]. repeat split; auto using Permutation_refl.
  - cbn [hd_id].
    assert (Hy : In y (rest l1 (y :: l2) B)) by (apply rest_in; simpl; auto).
    pose proof (focus_perm l1 [x; y] l2 d p t B) as HF. cbn [app] in HF.
    assert (Hyc : In y (cells (mkBlk (l1 ++ x :: y :: l2) d p t :: B))).
    { eapply Permutation_in; [apply Permutation_sym, HF|]. simpl; auto. }
    assert (Hxc : In x (cells (mkBlk (l1 ++ x :: y :: l2) d p t :: B))).
    { eapply Permutation_in; [apply Permutation_sym, HF|]. simpl; auto. }
    pose proof (qi_ids y Hyc) as Hyb. pose proof (qi_ids x Hxc) as Hxb.
    destruct (Z.eqb_spec (k_id y) 0) as [E|_]; [lia|].
    assert (Hly : q_chunks s (k_id y) = Some (cell_chunk y (b_size (mkBlk (l1 ++ x :: y :: l2) d p t)) (k_id x) (hd_id l2 0))).
    { pose proof Hseg as Hseg'. apply seg_app in Hseg' as [_ Hs2]. cbn [seg hd_id] in Hs2. tauto. }
    rewrite Hly. qs.
    rewrite (stable_st_free y (Hstab y Hy)).
    destruct (is_free y) eqn:Efy.
    2:{ exists s, x, (y :: l2). unfold same_but. split; [reflexivity|]. split; [exact HQ0|]. repeat split; auto using Permutation_refl.
        cbn [hd_rel]. destruct (Hstab y Hy) as [E|[r E]]; unfold is_free, is_rel in *; rewrite E in *; [discriminate|reflexivity]. }
    assert (Hin : In (cell_entry y) (q_sizemap s)).
    { eapply Permutation_in; [apply Permutation_sym, qi_sm|]. apply in_map, filter_In. split; auto. }
    destruct (sm_erase_in _ _ qi_toks Hin) as (sm & Esm & Psm).
    unfold e_tok in Esm; cbn [cell_entry snd] in Esm. rewrite Esm.
    destruct (sm_erase_sorted _ _ _ Esm qi_sorted) as [Hsort Hincl].
    pose proof (qi_blk _ (or_introl eq_refl)) as Hb. destruct Hb; qs.
    pose proof (qi_actual_b _ _ _ _ HA HQ0) as Bact. pose proof ASP_M64 as HAM.
    assert (Hcon := bo_contig). apply contig_app in Hcon as [Hc1 Hc2]. cbn [contig] in Hc2.
    destruct Hc2 as (Hd1 & Hp1 & Hd2 & Hp2 & Hc3).
    pose proof (csum_nonneg _ _ Hc1) as Hn1. pose proof (csum_nonneg _ _ Hc3) as Hn3.
    assert (Hsb : k_size x + k_size y <= q_actual s).
    { rewrite qi_actual. cbn [map sumZ]. unfold b_size at 1. qs. rewrite csum_app, !csum_cons.
      assert (0 <= sumZ (map b_size B)).
      { apply sumZ_nonneg. intros z Hz. apply in_map_iff in Hz as (b' & <- & Hb').
        pose proof (b_size_pos _ _ (qi_blk b' (or_intror Hb'))). lia. }
      lia. }
    rewrite (w64_small (k_size x + k_size y)) by lia.
    set (x' := mkCell (k_id x) (k_data x) (k_size x + k_size y) SFreed (k_it x)).
    set (cs := b_size (mkBlk (l1 ++ x :: y :: l2) d p t)) in *.
    assert (HR1 : NoDup (k_id x :: k_id y :: map k_id (rest l1 l2 B))).
    { eapply Permutation_NoDup; [|exact qi_nodup]. apply (Permutation_map k_id HF). }
    pose proof HR1 as HR1'. apply NoDup_cons_iff in HR1' as [N1 N2]. apply NoDup_cons_iff in N2 as [N2 N3].
    assert (Hneyx : k_id x <> k_id y). { simpl in N1. intros E. apply N1. auto. }
    assert (HneR : forall z, In z (rest l1 l2 B) -> k_id z <> k_id x /\ k_id z <> k_id y).
    { intros z Hz. split; intros E.
      - apply N1. simpl. right. rewrite <- E. now apply in_map.
      - apply N2. rewrite <- E. now apply in_map. }
    assert (HRb : forall z, In z (rest l1 l2 B) -> 0 < k_id z < q_fresh s).
    { intros z Hz. apply qi_ids. eapply Permutation_in; [apply Permutation_sym, HF|]. simpl; auto. }
    rewrite Hst. cbn [st_free].
    set (xc := mkChunk (k_data x) (k_size x + k_size y) cs true (last_id l1 0) (hd_id l2 0) (k_it x)).
    apply seg_app in Hseg as [Hs1 Hs2]. cbn [seg hd_id] in Hs1, Hs2.
    destruct Hs2 as (_ & _ & Hs2).
    assert (HL : exists m2,
       (if hd_id l2 0 =? 0 then Some (fset (q_chunks s) (k_id x) xc)
        else match fset (q_chunks s) (k_id x) xc (hd_id l2 0) with
             | None => None
             | Some n => Some (fset (fset (q_chunks s) (k_id x) xc) (hd_id l2 0)
                 (mkChunk (c_data n) (c_size n) (c_csize n) (c_free n) (k_id x) (c_next n) (c_it n)))
             end) = Some m2 /\
       seg (fdel m2 (k_id y)) cs (k_id x) l2 0 /\ m2 (k_id x) = Some xc /\
       (forall z, In z l1 \/ In z (cells B) -> m2 (k_id z) = q_chunks s (k_id z))).
    { destruct l2 as [|z l2].
      - cbn [hd_id]. rewrite Z.eqb_refl. eexists. split; [reflexivity|]. split; [exact I|]. split; [apply fset_eq|].
        intros z Hz. apply fset_ne. apply HneR, rest_in. tauto.
      - cbn [hd_id]. assert (HzR : In z (rest l1 (z :: l2) B)) by (apply rest_in; simpl; auto).
        pose proof (HRb z HzR). pose proof (HneR z HzR) as [Hz1 Hz2].
        destruct (Z.eqb_spec (k_id z) 0); [lia|]. cbn [seg] in Hs2. destruct Hs2 as [Hz Hs2].
        rewrite fset_ne by auto. rewrite Hz. eexists. split; [reflexivity|]. qs.
        assert (HnR : NoDup (map k_id (l1 ++ (z :: l2) ++ cells B))) by exact N3.
        assert (Hzne : forall u, In u (l1 ++ l2 ++ cells B) -> k_id u <> k_id z).
        { intros u Hu E. rewrite map_app in HnR. cbn [map app] in HnR. apply NoDup_remove_2 in HnR.
          apply HnR. rewrite <- E, <- map_app. now apply in_map. }
        split; [|split].
        + cbn [seg]. split; [rewrite fdel_ne by auto; apply fset_eq|].
          eapply seg_frame; [|exact Hs2]. intros u Hu.
          assert (HuR : In u (rest l1 (z :: l2) B)) by (apply rest_in; simpl; auto).
          pose proof (HneR u HuR) as [Hu1 Hu2].
          rewrite fdel_ne by auto. rewrite !fset_ne; auto. apply Hzne.
          apply in_or_app; right; apply in_or_app; auto.
        + rewrite fset_ne by auto. apply fset_eq.
        + intros u Hu. rewrite !fset_ne; auto.
          * apply HneR, rest_in. tauto.
          * apply Hzne. rewrite !in_app_iff. tauto. }
    destruct HL as (m2 & Em2 & Hsl2 & Hm2y & Hm2k). rewrite Em2.
    assert (Hst3 : forall z, In z l1 \/ In z (cells B) -> fdel m2 (k_id y) (k_id z) = q_chunks s (k_id z)).
    { intros z Hz. rewrite fdel_ne; auto. apply HneR, rest_in. tauto. }
    assert (Hmm : merged (l1 ++ x' :: l2) /\ hd_rel l2 = false).
    { apply merged_app in bo_merged as (M1 & M2 & M3). cbn [merged hd_rel] in M2, M3.
      assert (is_rel y = true) by (unfold is_rel, is_free in *; destruct (k_st y); auto; discriminate).
      destruct M2 as (_ & M2 & M4). rewrite H, andb_true_l in M2. split; auto.
      apply merged_app. split; auto. cbn [merged hd_rel]. change (is_rel x') with false.
      rewrite andb_false_r. split; auto. }
    destruct Hmm as [Hmer Hlast].
    assert (Hfp : Permutation (q_sizemap s) (cell_entry y :: map cell_entry (filter is_free (rest l1 l2 B)))).
    { rewrite qi_sm, (Permutation_map cell_entry (Permutation_filter is_free _ _ HF)).
      cbn [filter]. rewrite Efy, Hnf. reflexivity. }
    assert (Huy : is_used y = false) by (unfold is_used, is_free in *; destruct (k_st y); auto; discriminate).
    exists (set_sizemap (set_chunks s (fdel m2 (k_id y))) sm), x', l2.
    split; [reflexivity|]. split; [|split; [|split; [|split; [|split; [|split]]]]].
    + change (x' :: l2) with ([x'] ++ l2).
      eapply (QI_replace A s _ l1 [x; y] l2 d p t B extra extra [x']); qs; auto.
      * discriminate.
      * unfold csum; cbn [map sumZ]. cbn [x' k_size]. lia.
      * cbn [app]. apply seg_app. split; [|cbn [seg]; split].
        -- eapply seg_frame; [|exact Hs1]. auto.
        -- cbn [x' k_id]. rewrite fdel_ne by auto. rewrite Hm2y. reflexivity.
        -- exact Hsl2.
      * lia.
      * intros z [<-|[]]. exact Hxb.
      * cbn [app map x' k_id]. constructor; [|exact N3]. intros Hi. apply N1. simpl; auto.
      * cbn [contig x' k_data k_size]. repeat split; auto; lia.
      * intros z [<-|[]]. destruct (bo_cells x ltac:(apply in_or_app; simpl; auto)) as (C1 & C2 & C3).
        unfold cell_ok, x'; qs. repeat split; auto. lia.
      * cbn [filter map app]. change (is_free x') with false. cbn [map app].
        eapply Permutation_cons_inv with (a := cell_entry y). rewrite <- Psm. exact Hfp.
      * eapply sorted_tok_sub; eauto.
      * cbn [filter map app]. change (is_used x') with false. cbn [map app].
        rewrite qi_pm, (Permutation_map cell_pm (Permutation_filter is_used _ _ HF)).
        cbn [filter]. rewrite Huy, Hnu. reflexivity.
      * rewrite qi_relb. do 2 f_equal. cbn [app]. rewrite !rel_blocks_mid.
        change (is_rel x') with false. rewrite Hnr. reflexivity.
      * rewrite qi_rel. do 2 f_equal. cbn [app]. rewrite !rel_blocks_mid.
        change (is_rel x') with false. rewrite Hnr. reflexivity.
      * rewrite qi_aligned, (sumZ_perm _ _ (Permutation_map k_size (Permutation_filter is_used _ _ HF))).
        cbn [filter]. rewrite Huy, Hnu. change (is_used x') with false. reflexivity.
    + reflexivity.
    + reflexivity.
    + exact Hlast.
    + intros z Hz. apply rest_in in Hz. apply rest_in. simpl. tauto.
    + pose proof (focus_perm l1 [x'] l2 d p t B) as HF'. cbn [app] in HF' |- *.
      rewrite (Permutation_filter is_used _ _ HF'), (Permutation_filter is_used _ _ HF).
      cbn [filter]. rewrite Huy, Hnu. change (is_used x') with false. reflexivity.
    + unfold same_but. qs. repeat split; auto.
Qed.

Lemma q_finish_free_ok A s l1 x l2 d p t B ptr c0 :
  0 < A ->
  QI A s (mkBlk (l1 ++ x :: l2) d p t :: B) [(ptr, c0)] ->
  k_st x = SFreed ->
  last_rel l1 false = false -> hd_rel l2 = false ->
  ~ In ptr (map k_data (filter is_used (cells (mkBlk (l1 ++ x :: l2) d p t :: B)))) ->
  exists s' x',
    q_finish_free (k_id x) ptr s = Some s' /\
    QI A s' (mkBlk (l1 ++ x' :: l2) d p t :: B) [] /\
    k_st x' = SFree /\
    Permutation (filter is_used (cells (mkBlk (l1 ++ x' :: l2) d p t :: B)))
                (filter is_used (cells (mkBlk (l1 ++ x :: l2) d p t :: B))) /\
    q_base s' = q_base s /\ q_actual s' = q_actual s /\ q_total_blocks s' = q_total_blocks s /\
    q_aligned s' = q_aligned s /\ q_aligned_hwm s' = q_aligned_hwm s /\ q_actual_hwm s' = q_actual_hwm s.
Proof.
  intros HA HQ Hst Hlr Hhr Hptr. pose proof HQ as HQ0. destruct HQ.
  pose proof (qi_seg _ (or_introl eq_refl)) as Hseg. qs.
  pose proof (seg_lookup _ _ _ _ _ _ _ Hseg) as Hx.
  pose proof (qi_blk _ (or_introl eq_refl)) as Hb. destruct Hb; qs.
  pose proof (whole_block _ _ _ _ bo_contig) as Hwh.
  unfold q_finish_free. rewrite Hx. qs. rewrite Hst. cbn [st_free].
  assert (Hnx : is_used x = false /\ is_free x = false /\ is_rel x = false).
  { unfold is_used, is_free, is_rel. now rewrite Hst. }
  destruct Hnx as (Hnu & Hnf & Hnr).
  pose proof (focus_perm l1 [x] l2 d p t B) as HF. cbn [app] in HF.
  set (x' := mkCell (k_id x) (k_data x) (k_size x) SFree (q_fresh s)).
  pose proof (focus_perm l1 [x'] l2 d p t B) as HF'. cbn [app] in HF'.
  change (b_size (mkBlk (l1 ++ x :: l2) d p t)) with (csum (l1 ++ x :: l2)) in *.
  set (cs := csum (l1 ++ x :: l2)) in *.
  pose proof (qi_actual_b _ _ _ _ HA HQ0) as Bact.
  pose proof (qi_relb_b _ _ _ _ HA HQ0) as Brelb.
  pose proof (qi_rel_b _ _ _ _ HQ0) as Brel.
  pose proof ASP_M64 as HAM.
  assert (Hrb0 : rel_blocks (mkBlk (l1 ++ x :: l2) d p t :: B) = rel_blocks B).
  { rewrite rel_blocks_mid, Hnr. reflexivity. }
  rewrite Hrb0 in *.
  assert (Hb1 : cs + sumZ (map b_size (rel_blocks B)) <= q_actual s).
  { rewrite qi_actual. cbn [map sumZ]. change (b_size (mkBlk (l1 ++ x :: l2) d p t)) with cs.
    pose proof (sum_filter_le b_rel b_size B) as HS. unfold rel_blocks.
    assert (forall b, In b B -> 0 <= b_size b); [|specialize (HS H); lia].
    intros b Hbb. pose proof (b_size_pos _ _ (qi_blk b (or_intror Hbb))). lia. }
  assert (Hcsz : b_size (mkBlk (l1 ++ x' :: l2) d p t) = cs).
  { unfold b_size; qs. unfold cs. now rewrite !csum_app, !csum_cons. }
  assert (Hcs0 : 0 < cs) by (apply (b_size_pos _ _ (qi_blk _ (or_introl eq_refl)))).
  set (whole := match l1, l2 with [], [] => true | _, _ => false end) in *.
  rewrite Hwh.
  assert (Hrb1 : rel_blocks (mkBlk (l1 ++ x' :: l2) d p t :: B) =
      if whole then mkBlk (l1 ++ x' :: l2) d p t :: rel_blocks B else rel_blocks B).
  { rewrite rel_blocks_mid. reflexivity. }
  set (s1 := if whole then _ else s).
  assert (Es1 : s1 = set_blocks (set_bytes s (q_actual s)
                     (sumZ (map b_size (rel_blocks (mkBlk (l1 ++ x' :: l2) d p t :: B)))) (q_actual_hwm s))
                     (q_total_blocks s) (Z.of_nat (length (rel_blocks (mkBlk (l1 ++ x' :: l2) d p t :: B))))).
  { unfold s1. destruct s; qs. rewrite Hrb1. destruct whole; qs.
    - cbn [map sumZ length]. rewrite Hcsz. rewrite !w64_small by lia. f_equal; [f_equal|]; lia.
    - subst. reflexivity. }
  rewrite Es1. clear s1 Es1. qs.
  assert (Hids : NoDup (k_id x :: map k_id (rest l1 l2 B))).
  { eapply Permutation_NoDup; [|exact qi_nodup]. apply (Permutation_map k_id HF). }
  assert (HneR : forall z, In z (rest l1 l2 B) -> k_id z <> k_id x).
  { intros z Hz E. apply NoDup_cons_iff in Hids as [N _]. apply N. rewrite <- E. now apply in_map. }
  assert (Hxb : 0 < k_id x < q_fresh s).
  { apply qi_ids. eapply Permutation_in; [apply Permutation_sym, HF|]. simpl; auto. }
  assert (Hup : Permutation (filter is_used (cells (mkBlk (l1 ++ x :: l2) d p t :: B))) (filter is_used (rest l1 l2 B))).
  { rewrite (Permutation_filter is_used _ _ HF). cbn [filter]. rewrite Hnu. reflexivity. }
  eexists _, x'. split; [reflexivity|]. split; [|split; [reflexivity|split; [|qs; auto 10]]].
  2:{ rewrite (Permutation_filter is_used _ _ HF'), Hup. reflexivity. }
  change (x' :: l2) with ([x'] ++ l2).
  eapply (QI_replace A s _ l1 [x] l2 d p t B [(ptr, c0)] [] [x']); qs; auto.
  - discriminate.
  - cbn [app]. apply seg_app in Hseg as [Hs1 Hs2]. cbn [seg hd_id] in Hs1, Hs2. destruct Hs2 as [_ Hs2].
    apply seg_app. split; [|cbn [seg]; split].
    + eapply seg_frame; [|exact Hs1]. intros z Hz. apply fset_ne, HneR, rest_in. auto.
    + cbn [x' k_id]. rewrite fset_eq. reflexivity.
    + eapply seg_frame; [|exact Hs2]. intros z Hz. apply fset_ne, HneR, rest_in. auto.
  - intros z Hz. apply fset_ne, HneR, rest_in. auto.
  - lia.
  - intros z [<-|[]]. cbn [x' k_id]. lia.
  - apply contig_app in bo_contig as [_ Hc]. cbn [contig] in Hc. cbn [contig x' k_data k_size]. tauto.
  - intros z [<-|[]]. destruct (bo_cells x ltac:(apply in_or_app; simpl; auto)) as (C1 & C2 & C3).
    unfold cell_ok, x'; qs. auto.
  - apply merged_app in bo_merged as (M1 & M2 & M3). cbn [merged] in M2. destruct M2 as [_ M2].
    apply merged_app. cbn [app merged hd_rel]. rewrite Hlr, Hhr, andb_false_r. auto.
  - rewrite sm_insert_perm. cbn [filter map]. change (is_free x') with true. cbn [map app].
    constructor. rewrite qi_sm, (Permutation_map cell_entry (Permutation_filter is_free _ _ HF)).
    cbn [filter]. rewrite Hnf. reflexivity.
  - apply sm_insert_sorted; auto.
  - eapply Permutation_NoDup; [apply Permutation_sym, (Permutation_map e_tok (sm_insert_perm _ _))|].
    cbn [map]. constructor; auto. intros Hin. apply in_map_iff in Hin as (e & Ee & He).
    specialize (qi_tokb e He). unfold e_tok in Ee at 2; cbn in Ee. lia.
  - intros e He. eapply Permutation_in in He; [|apply sm_insert_perm].
    destruct He as [<-|He]; [unfold e_tok; cbn; lia|]. specialize (qi_tokb e He). lia.
  - cbn [app filter map]. change (is_used x') with false. cbn [map app].
    rewrite <- (Permutation_map cell_pm Hup).
    eapply pm_erase_perm; [exact qi_pm|]. rewrite map_map. cbn [cell_pm fst]. exact Hptr.
  - rewrite qi_aligned, (sumZ_perm _ _ (Permutation_map k_size Hup)). cbn [filter]. change (is_used x') with false. reflexivity.
Qed.

Lemma uregs_in B p n :
  In (p, n) (uregs B) <-> exists x, In x (cells B) /\ k_data x = p /\ k_st x = SUsed n.
Proof.
  unfold uregs. rewrite in_map_iff. split.
  - intros (x & E & Hx). apply filter_In in Hx as [Hx Hu]. exists x. unfold cell_alloc, cell_req, is_used in *.
    destruct (k_st x); try discriminate. inv E. auto.
  - intros (x & Hx & Hd & Hs). exists x. unfold cell_alloc, cell_req. rewrite Hs, Hd. split; auto.
    apply filter_In. split; auto. unfold is_used. now rewrite Hs.
Qed.

Lemma cells_focus B x :
  In x (cells B) -> exists l1 l2 d p t B',
    Permutation B (mkBlk (l1 ++ x :: l2) d p t :: B').
Proof.
  intros H. apply in_cells in H as (b & Hb & Hx).
  apply in_perm_head in Hb as (B' & HP). apply in_split in Hx as (l1 & l2 & E).
  exists l1, l2, (b_data b), (b_ptr b), (b_total b), B'. rewrite <- E. destruct b; exact HP.
Qed.

Lemma q_free_core_ok A s B ptr req :
  0 < A ->
  QI A s B [] -> (forall x, In x (cells B) -> stable x) ->
  In (ptr, req) (uregs B) ->
  exists s' B',
    q_free_core ptr s = Some s' /\
    QI A s' B' [] /\ (forall x, In x (cells B') -> stable x) /\
    Permutation ((ptr, req) :: uregs B') (uregs B) /\
    Permutation (map b_held B') (map b_held B) /\
    q_base s' = q_base s /\ q_actual s' = q_actual s /\ q_total_blocks s' = q_total_blocks s /\
    q_aligned s' = q_aligned s - aligned_round_up A req /\
    q_aligned_hwm s' = q_aligned_hwm s /\ q_actual_hwm s' = q_actual_hwm s.
Proof.
  intros HA HQ Hstab Hin. apply uregs_in in Hin as (x & Hx & Hxd & Hxs).
  destruct (cells_focus _ _ Hx) as (l1 & l2 & d & p & t & B1 & HP).
  pose proof (QI_perm _ _ _ _ _ HP HQ) as HQ1.
  pose proof (cells_perm _ _ HP) as HPc.
  assert (Hstab1 : forall y, In y (rest l1 l2 B1) -> stable y).
  { intros y Hy. apply Hstab. eapply Permutation_in; [apply Permutation_sym, HPc|].
    eapply Permutation_in; [apply Permutation_sym, (focus_perm l1 [x] l2 d p t B1)|]. simpl; auto. }
  pose proof HQ1 as HQ0. destruct HQ1.
  pose proof (qi_seg _ (or_introl eq_refl)) as Hseg. qs.
  pose proof (seg_lookup _ _ _ _ _ _ _ Hseg) as Hlx.
  pose proof (focus_perm l1 [x] l2 d p t B1) as HF. cbn [app] in HF.
  assert (Hux : is_used x = true) by (unfold is_used; now rewrite Hxs).
  assert (Hup : Permutation (filter is_used (cells (mkBlk (l1 ++ x :: l2) d p t :: B1))) (x :: filter is_used (rest l1 l2 B1))).
  { rewrite (Permutation_filter is_used _ _ HF). cbn [filter]. now rewrite Hux. }
  assert (Hfp : Permutation (filter is_free (cells (mkBlk (l1 ++ x :: l2) d p t :: B1))) (filter is_free (rest l1 l2 B1))).
  { rewrite (Permutation_filter is_free _ _ HF). cbn [filter]. unfold is_free at 1. now rewrite Hxs. }
  pose proof (qi_cells_nodup_data _ _ _ _ HQ0) as Hnd.
  assert (Hndu : NoDup (map k_data (x :: filter is_used (rest l1 l2 B1)))).
  { eapply Permutation_NoDup; [apply (Permutation_map k_data Hup)|]. now apply NoDup_filter_map. }
  assert (Hpf : pm_find ptr (q_ptrmap s) = Some (k_id x)).
  { apply pm_find_in.
    - eapply Permutation_NoDup; [apply Permutation_sym, (Permutation_map fst qi_pm)|].
      cbn [app]. rewrite map_map. cbn [cell_pm fst]. now apply NoDup_filter_map.
    - eapply Permutation_in; [apply Permutation_sym, qi_pm|]. cbn [app].
      apply in_map_iff. exists x. unfold cell_pm. rewrite Hxd. split; auto.
      eapply Permutation_in; [apply Permutation_sym, Hup|]. simpl; auto. }
  unfold q_free_core. rewrite Hpf, Hlx. qs.
  set (x1 := mkCell (k_id x) (k_data x) (k_size x) SFreed (k_it x)).
  set (cs := b_size (mkBlk (l1 ++ x :: l2) d p t)) in *.
  set (s2 := set_aligned _ _ _).
  pose proof (qi_blk _ (or_introl eq_refl)) as Hb. destruct Hb; qs.
  destruct (bo_cells x ltac:(apply in_or_app; simpl; auto)) as (C1 & C2 & C3). rewrite Hxs in C3.
  pose proof (qi_aligned_b _ _ _ _ HQ0) as Bal. pose proof (qi_actual_b _ _ _ _ HA HQ0) as Bact.
  pose proof ASP_M64 as HAM.
  assert (HRpos : 0 <= sumZ (map k_size (filter is_used (rest l1 l2 B1)))).
  { apply sumZ_nonneg. intros z Hz. apply in_map_iff in Hz as (y & <- & Hy). apply filter_In in Hy as [Hy _].
    assert (cell_ok A y) as [Hpy _]; [|lia]. eapply cells_sizes_pos; [exact qi_blk|].
    eapply Permutation_in; [apply Permutation_sym, HF|]. simpl; auto. }
  assert (Hal : q_aligned s = k_size x + sumZ (map k_size (filter is_used (rest l1 l2 B1)))).
  { rewrite qi_aligned, (sumZ_perm _ _ (Permutation_map k_size Hup)). reflexivity. }
  assert (Hids : NoDup (k_id x :: map k_id (rest l1 l2 B1))).
  { eapply Permutation_NoDup; [|exact qi_nodup]. apply (Permutation_map k_id HF). }
  assert (HneR : forall z, In z (rest l1 l2 B1) -> k_id z <> k_id x).
  { intros z Hz E. apply NoDup_cons_iff in Hids as [N _]. apply N. rewrite <- E. now apply in_map. }
  assert (HQ2 : QI A s2 (mkBlk (l1 ++ x1 :: l2) d p t :: B1) [(ptr, k_id x)]).
  { change (x1 :: l2) with ([x1] ++ l2).
    eapply (QI_replace A s _ l1 [x] l2 d p t B1 [] [(ptr, k_id x)] [x1]); unfold s2; qs; auto.
    - discriminate.
    - cbn [app]. apply seg_app in Hseg as [Hs1 Hs2]. cbn [seg hd_id] in Hs1, Hs2. destruct Hs2 as [_ Hs2].
      apply seg_app. split; [|cbn [seg]; split].
      + eapply seg_frame; [|exact Hs1]. intros z Hz. apply fset_ne, HneR, rest_in. auto.
      + cbn [x1 k_id]. rewrite fset_eq. reflexivity.
      + eapply seg_frame; [|exact Hs2]. intros z Hz. apply fset_ne, HneR, rest_in. auto.
    - intros z Hz. apply fset_ne, HneR, rest_in. auto.
    - lia.
    - intros z [<-|[]]. cbn [x1 k_id]. apply qi_ids. eapply Permutation_in; [apply Permutation_sym, HF|]. simpl; auto.
    - apply contig_app in bo_contig as [_ Hc]. cbn [contig] in Hc. cbn [contig x1 k_data k_size]. tauto.
    - intros z [<-|[]]. unfold cell_ok, x1; qs. auto.
    - apply merged_app in bo_merged as (M1 & M2 & M3). cbn [merged] in M2. destruct M2 as [_ M2].
      apply merged_app. cbn [app merged hd_rel]. change (is_rel x1) with false. rewrite andb_false_r. auto.
    - rewrite qi_sm, (Permutation_map cell_entry Hfp). reflexivity.
    - rewrite qi_pm, (Permutation_map cell_pm Hup). cbn [app map filter].
      change (is_used x1) with false. cbn [map app]. unfold cell_pm at 1. rewrite Hxd. reflexivity.
    - rewrite qi_relb. cbn [app]. rewrite !rel_blocks_mid. change (is_rel x1) with false.
      replace (is_rel x) with false by (unfold is_rel; now rewrite Hxs). reflexivity.
    - rewrite qi_rel. cbn [app]. rewrite !rel_blocks_mid. change (is_rel x1) with false.
      replace (is_rel x) with false by (unfold is_rel; now rewrite Hxs). reflexivity.
    - cbn [filter]. change (is_used x1) with false. cbn [map sumZ]. rewrite w64_small; lia.
    - rewrite w64_small; lia. }
  assert (Hal2 : q_aligned s2 = q_aligned s - k_size x).
  { unfold s2. qs. rewrite w64_small; lia. }
  pose proof (focus_perm l1 [x1] l2 d p t B1) as HF1. cbn [app] in HF1.
  assert (Hup1 : Permutation (filter is_used (cells (mkBlk (l1 ++ x1 :: l2) d p t :: B1))) (filter is_used (rest l1 l2 B1))).
  { rewrite (Permutation_filter is_used _ _ HF1). reflexivity. }
  destruct (q_merge_prev_ok A s2 l1 x1 l2 d p t B1 _ HA HQ2 eq_refl Hstab1)
    as (s3 & l1' & x2 & E3 & HQ3 & Hst2 & Hlast & Hin3 & Hup2 & Hsb3).
  change (k_id x1) with (k_id x) in E3. rewrite E3.
  destruct (q_merge_next_ok A s3 l1' x2 l2 d p t B1 _ HA HQ3 Hst2 (fun y Hy => Hstab1 y (Hin3 y Hy)))
    as (s4 & x3 & l2' & E4 & HQ4 & Hid3 & Hst3 & Hhd & Hin4 & Hup3 & Hsb4).
  rewrite E4. rewrite <- Hid3.
  assert (Hup4 : Permutation (filter is_used (cells (mkBlk (l1' ++ x3 :: l2') d p t :: B1))) (filter is_used (rest l1 l2 B1))).
  { rewrite Hup3, Hup2, Hup1. reflexivity. }
  destruct (q_finish_free_ok A s4 l1' x3 l2' d p t B1 ptr (k_id x) HA HQ4 Hst3 Hlast Hhd) as
    (s5 & x4 & E5 & HQ5 & Hst4 & Hup5 & F1 & F2 & F3 & F4 & F5 & F6).
  { intros Hi. eapply Permutation_in in Hi; [|apply (Permutation_map k_data Hup4)].
    cbn [map] in Hndu. apply NoDup_cons_iff in Hndu as [N _]. rewrite Hxd in N. contradiction. }
  exists s5, (mkBlk (l1' ++ x4 :: l2') d p t :: B1). split; [exact E5|]. split; [exact HQ5|].
  destruct Hsb3 as (G1 & G2 & G3 & G4 & G5 & G6 & G7 & G8 & G9 & G10).
  destruct Hsb4 as (J1 & J2 & J3 & J4 & J5 & J6 & J7 & J8 & J9 & J10).
  split; [|split; [|split; [|repeat split]]].
  - intros y Hy. eapply Permutation_in in Hy; [|apply (focus_perm l1' [x4] l2' d p t B1)].
    destruct Hy as [<-|Hy]; [left; exact Hst4|]. apply Hstab1, Hin3, Hin4, Hy.
  - etransitivity; [|apply Permutation_sym, (uregs_perm _ _ HP)]. unfold uregs.
    rewrite (Permutation_map cell_alloc Hup5), (Permutation_map cell_alloc Hup4), (Permutation_map cell_alloc Hup).
    cbn [map]. replace (cell_alloc x) with (ptr, req); [reflexivity|].
    unfold cell_alloc, cell_req. now rewrite Hxs, Hxd.
  - etransitivity; [|apply Permutation_sym, (Permutation_map b_held HP)]. reflexivity.
  - rewrite F1, J2, G2. reflexivity.
  - rewrite F2, J3, G3. reflexivity.
  - rewrite F3, J4, G4. reflexivity.
  - rewrite F4, J7, G7, Hal2. destruct C3 as (_ & _ & C3). rewrite C3. reflexivity.
  - rewrite F5, J8, G8. reflexivity.
  - rewrite F6, J9, G9. reflexivity.
Qed.
