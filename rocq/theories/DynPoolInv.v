(** Representation invariant of the DynamicSizePool model: as for QuickPool, the blocks obtained from the
    parent are tiled by fragments ([blk], QuickPoolInv.v); the used and free lists list them, the free list
    in address order, the first fragment of each block carrying the block's size. *)
From Verif Require Import Base BaseFacts AlignedModel AlignedFacts QuickPoolModel QuickPoolInv QuickPoolFacts QuickPoolOps QuickPoolFree
  DynPoolModel.

Definition tag (bs : Z) (l : list cell) : list (cell * Z) :=
  match l with [] => [] | x :: t => (x, bs) :: map (fun y => (y, 0)) t end.
Definition nxt (bs : Z) (l : list cell) : Z := match l with [] => bs | _ => 0 end.
Definition dall (B : list blk) : list (cell * Z) := flat_map (fun b => tag (b_size b) (b_cells b)) B.
Definition dblk (xb : cell * Z) : dblock := mkD (k_data (fst xb)) (k_size (fst xb)) (snd xb).
Definition usedp (xb : cell * Z) : bool := is_used (fst xb).
Definition freep (xb : cell * Z) : bool := is_free (fst xb).

Definition dlt (a b : dblock) : Prop := d_data a < d_data b.

Record DI (A : Z) (s : dpool) (B : list blk) : Prop := {
  di_blk : forall b, In b B -> blk_ok A b;
  di_good : good (map b_held B);
  di_stable : forall x, In x (cells B) -> stable x;
  di_ids : forall x, In x (cells B) -> k_id x = k_data x /\ k_it x = k_data x;
  di_used : Permutation (d_used s) (map dblk (filter usedp (dall B)));
  di_free : Permutation (d_free s) (map dblk (filter freep (dall B)));
  di_sorted : pairwise dlt (d_free s);
  di_base : forall b, In b B -> d_base s (b_data b) = Some (b_held b);
  di_actual : d_actual s = sumZ (map b_size B);
  di_total : d_total_blocks s = Z.of_nat (length B);
  di_relb : d_rel_blocks s = Z.of_nat (length (rel_blocks B));
  di_aligned : d_aligned s = sumZ (map k_size (filter is_used (cells B)));
  di_hwm : d_aligned s <= d_aligned_hwm s < ASP;
  di_ahwm : d_actual s <= d_actual_hwm s < ASP
}.

Lemma tag_app bs l1 l2 : tag bs (l1 ++ l2) = tag bs l1 ++ tag (nxt bs l1) l2.
Proof.
  destruct l1 as [|x l1]; [reflexivity|]. cbn [app tag nxt]. rewrite map_app. destruct l2; reflexivity.
Qed.
Lemma tag_fst bs l : map fst (tag bs l) = l.
Proof. destruct l as [|x l]; [reflexivity|]. cbn [tag map fst]. rewrite map_map. f_equal. rewrite <- (map_id l) at 2. apply map_ext. auto. Qed.
Lemma dall_fst B : map fst (dall B) = cells B.
Proof. induction B as [|b B IH]; [reflexivity|]. unfold dall. cbn [flat_map]. rewrite map_app, tag_fst. fold (dall B). now rewrite IH. Qed.
Lemma dall_cons b B : dall (b :: B) = tag (b_size b) (b_cells b) ++ dall B.
Proof. reflexivity. Qed.
Lemma dall_in x z B : In (x, z) (dall B) -> In x (cells B).
Proof. intros H. rewrite <- dall_fst. apply (in_map fst) in H. exact H. Qed.
Lemma cells_dall x B : In x (cells B) -> exists z, In (x, z) (dall B).
Proof. rewrite <- dall_fst. intros H. apply in_map_iff in H as ((y & z) & <- & H). eauto. Qed.
Lemma nxt_nonnil bs l : l <> [] -> nxt bs l = 0.
Proof. now destruct l. Qed.
Lemma nxt_app bs l1 l2 : nxt bs (l1 ++ l2) = nxt (nxt bs l1) l2.
Proof. destruct l1; [reflexivity|]. cbn. now destruct l2. Qed.

Definition drest (bs : Z) (l1 l2 : list cell) (B : list blk) : list (cell * Z) := tag bs l1 ++ tag 0 l2 ++ dall B.

Lemma dfocus_perm l1 lx l2 d p t B : lx <> [] ->
  Permutation (dall (mkBlk (l1 ++ lx ++ l2) d p t :: B))
              (tag (nxt (csum (l1 ++ lx ++ l2)) l1) lx ++ drest (csum (l1 ++ lx ++ l2)) l1 l2 B).
Proof.
  intros H. rewrite dall_cons. unfold b_size, drest. qs. rewrite tag_app, (tag_app _ lx l2), (nxt_nonnil _ lx H).
  rewrite <- !app_assoc, (app_assoc (tag _ l1) (tag _ lx)), (Permutation_app_comm (tag _ l1) (tag _ lx)), <- !app_assoc.
  reflexivity.
Qed.

Lemma tag_focus bs l x z : In (x, z) (tag bs l) -> exists l1 l2, l = l1 ++ x :: l2 /\ z = nxt bs l1.
Proof.
  destruct l as [|y l]; [intros []|]. cbn [tag]. intros [H|H].
  - injection H as -> ->. exists [], l. auto.
  - apply in_map_iff in H as (x' & E & H). injection E as -> <-. apply in_split in H as (l1 & l2 & ->).
    exists (y :: l1), l2. auto.
Qed.

Lemma dall_focus B x z : In (x, z) (dall B) -> exists l1 l2 d p t B',
  Permutation B (mkBlk (l1 ++ x :: l2) d p t :: B') /\ z = nxt (csum (l1 ++ x :: l2)) l1.
Proof.
  intros H. unfold dall in H. apply in_flat_map in H as (b & Hb & Hx). apply tag_focus in Hx as (l1 & l2 & E & Ez).
  apply in_perm_head in Hb as (B' & HP). exists l1, l2, (b_data b), (b_ptr b), (b_total b), B'. rewrite <- E. split; [destruct b; exact HP|].
  exact Ez.
Qed.

Lemma DI_perm A s B B' : Permutation B B' -> DI A s B -> DI A s B'.
Proof.
  intros HP [H1 H2 H3 H4 H5 H6 H7 H8 H9 H10 H11 H12 H13 H14].
  pose proof (cells_perm _ _ HP) as HC.
  assert (HD : Permutation (dall B) (dall B')) by (apply Permutation_flat_map; exact HP).
  pose proof (Permutation_sym HP) as HP'.
  constructor; auto.
  - intros b Hb. apply H1. eapply Permutation_in; eauto.
  - eapply good_perm; [apply Permutation_map, HP|exact H2].
  - intros x Hx. apply H3. eapply Permutation_in; [apply Permutation_sym, HC|exact Hx].
  - intros x Hx. apply H4. eapply Permutation_in; [apply Permutation_sym, HC|exact Hx].
  - rewrite H5. apply Permutation_map, Permutation_filter, HD.
  - rewrite H6. apply Permutation_map, Permutation_filter, HD.
  - intros b Hb. apply H8. eapply Permutation_in; eauto.
  - rewrite H9. apply sumZ_perm, Permutation_map, HP.
  - rewrite H10. now rewrite (Permutation_length HP).
  - rewrite H11. f_equal. apply Permutation_length. apply Permutation_filter, HP.
  - rewrite H12. apply sumZ_perm, Permutation_map, Permutation_filter, HC.
Qed.

Lemma DI_init A : DI A d_init [].
Proof.
  constructor; cbn; try contradiction; auto; try (unfold ASP; lia).
  apply good_nil.
Qed.

(** Replace the fragments [lx] of the focus block by [ly]. *)
Lemma DI_replace A s s' l1 lx l2 d p t B ly :
  DI A s (mkBlk (l1 ++ lx ++ l2) d p t :: B) ->
  lx <> [] -> ly <> [] ->
  csum ly = csum lx ->
  contig (d + csum l1) ly ->
  (forall y, In y ly -> cell_ok A y /\ stable y /\ k_id y = k_data y /\ k_it y = k_data y) ->
  merged (l1 ++ ly ++ l2) ->
  let bs := csum (l1 ++ lx ++ l2) in
  Permutation (d_used s') (map dblk (filter usedp (tag (nxt bs l1) ly)) ++ map dblk (filter usedp (drest bs l1 l2 B))) ->
  Permutation (d_free s') (map dblk (filter freep (tag (nxt bs l1) ly)) ++ map dblk (filter freep (drest bs l1 l2 B))) ->
  pairwise dlt (d_free s') ->
  d_base s' = d_base s ->
  d_actual s' = d_actual s -> d_actual_hwm s' = d_actual_hwm s ->
  d_total_blocks s' = d_total_blocks s ->
  d_rel_blocks s' = Z.of_nat (length (rel_blocks (mkBlk (l1 ++ ly ++ l2) d p t :: B))) ->
  d_aligned s' = sumZ (map k_size (filter is_used ly)) + sumZ (map k_size (filter is_used (rest l1 l2 B))) ->
  d_aligned s' <= d_aligned_hwm s' < ASP ->
  DI A s' (mkBlk (l1 ++ ly ++ l2) d p t :: B).
Proof.
  intros HD Hnx Hne Hcs Hcon Hok Hmer bs Hu Hf Hso Hbase Hact Hahwm Htot Hrb Hal Hhwm.
  destruct HD.
  pose proof (focus_perm l1 lx l2 d p t B) as HF.
  pose proof (focus_perm l1 ly l2 d p t B) as HF'.
  pose proof (dfocus_perm l1 ly l2 d p t B Hne) as HG.
  assert (Hsz : csum (l1 ++ ly ++ l2) = bs) by (unfold bs; rewrite !csum_app; lia).
  rewrite Hsz in HG.
  pose proof (di_blk0 _ (or_introl eq_refl)) as Hb.
  constructor; auto.
  - intros b [<-|Hbb]; [|apply di_blk0; simpl; auto]. destruct Hb; qs. constructor; qs; auto.
    + intros E. apply app_eq_nil in E as [_ E]. apply app_eq_nil in E as [E _]. auto.
    + apply contig_app in bo_contig as [Hc1 Hc2]. apply contig_app in Hc2 as [Hc2 Hc3].
      apply contig_app. split; auto. apply contig_app. split; auto. rewrite Hcs. auto.
    + intros y Hy. apply in_app_or in Hy as [Hy|Hy]; [apply bo_cells, in_or_app; auto|].
      apply in_app_or in Hy as [Hy|Hy]; [now apply Hok|]. apply bo_cells, in_or_app; right; apply in_or_app; auto.
    + unfold b_size in *; qs. rewrite Hsz. auto.
    + unfold b_size in *; qs. rewrite Hsz. auto.
  - intros y Hy. eapply Permutation_in in Hy; [|exact HF']. apply in_app_or in Hy as [Hy|Hy]; [now apply Hok|].
    apply di_stable0. eapply Permutation_in; [apply Permutation_sym, HF|]. apply in_or_app; auto.
  - intros y Hy. eapply Permutation_in in Hy; [|exact HF']. apply in_app_or in Hy as [Hy|Hy]; [now apply Hok|].
    apply di_ids0. eapply Permutation_in; [apply Permutation_sym, HF|]. apply in_or_app; auto.
  - rewrite Hu, (Permutation_map dblk (Permutation_filter usedp _ _ HG)). now rewrite filter_app_map.
  - rewrite Hf, (Permutation_map dblk (Permutation_filter freep _ _ HG)). now rewrite filter_app_map.
  - intros b Hbb. rewrite Hbase. destruct Hbb as [<-|Hbb]; [|apply di_base0; simpl; auto].
    apply (di_base0 _ (or_introl eq_refl)).
  - rewrite Hact, di_actual0. cbn [map sumZ]. unfold b_size at 1 3. qs. rewrite Hsz. reflexivity.
  - rewrite Htot, di_total0. reflexivity.
  - rewrite Hal, (sumZ_perm _ _ (Permutation_map k_size (Permutation_filter is_used _ _ HF'))).
    now rewrite filter_app_map, sumZ_app.
  - rewrite Hact, Hahwm. auto.
Qed.

Section Bounds.
  Context (A : Z) (s : dpool) (B : list blk).
  Hypothesis HA : 0 < A.
  Hypothesis H : DI A s B.

  Lemma di_actual_b : 0 <= d_actual s < ASP.
  Proof.
    rewrite (di_actual _ _ _ H). pose proof (sum_blocks_bound A B HA (di_blk _ _ _ H) (di_good _ _ _ H)).
    assert (0 <= A * Z.of_nat (length B)) by (apply Z.mul_nonneg_nonneg; lia). lia.
  Qed.
  Lemma di_total_b : 0 <= d_total_blocks s < ASP.
  Proof.
    rewrite (di_total _ _ _ H). pose proof (sum_blocks_bound A B HA (di_blk _ _ _ H) (di_good _ _ _ H)).
    assert (1 * Z.of_nat (length B) <= A * Z.of_nat (length B)) by (apply Z.mul_le_mono_nonneg_r; lia). lia.
  Qed.
  Lemma di_relb_b : 0 <= d_rel_blocks s < ASP.
  Proof. rewrite (di_relb _ _ _ H). pose proof di_total_b as Hb. rewrite (di_total _ _ _ H) in Hb. pose proof (rel_len B). lia. Qed.
  Lemma di_aligned_b : 0 <= d_aligned s <= d_actual s.
  Proof.
    rewrite (di_aligned _ _ _ H), (di_actual _ _ _ H), <- sum_cells_blocks. apply sum_filter_le.
    intros x Hx. pose proof (cells_sizes_pos A B (di_blk _ _ _ H) x Hx) as [Hp _]. lia.
  Qed.
  Lemma di_cell x : In x (cells B) -> cell_ok A x /\ 0 < k_data x /\ k_data x + k_size x <= ASP.
  Proof.
    intros Hx. split; [apply (cells_sizes_pos A B (di_blk _ _ _ H) x Hx)|].
    apply in_cells in Hx as (b & Hb & Hx). pose proof (cell_in_held A b x (di_blk _ _ _ H b Hb) Hx) as Hi.
    destruct (di_good _ _ _ H) as [Hg _]. specialize (Hg _ (in_map b_held _ _ Hb)).
    unfold wf_region, inside, cell_region in *. cbn [fst snd] in *. lia.
  Qed.
  (** Fragments that share a byte are the same. *)
  Lemma di_overlap x y a : In x (cells B) -> In y (cells B) ->
    k_data x <= a < k_data x + k_size x -> k_data y <= a < k_data y + k_size y -> x = y.
  Proof.
    intros Hx Hy Ha Hb. pose proof (cells_disj A B (di_blk _ _ _ H) (di_good _ _ _ H)) as HD.
    rewrite pairwise_map in HD.
    destruct (pairwise_in (fun a b => disj (cell_region a) (cell_region b)) (fun u v => disj_sym _ _) (cells B) x y HD Hx Hy) as [E|HR]; auto.
    unfold disj, cell_region in HR. cbn [fst snd] in HR. lia.
  Qed.
  Lemma di_nodup : NoDup (map k_data (cells B)).
  Proof.
    eapply pairwise_disj_nodup_data; [apply (cells_sizes_pos A B (di_blk _ _ _ H))|].
    apply (cells_disj A B (di_blk _ _ _ H) (di_good _ _ _ H)).
  Qed.
  (** A fragment that is not the first of its block has one in front of it. *)
  Lemma di_pred x : In (x, 0) (dall B) -> exists y, In y (cells B) /\ k_data y + k_size y = k_data x.
  Proof.
    intros Hx. destruct (dall_focus _ _ _ Hx) as (l1 & l2 & d & p & t & B' & HP & E).
    pose proof (DI_perm _ _ _ _ HP H) as H'. pose proof (di_blk _ _ _ H' _ (or_introl eq_refl)) as Hb.
    pose proof (bo_contig _ _ Hb) as Hc. qs.
    destruct l1 as [|z l1].
    - cbn [nxt app] in E. pose proof (b_size_pos _ _ Hb) as Hp. unfold b_size in Hp. qs. cbn [app] in Hp. lia.
    - destruct (last_split (z :: l1)) as [E'|(l1' & y & E')]; [discriminate|]. rewrite E' in *. exists y. split.
      + apply (Permutation_in _ (Permutation_sym (cells_perm _ _ HP))). rewrite cells_cons. qs. apply in_or_app. left. apply in_or_app. left. apply in_or_app. right. now left.
      + apply contig_app in Hc as [Hc1 Hc2]. cbn [contig] in Hc2. apply contig_app in Hc1 as [_ Hc1]. cbn [contig] in Hc1.
        rewrite csum_app, csum_cons in Hc2. unfold csum at 2 in Hc2. cbn [map sumZ] in Hc2. lia.
  Qed.
End Bounds.
