(** Effect of the QuickPool operations on the representation invariant. *)
From Verif Require Import Base BaseFacts AlignedModel AlignedFacts QuickPoolModel QuickPoolInv QuickPoolFacts.

Ltac qs := cbn [q_chunks q_ptrmap q_sizemap q_base q_fresh q_total_blocks q_rel_blocks
  q_aligned q_aligned_hwm q_actual q_rel_bytes q_actual_hwm set_chunks set_ptrmap set_sizemap
  set_base set_fresh set_blocks set_aligned set_bytes
  c_data c_size c_csize c_free c_prev c_next c_it
  k_id k_data k_size k_st k_it b_cells b_data b_ptr b_total cell_chunk st_free] in *.

(** Live allocations as seen by the user: address and requested size. *)
Definition uregs (B : list blk) : list region :=
  map cell_alloc (filter is_used (cells B)).

Definition rest (l1 l2 : list cell) (B : list blk) : list cell := l1 ++ l2 ++ cells B.

Lemma focus_perm l1 lx l2 d p t B :
  Permutation (cells (mkBlk (l1 ++ lx ++ l2) d p t :: B)) (lx ++ rest l1 l2 B).
Proof.
  rewrite cells_cons. unfold rest. qs.
  rewrite <- !app_assoc, (app_assoc l1 lx), (Permutation_app_comm l1 lx), <- !app_assoc.
  reflexivity.
Qed.

Lemma QI_perm A s B B' extra : Permutation B B' -> QI A s B extra -> QI A s B' extra.
Proof.
  intros HP H.
  pose proof (cells_perm _ _ HP) as HC.
  assert (HI : forall b, In b B' -> In b B).
  { intros b Hb. eapply Permutation_in; [apply Permutation_sym, HP|exact Hb]. }
  assert (HR : Permutation (rel_blocks B) (rel_blocks B')) by (apply Permutation_filter; auto).
  destruct H; constructor; auto.
  - eapply Permutation_NoDup; [|exact qi_nodup]. apply Permutation_map; auto.
  - intros x Hx. apply qi_ids. eapply Permutation_in; [apply Permutation_sym, HC|exact Hx].
  - rewrite qi_sm. apply Permutation_map, Permutation_filter; auto.
  - rewrite qi_pm. apply Permutation_app_head, Permutation_map, Permutation_filter; auto.
  - rewrite qi_actual. apply sumZ_perm, Permutation_map; auto.
  - rewrite qi_total. f_equal. apply Permutation_length; auto.
  - rewrite qi_relb. f_equal. apply Permutation_length; auto.
  - rewrite qi_rel. apply sumZ_perm, Permutation_map; auto.
  - rewrite qi_aligned. apply sumZ_perm, Permutation_map, Permutation_filter; auto.
  - eapply good_perm; [|exact qi_good]. apply Permutation_map; auto.
Qed.

Lemma uregs_perm B B' : Permutation B B' -> Permutation (uregs B) (uregs B').
Proof. intros HP. apply Permutation_map, Permutation_filter, cells_perm, HP. Qed.

(** A fragment fills its block exactly when it is alone in it. *)
Lemma whole_block a l1 x l2 :
  contig a (l1 ++ x :: l2) ->
  (k_size x =? csum (l1 ++ x :: l2)) = match l1, l2 with [], [] => true | _, _ => false end.
Proof.
  intros H. apply contig_app in H as [H1 H2]. cbn [contig] in H2. destruct H2 as (_ & _ & H2).
  pose proof (csum_nonneg _ _ H1). pose proof (csum_nonneg _ _ H2).
  rewrite csum_app, csum_cons.
  destruct l1 as [|y l1].
  - destruct l2 as [|z l2]; [unfold csum; cbn; lia|].
    cbn [contig] in H2. rewrite csum_cons.
    destruct H2 as (_ & Hz & H2). pose proof (csum_nonneg _ _ H2).
    unfold csum at 1; cbn [map sumZ]. lia.
  - cbn [contig] in H1. rewrite csum_cons. destruct H1 as (_ & Hy & H1).
    pose proof (csum_nonneg _ _ H1). destruct l2; lia.
Qed.

Section Bounds.
  Context (A : Z) (s : qpool) (B : list blk) (extra : list (Z * Z)).
  Hypothesis HA : 0 < A.
  Hypothesis H : QI A s B extra.

  Lemma qi_actual_b : 0 <= q_actual s < ASP.
  Proof.
    destruct H. rewrite qi_actual. pose proof (sum_blocks_bound A B HA qi_blk qi_good). nia.
  Qed.
  Lemma qi_total_b : 0 <= q_total_blocks s < ASP.
  Proof.
    destruct H. rewrite qi_total. pose proof (sum_blocks_bound A B HA qi_blk qi_good). nia.
  Qed.
  Lemma rel_len : (length (rel_blocks B) <= length B)%nat.
  Proof. unfold rel_blocks. clear. induction B as [|b l IH]; simpl; [lia|]. destruct (b_rel b); simpl; lia. Qed.
  Lemma qi_relb_b : 0 <= q_rel_blocks s < ASP.
  Proof.
    destruct H. rewrite qi_relb. pose proof (sum_blocks_bound A B HA qi_blk qi_good).
    pose proof rel_len. nia.
  Qed.
  Lemma rel_sum_b : 0 <= sumZ (map b_size (rel_blocks B)) <= sumZ (map b_size B).
  Proof.
    destruct H. apply sum_filter_le. intros b Hb. pose proof (b_size_pos _ _ (qi_blk b Hb)). lia.
  Qed.
  Lemma qi_rel_b : 0 <= q_rel_bytes s <= q_actual s.
  Proof. pose proof rel_sum_b. destruct H. rewrite qi_rel, qi_actual. lia. Qed.
  Lemma used_sum_b : 0 <= sumZ (map k_size (filter is_used (cells B))) <= sumZ (map b_size B).
  Proof.
    destruct H. rewrite <- sum_cells_blocks. apply sum_filter_le.
    intros x Hx. pose proof (cells_sizes_pos A B qi_blk x Hx) as [Hp _]. lia.
  Qed.
  Lemma qi_aligned_b : 0 <= q_aligned s <= q_actual s.
  Proof. pose proof used_sum_b. destruct H. rewrite qi_aligned, qi_actual. lia. Qed.

  Lemma qi_cells_nodup_data : NoDup (map k_data (cells B)).
  Proof.
    destruct H. eapply pairwise_disj_nodup_data; [apply cells_sizes_pos; eauto|].
    eapply cells_disj; eauto.
  Qed.
End Bounds.

Lemma ASP_M64 : ASP < M64. Proof. unfold ASP, M64; lia. Qed.

(** ** Handing out a fragment *)

Definition mk_used (x : cell) (sz req : Z) : cell :=
  mkCell (k_id x) (k_data x) sz (SUsed req) (k_it x).

Lemma filter_app_map {T U} (f : T -> bool) (g : T -> U) l1 l2 :
  map g (filter f (l1 ++ l2)) = map g (filter f l1) ++ map g (filter f l2).
Proof. now rewrite filter_app, map_app. Qed.

Lemma NoDup_filter_map {T U} (f : T -> bool) (g : T -> U) l :
  NoDup (map g l) -> NoDup (map g (filter f l)).
Proof.
  induction l as [|x l IH]; simpl; auto. intros Hn. inv Hn.
  destruct (f x); simpl; auto. constructor; auto.
  intros Hin. apply H1. apply in_map_iff in Hin as (y & <- & Hy).
  apply filter_In in Hy as [Hy _]. now apply in_map.
Qed.

Lemma pm_insert_fresh p c l : ~ In p (map fst l) -> pm_insert p c l = (p, c) :: l.
Proof. intros Hn. unfold pm_insert. now rewrite pm_find_none. Qed.

(** Everything that has to hold besides the chunk list for the focus block to be
    replaced; used to cut down on repetition. *)
Lemma b_rel_mid l1 x l2 d p t :
  b_rel (mkBlk (l1 ++ x :: l2) d p t) =
  match l1, l2 with [], [] => is_rel x | _, _ => false end.
Proof.
  unfold b_rel. qs. destruct l1 as [|y l1]; [destruct l2; reflexivity|].
  destruct l1; destruct l2; reflexivity.
Qed.

Lemma last_rel_neg l d : last_rel l d = match l with [] => d | _ => last_rel l false end.
Proof. destruct l; reflexivity. Qed.

Section UseChunk.
  Context {W : Type}.

  Lemma q_use_chunk_ok A s l1 x l2 d p t B req (w : W) rounded :
    0 < A ->
    QI A s (mkBlk (l1 ++ x :: l2) d p t :: B) [] ->
    k_st x = STaken ->
    0 < req -> rounded = aligned_round_up A req -> req <= rounded -> rounded mod A = 0 ->
    rounded <= k_size x ->
    exists s' lx,
      q_use_chunk rounded (k_id x) s w = Ok (s', w) (k_data x) /\
      QI A s' (mkBlk (l1 ++ lx ++ l2) d p t :: B) [] /\
      Permutation (uregs (mkBlk (l1 ++ lx ++ l2) d p t :: B))
                  ((k_data x, req) :: uregs (mkBlk (l1 ++ x :: l2) d p t :: B)) /\
      q_actual s' = q_actual s /\ q_total_blocks s' = q_total_blocks s /\
      q_aligned s' = q_aligned s + rounded /\
      (forall y, In y lx -> stable y) /\
      q_aligned_hwm s' = Z.max (q_aligned_hwm s) (q_aligned s') /\
      q_actual_hwm s' = q_actual_hwm s.
  Proof.
    intros HA HQ Hst Hreq Hr Hle Hmod Hsz.
    pose proof HQ as HQ0. destruct HQ.
    set (b := mkBlk (l1 ++ x :: l2) d p t) in *.
    pose proof (qi_seg b (or_introl eq_refl)) as Hseg. subst b. qs.
    pose proof (seg_lookup _ _ _ _ _ _ _ Hseg) as Hx.
    pose proof (qi_blk _ (or_introl eq_refl)) as Hb. pose proof Hb as Hb0. destruct Hb. qs.
    pose proof (whole_block _ _ _ _ bo_contig) as Hwh.
    pose proof bo_contig as Hcg. apply contig_app in Hcg as [Hc1 Hc2]. cbn [contig] in Hc2.
    destruct Hc2 as (Hxd & Hxp & Hc2).
    change (b_size (mkBlk (l1 ++ x :: l2) d p t)) with (csum (l1 ++ x :: l2)) in *.
    set (cs := csum (l1 ++ x :: l2)) in *.
    pose proof (qi_actual_b _ _ _ _ HA HQ0) as Bact.
    pose proof (qi_total_b _ _ _ _ HA HQ0) as Btot.
    pose proof (qi_relb_b _ _ _ _ HA HQ0) as Brelb.
    pose proof (qi_rel_b _ _ _ _ HQ0) as Brel.
    pose proof (qi_aligned_b _ _ _ _ HQ0) as Bal.
    pose proof ASP_M64 as HAM.
    pose proof (focus_perm l1 [x] l2 d p t B) as HF. cbn [app] in HF.
    set (R := rest l1 l2 B) in *.
    assert (Hdat : NoDup (k_data x :: map k_data R)).
    { pose proof (qi_cells_nodup_data _ _ _ _ HQ0) as HN.
      eapply Permutation_NoDup; [|exact HN]. apply (Permutation_map k_data HF). }
    assert (Hids : NoDup (k_id x :: map k_id R)).
    { eapply Permutation_NoDup; [|exact qi_nodup]. apply (Permutation_map k_id HF). }
    assert (HinR : forall y, In y R -> k_id y <> k_id x).
    { intros y Hy E. inv Hids. apply H1. rewrite <- E. now apply in_map. }
    assert (HRb : forall y, In y R -> 0 < k_id y < q_fresh s).
    { intros y Hy. apply qi_ids. eapply Permutation_in; [apply Permutation_sym, HF|]. simpl; auto. }
    assert (Hxb : 0 < k_id x < q_fresh s).
    { apply qi_ids. eapply Permutation_in; [apply Permutation_sym, HF|]. simpl; auto. }
    assert (Hpm : pm_insert (k_data x) (k_id x) (q_ptrmap s) = (k_data x, k_id x) :: q_ptrmap s).
    { apply pm_insert_fresh. intros Hin.
      eapply Permutation_in in Hin; [|apply (Permutation_map fst qi_pm)].
      cbn [app] in Hin. rewrite map_map in Hin.
      apply in_map_iff in Hin as (y & Ey & Hy). cbn in Ey. apply filter_In in Hy as [Hy Hu].
      eapply Permutation_in in Hy; [|exact HF]. destruct Hy as [<-|Hy].
      - unfold is_used in Hu. rewrite Hst in Hu. discriminate.
      - inv Hdat. apply H1. rewrite <- Ey. now apply in_map. }
    assert (Hup : Permutation (filter is_used (cells (mkBlk (l1 ++ x :: l2) d p t :: B))) (filter is_used R)).
    { rewrite (Permutation_filter is_used _ _ HF). cbn [filter]. unfold is_used at 1. rewrite Hst. reflexivity. }
    assert (Hfp : Permutation (filter is_free (cells (mkBlk (l1 ++ x :: l2) d p t :: B))) (filter is_free R)).
    { rewrite (Permutation_filter is_free _ _ HF). cbn [filter]. unfold is_free at 1. rewrite Hst. reflexivity. }
    assert (Hrelx : is_rel x = true) by (unfold is_rel; now rewrite Hst).
    assert (Hmerg := bo_merged). apply merged_app in Hmerg as (Hm1 & Hm2 & Hm3).
    cbn [merged hd_rel] in Hm2, Hm3. rewrite Hrelx in Hm2, Hm3. destruct Hm2 as [Hm2 Hm4].
    rewrite andb_true_l in Hm2. rewrite andb_true_r in Hm3.
    assert (Hcsb : cs <= q_actual s).
    { rewrite qi_actual. cbn [map sumZ]. change (b_size _) with cs.
      pose proof (sum_blocks_bound A B HA (fun b' Hb' => qi_blk b' (or_intror Hb'))) as HB.
      cbn [map] in qi_good. apply good_cons in qi_good as (_ & _ & Hg). specialize (HB Hg). lia. }
    assert (Hused : q_aligned s + rounded <= q_actual s).
    { rewrite qi_aligned, (sumZ_perm _ _ (Permutation_map k_size Hup)), qi_actual.
      rewrite <- sum_cells_blocks, (sumZ_perm _ _ (Permutation_map k_size HF)). cbn [map sumZ].
      assert (HN : forall y, In y R -> 0 <= k_size y).
      { intros y Hy. assert (cell_ok A y) as [Hp _]; [|lia].
        eapply cells_sizes_pos; [exact qi_blk|]. eapply Permutation_in; [apply Permutation_sym, HF|]. simpl; auto. }
      pose proof (sum_filter_le is_used k_size R HN). lia. }
    assert (Hdlo : 0 < d /\ d + cs <= ASP).
    { cbn [map] in qi_good. apply good_cons in qi_good as ((Hg1 & Hg2 & Hg3) & _). cbn [fst snd b_held b_ptr b_total] in Hg1, Hg2, Hg3.
      change (b_size _) with cs in bo_hi. lia. }
    assert (Hcs : cs = csum l1 + (k_size x + csum l2)) by (unfold cs; rewrite csum_app, csum_cons; reflexivity).
    pose proof (csum_nonneg _ _ Hc1) as Hn1. pose proof (csum_nonneg _ _ Hc2) as Hn2.
    unfold q_use_chunk. rewrite Hx. qs. rewrite Hst. cbn [st_free]. rewrite andb_true_r, Hwh.
    fold cs.
    set (whole := match l1, l2 with [], [] => true | _, _ => false end) in *.
    assert (Hrb : rel_blocks (mkBlk (l1 ++ x :: l2) d p t :: B) =
                  if whole then mkBlk (l1 ++ x :: l2) d p t :: rel_blocks B else rel_blocks B).
    { unfold rel_blocks. cbn [filter]. rewrite b_rel_mid, Hrelx. unfold whole. destruct l1, l2; reflexivity. }
    assert (HrB : 0 <= sumZ (map b_size (rel_blocks B))).
    { apply (sum_filter_le b_rel b_size B). intros b' Hb'. pose proof (b_size_pos _ _ (qi_blk b' (or_intror Hb'))). lia. }
    set (s1 := if whole then _ else s).
    assert (Es1 : s1 = set_blocks (set_bytes s (q_actual s) (sumZ (map b_size (rel_blocks B))) (q_actual_hwm s))
                       (q_total_blocks s) (Z.of_nat (length (rel_blocks B)))).
    { unfold s1. destruct s; qs. rewrite Hrb in qi_relb, qi_rel. destruct whole; qs.
      - cbn [map sumZ length] in qi_relb, qi_rel. change (b_size _) with cs in qi_rel.
        rewrite !w64_small by lia. f_equal; [f_equal|]; lia.
      - subst. reflexivity. }
    rewrite Es1. clear s1 Es1. qs.
    rewrite Hpm.
    assert (Hnr : forall lx, is_rel (hd x lx) = false ->
              rel_blocks (mkBlk (l1 ++ lx ++ l2) d p t :: B) = rel_blocks B \/ lx = []).
    { intros [|y lx] Hy; [auto|]. left. unfold rel_blocks. cbn [filter app]. rewrite b_rel_mid.
      cbn in Hy. destruct l1; [destruct (lx ++ l2)|]; rewrite ?Hy; reflexivity. }
    destruct (Z.eqb_spec rounded (k_size x)) as [Eq|Ne].
    - (* exact fit *)
      eexists _, [mk_used x (k_size x) req]. split; [reflexivity|].
      set (x' := mk_used x (k_size x) req).
      pose proof (focus_perm l1 [x'] l2 d p t B) as HF'. cbn [app] in HF'. fold R in HF'.
      assert (Hup' : Permutation (filter is_used (cells (mkBlk (l1 ++ x' :: l2) d p t :: B))) (x' :: filter is_used R)).
      { rewrite (Permutation_filter is_used _ _ HF'). reflexivity. }
      assert (Hfp' : Permutation (filter is_free (cells (mkBlk (l1 ++ x' :: l2) d p t :: B))) (filter is_free R)).
      { rewrite (Permutation_filter is_free _ _ HF'). reflexivity. }
      assert (Hcs' : b_size (mkBlk (l1 ++ x' :: l2) d p t) = cs).
      { unfold b_size. qs. unfold cs. now rewrite !csum_app, !csum_cons. }
      assert (Hfr : forall l, incl l R -> forall y, In y l -> fset (q_chunks s) (k_id x)
                (mkChunk (k_data x) (k_size x) cs false (last_id l1 0) (hd_id l2 0) (k_it x)) (k_id y) = q_chunks s (k_id y)).
      { intros l Hl y Hy. apply fset_ne. auto. }
      assert (Hi1 : incl l1 R). { intros y Hy; unfold R, rest; apply in_or_app; auto. }
      assert (Hi2 : incl l2 R). { intros y Hy; unfold R, rest; apply in_or_app; right; apply in_or_app; auto. }
      assert (HiB : forall b, In b B -> incl (b_cells b) R).
      { intros b Hbb y Hy; unfold R, rest; apply in_or_app; right; apply in_or_app; right. apply in_cells. eauto. }
      cbn [app].
      split; [|split; [|split; [|split; [|split; [|split; [|split]]]]]]; qs; auto.
      2:{ unfold uregs. rewrite (Permutation_map cell_alloc Hup'), (Permutation_map cell_alloc Hup). reflexivity. }
      2:{ rewrite w64_small; lia. }
      2:{ intros y [<-|[]]. right; eexists; reflexivity. }
      2:{ unfold zmax. match goal with |- context [?a <? ?b] => destruct (Z.ltb_spec a b) end; lia. }
      assert (Hrel' : rel_blocks (mkBlk (l1 ++ x' :: l2) d p t :: B) = rel_blocks B).
      { destruct (Hnr [x'] eq_refl) as [E|E]; [exact E|discriminate]. }
      constructor; qs.
      + intros b [<-|Hbb].
        * rewrite Hcs'. qs. apply seg_app in Hseg as [Hs1 Hs2]. cbn [seg] in Hs2. destruct Hs2 as [_ Hs2].
          apply seg_app. split; [|cbn [seg]; split].
          -- eapply seg_frame; [|exact Hs1]. apply Hfr, Hi1.
          -- cbn [k_id x' mk_used]. rewrite fset_eq. reflexivity.
          -- eapply seg_frame; [|exact Hs2]. apply Hfr, Hi2.
        * eapply seg_frame; [|apply qi_seg; simpl; auto]. apply Hfr, HiB, Hbb.
      + eapply Permutation_NoDup; [apply Permutation_sym, (Permutation_map k_id HF')|]. exact Hids.
      + intros y Hy. eapply Permutation_in in Hy; [|exact HF']. destruct Hy as [<-|Hy]; auto.
      + intros b [<-|Hbb]; [|apply qi_blk; simpl; auto]. constructor; qs.
        * intros E. destruct l1; discriminate.
        * apply contig_app. split; auto. cbn [contig]. auto.
        * intros y Hy. apply in_app_or in Hy as [Hy|[<-|Hy]].
          -- apply bo_cells, in_or_app; auto.
          -- destruct (bo_cells x ltac:(apply in_or_app; simpl; auto)) as (C1 & C2 & C3).
             unfold cell_ok, x', mk_used; qs. repeat split; auto; lia.
          -- apply bo_cells, in_or_app; simpl; auto.
        * apply merged_app. cbn [merged hd_rel]. replace (is_rel x') with false by reflexivity.
          rewrite andb_false_r. auto.
        * auto.
        * rewrite Hcs'. exact bo_hi.
        * rewrite Hcs'. exact bo_total.
        * exact bo_base.
      + rewrite qi_sm, (Permutation_map cell_entry Hfp), (Permutation_map cell_entry Hfp'). reflexivity.
      + auto.
      + auto.
      + auto.
      + cbn [app]. rewrite (Permutation_map cell_pm Hup'). cbn [map]. constructor.
        rewrite qi_pm. cbn [app]. now rewrite (Permutation_map cell_pm Hup).
      + intros b [<-|Hbb]; [|apply qi_base; simpl; auto]. qs. apply (qi_base _ (or_introl eq_refl)).
      + rewrite qi_actual. cbn [map sumZ]. now rewrite Hcs'.
      + rewrite qi_total. reflexivity.
      + now rewrite Hrel'.
      + now rewrite Hrel'.
      + rewrite (sumZ_perm _ _ (Permutation_map k_size Hup')). cbn [map sumZ].
        rewrite w64_small by lia. rewrite qi_aligned, (sumZ_perm _ _ (Permutation_map k_size Hup)).
        cbn [k_size x' mk_used]. lia.
      + exact qi_good.
      + auto.
      + rewrite w64_small by lia. unfold zmax. destruct (Z.ltb_spec (q_aligned_hwm s) (q_aligned s + rounded)); lia.
      + auto.
    - (* split *)
      set (x' := mk_used x rounded req).
      set (sp := mkCell (q_fresh s) (k_data x + rounded) (k_size x - rounded) SFree (q_fresh s + 1)).
      assert (Hw1 : w64 (k_size x - rounded) = k_size x - rounded) by (apply w64_small; lia).
      assert (Hw2 : w64 (k_data x + rounded) = k_data x + rounded) by (apply w64_small; lia).
      rewrite Hw1, Hw2.
      set (ch1 := mkChunk (k_data x) (k_size x) cs false (last_id l1 0) (hd_id l2 0) (k_it x)).
      set (ch2 := mkChunk (k_data x) rounded cs false (last_id l1 0) (q_fresh s) (k_it x)).
      set (spc := mkChunk (k_data x + rounded) (k_size x - rounded) cs true (k_id x) (hd_id l2 0) (q_fresh s + 1)).
      set (m1 := fset (fset (fset (q_chunks s) (k_id x) ch1) (k_id x) ch2) (q_fresh s) spc).
      assert (Hi1 : incl l1 R). { intros y Hy; unfold R, rest; apply in_or_app; auto. }
      assert (Hi2 : incl l2 R). { intros y Hy; unfold R, rest; apply in_or_app; right; apply in_or_app; auto. }
      assert (HiB : forall b, In b B -> incl (b_cells b) R).
      { intros b Hbb y Hy; unfold R, rest; apply in_or_app; right; apply in_or_app; right. apply in_cells. eauto. }
      assert (Hm1k : forall y, In y R -> m1 (k_id y) = q_chunks s (k_id y)).
      { intros y Hy. unfold m1. pose proof (HRb y Hy). pose proof (HinR y Hy). rewrite !fset_ne by lia. reflexivity. }
      assert (Hm1x : m1 (k_id x) = Some ch2).
      { unfold m1. rewrite fset_ne by lia. apply fset_eq. }
      assert (Hm1s : m1 (q_fresh s) = Some spc) by (unfold m1; apply fset_eq).
      pose proof Hseg as Hseg'. apply seg_app in Hseg' as [Hs1 Hs2]. cbn [seg hd_id] in Hs1, Hs2. destruct Hs2 as [_ Hs2].
      assert (HL2 : exists m2,
         (if hd_id l2 0 =? 0 then Some m1
          else match m1 (hd_id l2 0) with
               | None => None
               | Some n => Some (fset m1 (hd_id l2 0)
                   (mkChunk (c_data n) (c_size n) (c_csize n) (c_free n) (q_fresh s) (c_next n) (c_it n)))
               end) = Some m2 /\
         seg m2 cs (q_fresh s) l2 0 /\
         m2 (k_id x) = Some ch2 /\ m2 (q_fresh s) = Some spc /\
         (forall y, In y l1 \/ In y (cells B) -> m2 (k_id y) = q_chunks s (k_id y))).
      { destruct l2 as [|y l2].
        - cbn [hd_id]. rewrite Z.eqb_refl. exists m1. split; [reflexivity|]. split; [exact I|]. split; [auto|]. split; [auto|].
          intros y [Hy|Hy]; apply Hm1k; auto. unfold R, rest; apply in_or_app; right; apply in_or_app; auto.
        - cbn [hd_id]. assert (HyR : In y R) by (apply Hi2; simpl; auto).
          pose proof (HRb y HyR) as Hyb. destruct (Z.eqb_spec (k_id y) 0); [lia|].
          cbn [seg] in Hs2. destruct Hs2 as [Hy2 Hs2].
          rewrite (Hm1k y HyR), Hy2. eexists. split; [reflexivity|]. qs.
          assert (HnR : NoDup (map k_id (l1 ++ (y :: l2) ++ cells B))) by (inv Hids; assumption).
          assert (Hyne : forall z, In z (l1 ++ l2 ++ cells B) -> k_id z <> k_id y).
          { intros z Hz E. rewrite map_app in HnR. cbn [map app] in HnR. apply NoDup_remove_2 in HnR.
            apply HnR. rewrite <- E, <- map_app. now apply in_map. }
          split; [|split; [|split]].
          + cbn [seg]. split; [apply fset_eq|]. eapply seg_frame; [|exact Hs2].
            intros z Hz. rewrite fset_ne; [apply Hm1k, Hi2; simpl; auto|]. apply Hyne.
            apply in_or_app; right; apply in_or_app; auto.
          + rewrite fset_ne; auto. apply not_eq_sym, HinR; auto.
          + rewrite fset_ne; auto. lia.
          + intros z Hz. rewrite fset_ne; [apply Hm1k|apply Hyne].
            * destruct Hz; [apply Hi1; auto|]. unfold R, rest; apply in_or_app; right; apply in_or_app; auto.
            * destruct Hz; apply in_or_app; [auto|right; apply in_or_app; auto]. }
      destruct HL2 as (m2 & Em2 & Hsl2 & Hm2x & Hm2s & Hm2k). rewrite Em2.
      eexists _, [x'; sp]. split; [reflexivity|].
      pose proof (focus_perm l1 [x'; sp] l2 d p t B) as HF'. cbn [app] in HF'. fold R in HF'.
      assert (Hup' : Permutation (filter is_used (cells (mkBlk (l1 ++ x' :: sp :: l2) d p t :: B))) (x' :: filter is_used R)).
      { rewrite (Permutation_filter is_used _ _ HF'). reflexivity. }
      assert (Hfp' : Permutation (filter is_free (cells (mkBlk (l1 ++ x' :: sp :: l2) d p t :: B))) (sp :: filter is_free R)).
      { rewrite (Permutation_filter is_free _ _ HF'). reflexivity. }
      assert (Hcs' : b_size (mkBlk (l1 ++ x' :: sp :: l2) d p t) = cs).
      { unfold b_size. qs. unfold cs. rewrite !csum_app, !csum_cons. cbn [x' sp mk_used k_size]. lia. }
      assert (Hrel' : rel_blocks (mkBlk (l1 ++ x' :: sp :: l2) d p t :: B) = rel_blocks B).
      { destruct (Hnr [x'; sp] eq_refl) as [E|E]; [exact E|discriminate]. }
      cbn [app].
      split; [|split; [|split; [|split; [|split; [|split; [|split]]]]]]; qs; auto.
      2:{ unfold uregs. rewrite (Permutation_map cell_alloc Hup'), (Permutation_map cell_alloc Hup). reflexivity. }
      2:{ rewrite w64_small; lia. }
      2:{ intros y [<-|[<-|[]]]; [right; eexists; reflexivity|left; reflexivity]. }
      2:{ unfold zmax. match goal with |- context [?a <? ?b] => destruct (Z.ltb_spec a b) end; lia. }
      constructor; qs.
      + intros b [<-|Hbb].
        * rewrite Hcs'. qs. apply seg_app. split; [|cbn [seg]; split; [|split]].
          -- eapply seg_frame; [|exact Hs1]. auto.
          -- cbn [k_id x' mk_used]. rewrite Hm2x. reflexivity.
          -- cbn [k_id sp]. rewrite Hm2s. reflexivity.
          -- exact Hsl2.
        * eapply seg_frame; [|apply qi_seg; simpl; auto].
          intros y Hy. apply Hm2k. right. apply in_cells; eauto.
      + eapply Permutation_NoDup; [apply Permutation_sym, (Permutation_map k_id HF')|].
        cbn [map x' sp mk_used k_id]. inv Hids. constructor; [|constructor; auto].
        * intros [E|Hin]; [lia|contradiction].
        * intros Hin. apply in_map_iff in Hin as (y & E & Hy). specialize (HRb y Hy). lia.
      + intros y Hy. eapply Permutation_in in Hy; [|exact HF']. destruct Hy as [<-|[<-|Hy]].
        * cbn [x' mk_used k_id]. lia.
        * cbn [sp k_id]. lia.
        * specialize (HRb y Hy). lia.
      + intros b [<-|Hbb]; [|apply qi_blk; simpl; auto]. constructor; qs.
        * intros E. destruct l1; discriminate.
        * apply contig_app. split; auto. cbn [contig x' sp mk_used k_data k_size].
          repeat split; auto; try lia. replace (d + csum l1 + rounded + (k_size x - rounded)) with (d + csum l1 + k_size x) by lia. auto.
        * destruct (bo_cells x ltac:(apply in_or_app; simpl; auto)) as (C1 & C2 & C3).
          intros y Hy. apply in_app_or in Hy as [Hy|[<-|[<-|Hy]]].
          -- apply bo_cells, in_or_app; auto.
          -- unfold cell_ok, x', mk_used; qs. repeat split; auto; lia.
          -- unfold cell_ok, sp; qs. repeat split; auto; [lia|]. apply mod0_add; auto.
          -- apply bo_cells, in_or_app; simpl; auto.
        * apply merged_app. cbn [merged hd_rel]. replace (is_rel x') with false by reflexivity.
          rewrite andb_false_r, Hm2. rewrite andb_false_r. auto.
        * auto.
        * rewrite Hcs'. exact bo_hi.
        * rewrite Hcs'. exact bo_total.
        * exact bo_base.
      + rewrite sm_insert_perm, qi_sm, (Permutation_map cell_entry Hfp), (Permutation_map cell_entry Hfp'). reflexivity.
      + apply sm_insert_sorted; auto.
      + eapply Permutation_NoDup; [apply Permutation_sym, (Permutation_map e_tok (sm_insert_perm _ _))|].
        cbn [map]. constructor; auto. intros Hin. apply in_map_iff in Hin as (e & Ee & He).
        specialize (qi_tokb e He). unfold e_tok in Ee at 2; cbn in Ee. lia.
      + intros e He. eapply Permutation_in in He; [|apply sm_insert_perm].
        destruct He as [<-|He]; [unfold e_tok; cbn; lia|]. specialize (qi_tokb e He). lia.
      + cbn [app]. rewrite (Permutation_map cell_pm Hup'). cbn [map]. constructor.
        rewrite qi_pm. cbn [app]. now rewrite (Permutation_map cell_pm Hup).
      + intros b [<-|Hbb]; [|apply qi_base; simpl; auto]. qs. apply (qi_base _ (or_introl eq_refl)).
      + rewrite qi_actual. cbn [map sumZ]. now rewrite Hcs'.
      + rewrite qi_total. reflexivity.
      + now rewrite Hrel'.
      + now rewrite Hrel'.
      + rewrite (sumZ_perm _ _ (Permutation_map k_size Hup')). cbn [map sumZ].
        rewrite w64_small by lia. rewrite qi_aligned, (sumZ_perm _ _ (Permutation_map k_size Hup)).
        cbn [k_size x' mk_used]. lia.
      + exact qi_good.
      + lia.
      + rewrite w64_small by lia. unfold zmax. destruct (Z.ltb_spec (q_aligned_hwm s) (q_aligned s + rounded)); lia.
      + auto.
  Qed.
End UseChunk.
