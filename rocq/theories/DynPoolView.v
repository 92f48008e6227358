(** A DynamicPoolList reports what a QuickPool with the same fragments would report. *)
From Verif Require Import Base BaseFacts AlignedModel AlignedFacts QuickPoolModel QuickPoolInv QuickPoolFacts QuickPoolOps QuickPoolFree
  QuickPoolMain QuickPoolSpec QuickPoolThms DynPoolModel DynPoolInv DynPoolFacts DynPoolOps DynPoolFree DynPoolMain.

(** Chunk records for the fragments of a block. *)
Fixpoint seg_map (cs pv : Z) (l : list cell) (m : fmap chunk) : fmap chunk :=
  match l with
  | [] => m
  | x :: t => fset (seg_map cs (k_id x) t m) (k_id x) (cell_chunk x cs pv (hd_id t 0))
  end.

Lemma seg_map_other cs l : forall pv m k, ~ In k (map k_id l) -> seg_map cs pv l m k = m k.
Proof.
  induction l as [|x l IH]; intros pv m k H; [reflexivity|]. cbn [seg_map map] in *.
  rewrite fset_ne by (intros E; apply H; left; auto). apply IH. intros Hi. apply H. now right.
Qed.

Lemma seg_ext m m' cs l : forall pv, (forall x, In x l -> m' (k_id x) = m (k_id x)) -> seg m cs pv l 0 -> seg m' cs pv l 0.
Proof.
  induction l as [|x l IH]; intros pv He H; [exact I|]. cbn [seg] in *. destruct H as [H1 H2]. split.
  - rewrite He by (left; auto). exact H1.
  - apply IH; auto. intros y Hy. apply He. now right.
Qed.

Lemma seg_map_ok cs l : forall pv m, NoDup (map k_id l) -> seg (seg_map cs pv l m) cs pv l 0.
Proof.
  induction l as [|x l IH]; intros pv m H; [exact I|]. cbn [seg_map seg map] in *. apply NoDup_cons_iff in H as [H1 H2]. split.
  - apply fset_eq.
  - eapply seg_ext; [|apply (IH (k_id x) m H2)]. intros y Hy. apply fset_ne. intros E. apply H1. rewrite <- E.
    now apply in_map.
Qed.

Lemma sumZ_cons x l : sumZ (x :: l) = x + sumZ l.
Proof. reflexivity. Qed.
Lemma filter_map_swap {X Y} (f : X -> Y) (g : Y -> bool) l : filter g (map f l) = map f (filter (fun x => g (f x)) l).
Proof. induction l as [|x l IH]; [reflexivity|]. cbn [map filter]. rewrite IH. now destruct (g (f x)). Qed.

Lemma NoDup_app_l {X} (l1 l2 : list X) : NoDup (l1 ++ l2) -> NoDup l1 /\ NoDup l2.
Proof.
  induction l1 as [|x l1 IH]; cbn [app]; intros Hn; [split; [constructor|auto]|]. apply NoDup_cons_iff in Hn as [H1 H2].
  destruct (IH H2). split; auto. constructor; auto. intros Hi. apply H1, in_or_app. now left.
Qed.

Definition blk_map (b : blk) (m : fmap chunk) : fmap chunk := seg_map (b_size b) 0 (b_cells b) m.
Definition blks_map (B : list blk) : fmap chunk := fold_right blk_map fempty B.

Lemma blks_map_ok B : NoDup (map k_id (cells B)) -> forall b, In b B -> seg (blks_map B) (b_size b) 0 (b_cells b) 0.
Proof.
  induction B as [|b0 B IH]; intros H b Hb; [contradiction|].
  unfold cells in H. cbn [flat_map] in H. fold (cells B) in H. rewrite map_app in H. cbn [blks_map fold_right].
  destruct Hb as [<-|Hb].
  - apply seg_map_ok. now apply NoDup_app_l in H.
  - eapply seg_ext; [|apply IH; auto; now apply NoDup_app_l in H].
    intros x Hx. apply seg_map_other. intros Hi.
    assert (Hx' : In (k_id x) (map k_id (cells B))) by (apply in_map, in_cells; eauto).
    apply in_split in Hi as (u & v & E). rewrite E in H. rewrite <- app_assoc in H. cbn [app] in H.
    apply NoDup_remove_2 in H. apply H. apply in_or_app. right. apply in_or_app. now right.
Qed.

Definition smap (l : list sm_entry) : list sm_entry := fold_right sm_insert [] l.
Lemma smap_perm l : Permutation (smap l) l.
Proof. induction l as [|e l IH]; [constructor|]. cbn [smap fold_right]. rewrite sm_insert_perm. now constructor. Qed.
Lemma smap_sorted l : sorted_sm (smap l).
Proof. induction l as [|e l IH]; [exact I|]. cbn [smap fold_right]. now apply sm_insert_sorted. Qed.

Definition qof (s : dpool) (B : list blk) : qpool :=
  mkQ (blks_map B) (map cell_pm (filter is_used (cells B))) (smap (map cell_entry (filter is_free (cells B))))
      (d_base s) (ASP + 1) (d_total_blocks s) (d_rel_blocks s) (d_aligned s) (d_aligned_hwm s) (d_actual s)
      (sumZ (map b_size (rel_blocks B))) (d_actual_hwm s).

Section View.
  Context (A : Z) (HA : 0 < A) (s : dpool) (B : list blk).
  Hypothesis H : DI A s B.

  Lemma di_id_map l : incl l (cells B) -> map k_id l = map k_data l.
  Proof. intros Hi. apply map_ext_in. intros x Hx. apply (di_ids _ _ _ H). now apply Hi. Qed.

  Lemma QI_qof : QI A (qof s B) B [].
  Proof.
    assert (Hnd : NoDup (map k_id (cells B))).
    { rewrite di_id_map by apply incl_refl. eapply di_nodup; eauto. }
    constructor; cbn [qof q_chunks q_ptrmap q_sizemap q_base q_fresh q_total_blocks q_rel_blocks q_aligned q_aligned_hwm
                      q_actual q_rel_bytes q_actual_hwm].
    - now apply blks_map_ok.
    - exact Hnd.
    - intros x Hx. destruct (di_ids _ _ _ H x Hx) as [-> _]. destruct (di_cell A s B H x Hx) as ((Hp & _) & H1 & H2). lia.
    - apply (di_blk _ _ _ H).
    - apply smap_perm.
    - apply smap_sorted.
    - eapply Permutation_NoDup; [apply Permutation_map, Permutation_sym, smap_perm|]. rewrite map_map.
      rewrite (map_ext_in _ k_data).
      + pose proof (di_nodup A s B H) as Hd. revert Hd. generalize (cells B). intros l. induction l as [|x l IH]; [auto|].
        cbn [map filter]. intros Hd. apply NoDup_cons_iff in Hd as [Hd1 Hd2]. destruct (is_free x); [|auto].
        cbn [map]. apply NoDup_cons_iff. split; auto. intros Hi. apply Hd1. apply in_map_iff in Hi as (y & <- & Hy).
        apply filter_In in Hy as [Hy _]. now apply in_map.
      + intros x Hx. apply filter_In in Hx as [Hx _]. unfold e_tok, cell_entry. cbn [snd]. apply (di_ids _ _ _ H x Hx).
    - intros e He. apply (Permutation_in _ (smap_perm _)) in He. apply in_map_iff in He as (x & <- & Hx).
      apply filter_In in Hx as [Hx _]. unfold e_tok, cell_entry. cbn [snd].
      destruct (di_ids _ _ _ H x Hx) as [_ ->]. destruct (di_cell A s B H x Hx) as ((Hp & _) & H1 & H2). lia.
    - cbn [app]. apply Permutation_refl.
    - apply (di_base _ _ _ H).
    - apply (di_actual _ _ _ H).
    - apply (di_total _ _ _ H).
    - apply (di_relb _ _ _ H).
    - reflexivity.
    - apply (di_aligned _ _ _ H).
    - apply (di_good _ _ _ H).
    - unfold ASP. lia.
    - apply (di_hwm _ _ _ H).
    - apply (di_ahwm _ _ _ H).
  Qed.

  Lemma whole_sum B0 : incl B0 B ->
    sumZ (map d_bsize (filter d_whole (map dblk (filter freep (dall B0))))) = sumZ (map b_size (rel_blocks B0)).
  Proof.
    induction B0 as [|b B0 IH]; intros Hi; [reflexivity|].
    rewrite dall_cons, filter_app, map_app, filter_app, map_app, sumZ_app, IH by (intros x Hx; apply Hi; now right).
    unfold rel_blocks. cbn [filter].
    assert (Hb : In b B) by (apply Hi; now left).
    pose proof (di_blk _ _ _ H b Hb) as Hok.
    assert (E : sumZ (map d_bsize (filter d_whole (map dblk (filter freep (tag (b_size b) (b_cells b)))))) =
                if b_rel b then b_size b else 0).
    { assert (Hst : forall x, In x (b_cells b) -> stable x).
      { intros x Hx. apply (di_stable _ _ _ H). apply in_cells. eauto. }
      pose proof (bo_cells _ _ Hok) as Hc. pose proof (bo_contig _ _ Hok) as Hcg. unfold b_rel, b_size.
      destruct (b_cells b) as [|x t]; [reflexivity|]. cbn [tag filter].
      assert (Ht : filter d_whole (map dblk (filter freep (map (fun y => (y, 0)) t))) = []).
      { assert (Hp : forall y, In y t -> 0 < k_size y) by (intros y Hy; apply (Hc y); now right).
        clear - Hp. induction t as [|y t IH]; [reflexivity|]. cbn [map filter].
        assert (IH' : filter d_whole (map dblk (filter freep (map (fun y => (y, 0)) t))) = []) by (apply IH; intros; apply Hp; now right).
        destruct (freep (y, 0)); [|exact IH']. cbn [map filter]. unfold d_whole at 1. cbn [dblk d_size d_bsize fst snd].
        destruct (Z.eqb_spec (k_size y) 0); [|exact IH']. specialize (Hp y (or_introl eq_refl)). lia. }
      assert (Hx : stable x) by (apply Hst; now left).
      assert (Hf : freep (x, csum (x :: t)) = is_rel x).
      { unfold freep. cbn [fst]. unfold is_free, is_rel. destruct Hx as [->|(r & ->)]; reflexivity. }
      rewrite Hf. pose proof (dwhole_focus (b_data b) [] x t Hcg) as Hw. cbn [app nxt] in Hw.
      destruct (is_rel x).
      - cbn [map filter]. rewrite Hw. destruct t as [|y t].
        + cbn. unfold csum. cbn. lia.
        + rewrite Ht. reflexivity.
      - rewrite Ht. destruct t; reflexivity. }
    rewrite E. destruct (b_rel b); cbn [map sumZ fold_right]; [|reflexivity]. reflexivity.
  Qed.

  Lemma releasable_fold l : (forall b, In b l -> 0 <= d_bsize b \/ d_whole b = false) -> forall acc,
    0 <= acc -> acc + sumZ (map d_bsize (filter d_whole l)) < M64 ->
    fold_left (fun acc b => if d_whole b then w64 (acc + d_bsize b) else acc) l acc = acc + sumZ (map d_bsize (filter d_whole l)).
  Proof.
    induction l as [|b l IH]; intros Hb acc Ha Hs; cbn [fold_left filter map]; [cbn; lia|].
    assert (Hl : forall b, In b l -> 0 <= d_bsize b \/ d_whole b = false) by (intros; apply Hb; now right).
    assert (Hnn : 0 <= sumZ (map d_bsize (filter d_whole l))).
    { clear - Hl. induction l as [|c l IH]; [cbn; lia|]. cbn [filter].
      assert (0 <= sumZ (map d_bsize (filter d_whole l))) by (apply IH; intros; apply Hl; now right).
      destruct (d_whole c) eqn:E; [|assumption]. cbn [map]. rewrite sumZ_cons.
      destruct (Hl c (or_introl eq_refl)); [lia|congruence]. }
    cbn [filter] in Hs. destruct (d_whole b) eqn:E; [|now apply IH].
    cbn [map] in *. rewrite sumZ_cons in *. destruct (Hb b (or_introl eq_refl)) as [Hp|]; [|congruence].
    rewrite w64_small by lia. rewrite IH; auto; lia.
  Qed.

  Lemma d_releasable_eq : d_releasable_size (d_free s) = sumZ (map b_size (rel_blocks B)).
  Proof.
    assert (E : sumZ (map d_bsize (filter d_whole (d_free s))) = sumZ (map b_size (rel_blocks B))).
    { rewrite <- (whole_sum B (incl_refl _)). apply sumZ_perm, Permutation_map, Permutation_filter, (di_free _ _ _ H). }
    unfold d_releasable_size. rewrite releasable_fold; [lia| |lia|].
    - intros c Hc. apply (d_free_in A s B H) in Hc as (x & z & Hx & Hs & ->).
      destruct (d_whole (dblk (x, z))) eqn:Ew; auto. left. unfold d_whole in Ew. cbn [dblk d_size d_bsize fst snd] in *.
      apply Z.eqb_eq in Ew. destruct (di_cell A s B H x (dall_in _ _ _ Hx)) as ((Hp & _) & _). lia.
    - rewrite E. pose proof (qi_rel _ _ _ _ QI_qof) as Er. cbn [qof q_rel_bytes] in Er.
      pose proof (di_actual_b A s B HA H) as Hb. rewrite (di_actual _ _ _ H) in Hb.
      assert (sumZ (map b_size (rel_blocks B)) <= sumZ (map b_size B)).
      { apply sum_filter_le. intros b Hbb. pose proof (di_blk _ _ _ H b Hbb) as Hok.
        unfold b_size. pose proof (bo_cells _ _ Hok) as Hc. unfold csum. clear - Hc. induction (b_cells b) as [|x l IH]; [cbn; lia|].
        cbn [map]. rewrite sumZ_cons. destruct (Hc x (or_introl eq_refl)) as (Hp & _).
        assert (0 <= sumZ (map k_size l)) by (apply IH; intros; apply Hc; now right). lia. }
      unfold ASP, M64 in *. lia.
  Qed.

  Lemma largest_fold l : forall acc, acc <= fold_left (fun acc b => if acc <? d_size b then d_size b else acc) l acc /\
    (forall b, In b l -> d_size b <= fold_left (fun acc b => if acc <? d_size b then d_size b else acc) l acc) /\
    (fold_left (fun acc b => if acc <? d_size b then d_size b else acc) l acc = acc \/
     exists b, In b l /\ d_size b = fold_left (fun acc b => if acc <? d_size b then d_size b else acc) l acc).
  Proof.
    induction l as [|c l IH]; intros acc; cbn [fold_left]; [split; [lia|split; [intros ? []|auto]]|].
    destruct (IH (if acc <? d_size c then d_size c else acc)) as (H1 & H2 & H3). destruct (Z.ltb_spec acc (d_size c)).
    - split; [lia|]. split; [intros b [<-|Hb]; auto|]. right. destruct H3 as [E|(b & Hb & E)]; [exists c; split; [now left|auto]|].
      exists b. split; [now right|auto].
    - split; [lia|]. split; [intros b [<-|Hb]; auto; lia|]. destruct H3 as [E|(b & Hb & E)]; [now left|]. right. exists b. split; [now right|auto].
  Qed.

  Lemma d_largest_eq : d_largest (d_free s) = largest_key (q_sizemap (qof s B)).
  Proof.
    destruct (largest_key_spec _ (qi_sorted _ _ _ _ QI_qof)) as (K1 & K2 & K3).
    pose proof (qi_sm _ _ _ _ QI_qof) as Hsm.
    destruct (largest_fold (d_free s) 0) as (L1 & L2 & L3). fold (d_largest (d_free s)) in *.
    assert (Hpos : forall e, In e (q_sizemap (qof s B)) -> 0 < e_size e /\ exists b, In b (d_free s) /\ d_size b = e_size e).
    { intros e He. apply (Permutation_in _ Hsm) in He. apply in_map_iff in He as (x & <- & Hx). apply filter_In in Hx as [Hx Hf].
      unfold e_size, cell_entry. cbn [fst]. split; [apply (di_cell A s B H x Hx)|].
      destruct (cells_dall _ _ Hx) as (z & Hz). exists (dblk (x, z)). split; [|reflexivity]. apply (in_d_free A s B H); auto.
      unfold is_free in Hf. destruct (k_st x); auto; discriminate. }
    assert (Hinv : forall b, In b (d_free s) -> exists e, In e (q_sizemap (qof s B)) /\ e_size e = d_size b).
    { intros b Hb. apply (d_free_in A s B H) in Hb as (x & z & Hx & Hs & ->). exists (cell_entry x). split; [|reflexivity].
      eapply Permutation_in; [apply Permutation_sym, Hsm|]. apply in_map, filter_In. split; [eapply dall_in; eauto|].
      unfold is_free. now rewrite Hs. }
    destruct (q_sizemap (qof s B)) as [|e0 sm] eqn:Esm.
    - rewrite K3 by reflexivity. destruct L3 as [E|(b & Hb & E)]; [auto|]. destruct (Hinv b Hb) as (e & [] & _).
    - destruct K2 as (e & He & Ee); [discriminate|]. destruct (Hpos e He) as (Hp & b & Hb & Eb).
      specialize (L2 b Hb). destruct L3 as [E|(c & Hc & Ec)]; [lia|]. destruct (Hinv c Hc) as (e' & He' & Ee').
      specialize (K1 e' He'). lia.
  Qed.

  Lemma d_view_eq : d_view s = q_view (qof s B).
  Proof.
    unfold d_view, q_view. rewrite d_largest_eq, d_releasable_eq. f_equal. f_equal. f_equal.
    - cbn [qof q_ptrmap]. rewrite (Permutation_length (di_used _ _ _ H)), !map_length, <- dall_fst, filter_map_swap, map_length.
      reflexivity.
    - cbn [qof q_sizemap]. rewrite (Permutation_length (di_free _ _ _ H)), (Permutation_length (smap_perm _)), !map_length,
        <- dall_fst, filter_map_swap, map_length. reflexivity.
  Qed.
End View.
