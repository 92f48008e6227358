(** Structural lemmas about the QuickPool representation. *)
From Verif Require Import Base BaseFacts AlignedModel AlignedFacts QuickPoolModel QuickPoolInv.

(** ** Linked segments *)

Lemma hd_id_app l1 l2 d : hd_id (l1 ++ l2) d = hd_id l1 (hd_id l2 d).
Proof. destruct l1; reflexivity. Qed.

Lemma last_id_app l1 l2 d : last_id (l1 ++ l2) d = last_id l2 (last_id l1 d).
Proof. revert d. induction l1 as [|x l1 IH]; simpl; auto. Qed.

Lemma seg_app m cs pv l1 l2 nx :
  seg m cs pv (l1 ++ l2) nx <->
  seg m cs pv l1 (hd_id l2 nx) /\ seg m cs (last_id l1 pv) l2 nx.
Proof.
  revert pv. induction l1 as [|x l1 IH]; intros pv; simpl.
  - tauto.
  - rewrite IH, hd_id_app. tauto.
Qed.

Lemma seg_frame m m' cs pv l nx :
  (forall x, In x l -> m' (k_id x) = m (k_id x)) ->
  seg m cs pv l nx -> seg m' cs pv l nx.
Proof.
  revert pv. induction l as [|x l IH]; intros pv H; simpl; auto.
  intros [H1 H2]. split.
  - rewrite H; simpl; auto.
  - apply IH; auto. intros y Hy. apply H. simpl; auto.
Qed.

(** Changing the forward pointer out of a segment. *)
Lemma seg_lookup m cs pv l1 x l2 nx :
  seg m cs pv (l1 ++ x :: l2) nx ->
  m (k_id x) = Some (cell_chunk x cs (last_id l1 pv) (hd_id l2 nx)).
Proof. intros H. apply seg_app in H as [_ H]. simpl in H. tauto. Qed.

(** ** Adjacency *)

Lemma csum_app l1 l2 : csum (l1 ++ l2) = csum l1 + csum l2.
Proof. unfold csum. now rewrite map_app, sumZ_app. Qed.

Lemma csum_cons x l : csum (x :: l) = k_size x + csum l.
Proof. reflexivity. Qed.

Lemma contig_app a l1 l2 :
  contig a (l1 ++ l2) <-> contig a l1 /\ contig (a + csum l1) l2.
Proof.
  revert a. induction l1 as [|x l1 IH]; intros a.
  - simpl. rewrite Z.add_0_r. tauto.
  - cbn [app contig]. rewrite csum_cons, IH, Z.add_assoc. tauto.
Qed.

Lemma contig_pos a l : contig a l -> forall x, In x l -> 0 < k_size x.
Proof.
  revert a. induction l as [|y l IH]; simpl; [tauto|].
  intros a (H1 & H2 & H3) x [<-|Hx]; eauto.
Qed.

Lemma csum_nonneg a l : contig a l -> 0 <= csum l.
Proof.
  intros H. unfold csum. apply sumZ_nonneg. intros z Hz.
  apply in_map_iff in Hz as (x & <- & Hx). pose proof (contig_pos a l H x Hx). lia.
Qed.

Lemma contig_inside a l x :
  contig a l -> In x l -> inside (cell_region x) (a, csum l).
Proof.
  revert a. induction l as [|y l IH]; simpl; [tauto|].
  intros a (H1 & H2 & H3) [<-|Hx]; unfold inside, cell_region; simpl; rewrite csum_cons.
  - pose proof (csum_nonneg _ _ H3). lia.
  - specialize (IH _ H3 Hx). unfold inside, cell_region in IH; simpl in IH. lia.
Qed.

Lemma contig_disj a l : contig a l -> pairwise disj (map cell_region l).
Proof.
  revert a. induction l as [|y l IH]; simpl; auto.
  intros a (H1 & H2 & H3). split; eauto.
  intros z Hz. apply in_map_iff in Hz as (x & <- & Hx).
  pose proof (contig_inside _ _ _ H3 Hx) as Hi. unfold inside, disj, cell_region in *; simpl in *. lia.
Qed.

Lemma hd_rel_app l1 l2 : hd_rel (l1 ++ l2) = match l1 with [] => hd_rel l2 | x :: _ => is_rel x end.
Proof. destruct l1; reflexivity. Qed.

Lemma last_rel_app l1 l2 d : last_rel (l1 ++ l2) d = last_rel l2 (last_rel l1 d).
Proof. revert d. induction l1 as [|x l1 IH]; simpl; auto. Qed.

Lemma merged_app l1 l2 :
  merged (l1 ++ l2) <->
  merged l1 /\ merged l2 /\ last_rel l1 false && hd_rel l2 = false.
Proof.
  induction l1 as [|x l1 IH].
  - simpl. tauto.
  - cbn [app merged]. rewrite IH, hd_rel_app. destruct l1 as [|y l1].
    + simpl. destruct (is_rel x), (hd_rel l2); tauto.
    + cbn [last_rel hd_rel]. tauto.
Qed.

(** ** The size map *)

Lemma sm_erase_in l e :
  NoDup (map e_tok l) -> In e l ->
  exists l', sm_erase (e_tok e) l = Some l' /\ Permutation l (e :: l').
Proof.
  induction l as [|x l IH]; simpl; [tauto|].
  intros Hnd Hin. inversion Hnd as [|? ? Hni Hnd']; subst.
  destruct (Z.eqb_spec (e_tok x) (e_tok e)) as [E|E].
  - destruct Hin as [->|Hin]; [eauto|].
    exfalso. apply Hni. rewrite E. now apply in_map.
  - destruct Hin as [->|Hin]; [congruence|].
    destruct (IH Hnd' Hin) as (l' & -> & HP). exists (x :: l'). split; auto.
    rewrite HP. apply perm_swap.
Qed.

Lemma sm_erase_sorted l tok l' :
  sm_erase tok l = Some l' -> sorted_sm l -> sorted_sm l' /\ incl l' l.
Proof.
  revert l'. induction l as [|x l IH]; simpl; [discriminate|].
  intros l' H [H1 H2]. destruct (e_tok x =? tok).
  - inversion H; subst. split; auto. intros y Hy; simpl; auto.
  - destruct (sm_erase tok l) as [l0|] eqn:E; simpl in H; [|discriminate].
    inversion H; subst. destruct (IH l0 eq_refl H2) as [Hs Hi]. simpl. split.
    + split; auto.
    + intros y [<-|Hy]; simpl; auto.
Qed.

Lemma sm_insert_perm e l : Permutation (sm_insert e l) (e :: l).
Proof.
  induction l as [|x l IH]; simpl; auto.
  destruct (e_size e <? e_size x); auto. rewrite IH. apply perm_swap.
Qed.

Lemma sm_insert_sorted e l : sorted_sm l -> sorted_sm (sm_insert e l).
Proof.
  induction l as [|x l IH]; simpl.
  - intros _. split; simpl; tauto.
  - intros [H1 H2]. destruct (Z.ltb_spec (e_size e) (e_size x)); simpl.
    + split; [|split; auto]. intros y [<-|Hy]; [lia|]. specialize (H1 y Hy). lia.
    + split; auto. intros y Hy.
      apply (Permutation_in _ (sm_insert_perm e l)) in Hy as [<-|Hy]; auto.
Qed.

Lemma sm_lower_bound_some key l e :
  sm_lower_bound key l = Some e -> In e l /\ key <= e_size e.
Proof.
  induction l as [|x l IH]; simpl; [discriminate|].
  destruct (Z.leb_spec key (e_size x)).
  - intros E; inversion E; subst; auto.
  - intros E. destruct (IH E); auto.
Qed.

Lemma sm_lower_bound_least key l e :
  sorted_sm l -> sm_lower_bound key l = Some e ->
  forall e', In e' l -> key <= e_size e' -> e_size e <= e_size e'.
Proof.
  induction l as [|x l IH]; simpl; [discriminate|].
  intros [H1 H2] E e' He' Hk. destruct (Z.leb_spec key (e_size x)).
  - inversion E; subst. destruct He' as [<-|He']; [lia|]. auto.
  - destruct He' as [<-|He']; [lia|]. auto.
Qed.

Lemma sm_lower_bound_none key l :
  sm_lower_bound key l = None -> forall e, In e l -> e_size e < key.
Proof.
  induction l as [|x l IH]; simpl; [tauto|].
  destruct (Z.leb_spec key (e_size x)); [discriminate|].
  intros E e [<-|He]; auto.
Qed.

(** ** The pointer map *)

Lemma pm_find_in l p c :
  NoDup (map fst l) -> In (p, c) l -> pm_find p l = Some c.
Proof.
  induction l as [|[k d] l IH]; simpl; [tauto|].
  intros Hnd Hin. inversion Hnd as [|? ? Hni Hnd']; subst.
  destruct (Z.eqb_spec k p) as [->|E].
  - destruct Hin as [Hin|Hin]; [congruence|].
    exfalso. apply Hni. change p with (fst (p, c)). now apply in_map.
  - destruct Hin as [Hin|Hin]; [congruence|]. auto.
Qed.

Lemma pm_find_none l p : ~ In p (map fst l) -> pm_find p l = None.
Proof.
  induction l as [|[k d] l IH]; simpl; auto.
  intros H. destruct (Z.eqb_spec k p); [tauto|]. auto.
Qed.

Lemma pm_find_some_in l p c : pm_find p l = Some c -> In (p, c) l.
Proof.
  induction l as [|[k d] l IH]; simpl; [discriminate|].
  destruct (Z.eqb_spec k p) as [->|E]; [intros H; inversion H; auto|auto].
Qed.

Lemma pm_erase_notin l p : ~ In p (map fst l) -> pm_erase p l = l.
Proof.
  induction l as [|[k d] l IH]; simpl; auto.
  intros H. destruct (Z.eqb_spec k p); simpl; [tauto|]. f_equal. apply IH. tauto.
Qed.

Lemma pm_erase_perm l p c l' :
  Permutation l ((p, c) :: l') -> ~ In p (map fst l') -> Permutation (pm_erase p l) l'.
Proof.
  intros HP Hni. unfold pm_erase.
  rewrite (Permutation_filter _ _ _ HP). simpl. rewrite Z.eqb_refl. simpl.
  fold (pm_erase p l'). now rewrite pm_erase_notin.
Qed.

(** ** Fragments of all blocks are disjoint *)

Lemma cells_cons b B : cells (b :: B) = b_cells b ++ cells B.
Proof. reflexivity. Qed.

Lemma in_cells x B : In x (cells B) <-> exists b, In b B /\ In x (b_cells b).
Proof. unfold cells. apply in_flat_map. Qed.

Lemma cells_perm B B' : Permutation B B' -> Permutation (cells B) (cells B').
Proof. apply Permutation_flat_map. Qed.

Lemma cell_in_held A b x :
  blk_ok A b -> In x (b_cells b) -> inside (cell_region x) (b_held b).
Proof.
  intros Hb Hx. pose proof (contig_inside _ _ _ (bo_contig _ _ Hb) Hx) as Hi.
  pose proof (bo_lo _ _ Hb). pose proof (bo_hi _ _ Hb).
  unfold inside, cell_region, b_held, b_size in *; simpl in *. lia.
Qed.

Lemma cells_disj A B :
  (forall b, In b B -> blk_ok A b) -> good (map b_held B) ->
  pairwise disj (map cell_region (cells B)).
Proof.
  intros Hok Hg. induction B as [|b B IH]; simpl; auto.
  simpl in Hg. apply good_cons in Hg as (Hw & Hd & Hg).
  fold (cells B). rewrite map_app. apply pairwise_app. split; [|split].
  - eapply contig_disj, bo_contig, Hok. simpl; auto.
  - apply IH; auto. intros b' Hb'. apply Hok; simpl; auto.
  - intros x y Hx Hy. apply in_map_iff in Hx as (cx & <- & Hx). apply in_map_iff in Hy as (cy & <- & Hy).
    apply in_cells in Hy as (b' & Hb' & Hy).
    pose proof (cell_in_held A b cx (Hok b (or_introl eq_refl)) Hx) as I1.
    pose proof (cell_in_held A b' cy (Hok b' (or_intror Hb')) Hy) as I2.
    specialize (Hd (b_held b') (in_map _ _ _ Hb')).
    unfold inside, disj in *. lia.
Qed.

Lemma cells_sizes_pos A B :
  (forall b, In b B -> blk_ok A b) -> forall x, In x (cells B) -> cell_ok A x.
Proof.
  intros Hok x Hx. apply in_cells in Hx as (b & Hb & Hx). eapply bo_cells; eauto.
Qed.

Lemma pairwise_disj_nodup_data A l :
  (forall x, In x l -> cell_ok A x) -> pairwise disj (map cell_region l) ->
  NoDup (map k_data l).
Proof.
  induction l as [|x l IH]; simpl; [constructor|].
  intros Hok [H1 H2]. constructor.
  - intros Hin. apply in_map_iff in Hin as (y & E & Hy).
    specialize (H1 _ (in_map cell_region _ _ Hy)).
    pose proof (proj1 (Hok x (or_introl eq_refl))).
    pose proof (proj1 (Hok y (or_intror Hy))).
    unfold disj, cell_region in H1; simpl in H1. lia.
  - apply IH; auto.
Qed.

Lemma b_data_first A b :
  blk_ok A b -> exists x l, b_cells b = x :: l /\ k_data x = b_data b.
Proof.
  intros H. pose proof (bo_ne _ _ H). pose proof (bo_contig _ _ H) as Hc.
  destruct (b_cells b) as [|x l]; [congruence|]. simpl in Hc. exists x, l. tauto.
Qed.

Lemma b_size_pos A b : blk_ok A b -> 0 < b_size b.
Proof.
  intros H. pose proof (bo_ne _ _ H). pose proof (bo_contig _ _ H) as Hc. unfold b_size.
  destruct (b_cells b) as [|x l]; [congruence|]. simpl in Hc. rewrite csum_cons.
  destruct Hc as (_ & Hp & Hc). pose proof (csum_nonneg _ _ Hc). lia.
Qed.

(** Two different blocks have different aligned bases. *)
Lemma b_data_inj A b B :
  (forall b', In b' (b :: B) -> blk_ok A b') -> good (map b_held (b :: B)) ->
  forall b', In b' B -> b_data b' <> b_data b.
Proof.
  intros Hok Hg b' Hb'. simpl in Hg. apply good_cons in Hg as (_ & Hd & _).
  specialize (Hd _ (in_map b_held _ _ Hb')).
  pose proof (Hok b (or_introl eq_refl)) as H1. pose proof (Hok b' (or_intror Hb')) as H2.
  pose proof (bo_lo _ _ H1). pose proof (bo_hi _ _ H1).
  pose proof (bo_lo _ _ H2). pose proof (bo_hi _ _ H2).
  pose proof (b_size_pos _ _ H1). pose proof (b_size_pos _ _ H2).
  unfold disj, b_held in Hd; simpl in Hd. lia.
Qed.

Lemma sum_blocks_bound A B :
  0 < A -> (forall b, In b B -> blk_ok A b) -> good (map b_held B) ->
  0 <= sumZ (map b_size B) /\ sumZ (map b_size B) + A * Z.of_nat (length B) < ASP.
Proof.
  intros HA Hok Hg. pose proof (good_sum _ Hg) as Hs. split.
  - apply sumZ_nonneg. intros z Hz. apply in_map_iff in Hz as (b & <- & Hb).
    pose proof (b_size_pos _ _ (Hok b Hb)). lia.
  - assert (E : sumZ (map snd (map b_held B)) = sumZ (map b_size B) + A * Z.of_nat (length B)).
    { clear Hs Hg. induction B as [|b B IH]; simpl; [lia|].
      rewrite IH by (intros b' Hb'; apply Hok; simpl; auto).
      pose proof (bo_total _ _ (Hok b (or_introl eq_refl))). lia. }
    lia.
Qed.

Lemma sum_filter_le {T} (f : T -> bool) (g : T -> Z) l :
  (forall x, In x l -> 0 <= g x) ->
  0 <= sumZ (map g (filter f l)) <= sumZ (map g l).
Proof.
  induction l as [|x l IH]; simpl; [lia|].
  intros H. pose proof (H x (or_introl eq_refl)).
  specialize (IH (fun y Hy => H y (or_intror Hy))).
  destruct (f x); simpl; lia.
Qed.

Lemma sum_cells_blocks B : sumZ (map k_size (cells B)) = sumZ (map b_size B).
Proof.
  induction B as [|b B IH]; simpl; auto.
  fold (cells B). rewrite map_app, sumZ_app, IH. reflexivity.
Qed.
