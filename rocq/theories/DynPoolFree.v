(** DynamicSizePool [deallocate]: merging and returning a fragment to the free list. *)
From Verif Require Import Base BaseFacts AlignedModel AlignedFacts QuickPoolModel QuickPoolInv QuickPoolFacts QuickPoolOps QuickPoolFree
  QuickPoolMain DynPoolModel DynPoolInv DynPoolFacts DynPoolOps.

Lemma dall_fun A s B x z z' : DI A s B -> In (x, z) (dall B) -> In (x, z') (dall B) -> z = z'.
Proof.
  intros H. pose proof (di_nodup _ _ _ H) as HN. apply NoDup_map_inv in HN. rewrite <- dall_fst in HN. revert HN.
  generalize (dall B). intros l. induction l as [|[y v] l IH]; intros HN H1 H2; [contradiction|].
  cbn [map fst] in HN. apply NoDup_cons_iff in HN as [N1 N2].
  assert (HE : forall q, In (x, q) l -> y <> x) by (intros q Hq ->; apply N1; apply (in_map fst) in Hq; exact Hq).
  destruct H1 as [E1|H1], H2 as [E2|H2].
  - congruence.
  - injection E1 as -> ->. now destruct (HE z').
  - injection E2 as -> ->. now destruct (HE z).
  - auto.
Qed.

Lemma same_data A s B x y : DI A s B -> In x (cells B) -> In y (cells B) -> k_data x = k_data y -> x = y.
Proof.
  intros H Hx Hy E. destruct (di_cell _ _ _ H _ Hx) as ((? & _) & _). destruct (di_cell _ _ _ H _ Hy) as ((? & _) & _).
  apply (di_overlap _ _ _ H x y (k_data x) Hx Hy); lia.
Qed.

(** The free neighbour in front, if any. *)
Lemma left_nb bs l1 : (forall y, In y l1 -> stable y) -> merged l1 -> exists l1' ly Y, l1 = l1' ++ ly /\ last_rel l1' false = false /\
  ((ly = [] /\ Y = None) \/ (exists y, ly = [y] /\ k_st y = SFree /\ Y = Some (dblk (y, nxt bs l1')))).
Proof.
  intros Hs HM. destruct (last_split l1) as [->|(l1' & y & ->)].
  - exists [], [], None. auto.
  - destruct (Hs y ltac:(apply in_or_app; simpl; auto)) as [E|[r E]].
    + exists l1', [y], (Some (dblk (y, nxt bs l1'))). split; [reflexivity|]. split; [|right; eauto].
      apply merged_app in HM as (_ & _ & HM). cbn [hd_rel] in HM. destruct (SFree_flags _ E) as (_ & _ & R). rewrite R, andb_true_r in HM. exact HM.
    + exists (l1' ++ [y]), [], None. rewrite app_nil_r. split; [reflexivity|]. split; [|auto].
      rewrite last_rel_app. cbn [last_rel]. now destruct (SUsed_flags _ _ E) as (_ & _ & ->).
Qed.
Lemma right_nb l2 : (forall y, In y l2 -> stable y) -> merged l2 -> exists lz l2' Zo, l2 = lz ++ l2' /\ hd_rel l2' = false /\
  ((lz = [] /\ Zo = None) \/ (exists z, lz = [z] /\ k_st z = SFree /\ Zo = Some (dblk (z, 0)))).
Proof.
  intros Hs HM. destruct l2 as [|z l2].
  - exists [], [], None. auto.
  - destruct (Hs z (or_introl eq_refl)) as [E|[r E]].
    + exists [z], l2, (Some (dblk (z, 0))). split; [reflexivity|]. split; [|right; eauto].
      cbn [merged] in HM. destruct HM as [HM _]. destruct (SFree_flags _ E) as (_ & _ & R). now rewrite R in HM.
    + exists [], (z :: l2), None. split; [reflexivity|]. split; [|auto]. cbn [hd_rel]. now destruct (SUsed_flags _ _ E) as (_ & _ & ->).
Qed.

Lemma olist_free_left bs l1' ly Y : ((ly = [] /\ Y = None) \/ (exists y, ly = [y] /\ k_st y = SFree /\ Y = Some (dblk (y, nxt bs l1')))) ->
  map dblk (filter freep (tag (nxt bs l1') ly)) = olist Y /\ filter usedp (tag (nxt bs l1') ly) = [] /\ filter is_used ly = [].
Proof.
  intros [[-> ->]|(y & -> & Hy & ->)]; [auto|]. cbn [tag filter map]. unfold freep, usedp. cbn [fst]. destruct (SFree_flags _ Hy) as (-> & -> & _). auto.
Qed.
Lemma olist_free_right lz Zo : ((lz = [] /\ Zo = None) \/ (exists y, lz = [y] /\ k_st y = SFree /\ Zo = Some (dblk (y, 0)))) ->
  map dblk (filter freep (tag 0 lz)) = olist Zo /\ filter usedp (tag 0 lz) = [] /\ filter is_used lz = [].
Proof.
  intros [[-> ->]|(y & -> & Hy & ->)]; [auto|]. cbn [tag filter map]. unfold freep, usedp. cbn [fst]. destruct (SFree_flags _ Hy) as (-> & -> & _). auto.
Qed.

Lemma d_put_focus A s l1 x l2 d p t B r : 0 < A ->
  DI A s (mkBlk (l1 ++ x :: l2) d p t :: B) -> k_st x = SUsed r ->
  forall l1' ly Y lz l2' Zo,
  l1 = l1' ++ ly -> last_rel l1' false = false ->
  ((ly = [] /\ Y = None) \/ (exists y, ly = [y] /\ k_st y = SFree /\ Y = Some (dblk (y, nxt (csum (l1 ++ x :: l2)) l1')))) ->
  l2 = lz ++ l2' -> hd_rel l2' = false ->
  ((lz = [] /\ Zo = None) \/ (exists z, lz = [z] /\ k_st z = SFree /\ Zo = Some (dblk (z, 0)))) ->
  let c := dblk (x, nxt (csum (l1 ++ x :: l2)) l1) in
  exists F0 F', Permutation (d_free s) (olist Y ++ olist Zo ++ F0) /\ d_put c (d_free s) = (F', d_join Y c Zo) /\
    Permutation F' (d_join Y c Zo :: F0) /\ pairwise dlt F'.
Proof.
  intros HA H Hx l1' ly Y lz l2' Zo El1 Hlr HY El2 Hhr HZ c. set (bs := csum (l1 ++ x :: l2)) in *.
  set (b0 := mkBlk (l1 ++ x :: l2) d p t) in *.
  pose proof (di_blk _ _ _ H _ (or_introl eq_refl)) as Hb. pose proof (b_size_pos _ _ Hb) as Hbs. change (b_size b0) with bs in Hbs.
  pose proof (bo_contig _ _ Hb) as Hc. cbn [b0 b_cells b_data] in Hc.
  pose proof (focus_in_cells l1 x l2 d p t B) as Hxc. fold b0 in Hxc.
  pose proof (di_focus_in l1 x l2 d p t B) as Hxd. fold b0 bs in Hxd.
  destruct (di_cell _ _ _ H _ Hxc) as ((C1 & _) & C4 & C5).
  assert (Hc' := Hc). apply contig_app in Hc' as [Hc1 Hc2]. cbn [contig] in Hc2. destruct Hc2 as (Hxd1 & _ & Hc2).
  assert (Hin1 : forall y, In y l1 -> In y (cells (b0 :: B))) by (intros y Hy; rewrite cells_cons; apply in_or_app; left; cbn [b0 b_cells]; apply in_or_app; auto).
  assert (Hin2 : forall y, In y l2 -> In y (cells (b0 :: B))) by (intros y Hy; rewrite cells_cons; apply in_or_app; left; cbn [b0 b_cells]; apply in_or_app; simpl; auto).
  apply d_put_ok.
  - apply (di_sorted _ _ _ H).
  - intros b [<-|Hb']; [exact (conj C4 (conj C1 C5))|]. destruct (d_free_in _ _ _ H b Hb') as (y & z & Hy & _ & ->).
    destruct (di_cell _ _ _ H _ (dall_in _ _ _ Hy)) as ((? & _) & ? & ?). cbn [dblk d_data d_size fst snd]. auto.
  - assert (HG : forall y z y' z', In (y, z) (dall (b0 :: B)) -> In (y', z') (dall (b0 :: B)) -> dblk (y, z) = dblk (y', z') \/ disj (dreg (dblk (y, z))) (dreg (dblk (y', z')))).
    { intros y z y' z' Hy Hy'. pose proof (cells_disj A _ (di_blk _ _ _ H) (di_good _ _ _ H)) as HD. rewrite pairwise_map in HD.
      destruct (pairwise_in (fun a b => disj (cell_region a) (cell_region b)) (fun u v => disj_sym _ _) _ y y' HD (dall_in _ _ _ Hy) (dall_in _ _ _ Hy')) as [E|HR]; auto.
      left. subst y'. now rewrite (dall_fun _ _ _ _ _ _ H Hy Hy'). }
    intros a b [<-|Ha] Hb'; destruct (d_free_in _ _ _ H b Hb') as (y & z & Hy & _ & ->).
    + apply HG; auto.
    + destruct (d_free_in _ _ _ H a Ha) as (y' & z' & Hy' & _ & ->). apply HG; auto.
  - intros Hin. destruct (d_free_in _ _ _ H c Hin) as (y & z & Hy & Hf & E).
    assert (y = x). { apply (same_data _ _ _ _ _ H (dall_in _ _ _ Hy) Hxc). unfold c, dblk in E. cbn [fst snd] in E. congruence. }
    subst y. congruence.
  - intros q Hq E1 E2. destruct (d_free_in _ _ _ H q Hq) as (u & zu & Hu & Huf & ->). cbn [dblk c d_data d_size d_bsize fst snd] in E1, E2.
    destruct (last_split l1) as [E|(l1a & y0 & E)]; [rewrite E in E2; cbn [nxt] in E2; lia|].
    pose proof (di_cell _ _ _ H _ (dall_in _ _ _ Hu)) as ((Pu & _) & _).
    assert (Hy0 : In y0 l1) by (rewrite E; apply in_or_app; simpl; auto).
    pose proof (di_cell _ _ _ H _ (Hin1 _ Hy0)) as ((Py & _) & _).
    assert (Ey : k_data y0 + k_size y0 = k_data x).
    { rewrite E in Hc1. apply contig_app in Hc1 as [_ Hc1]. cbn [contig] in Hc1. rewrite E, csum_app, csum_cons in Hxd1. unfold csum at 2 in Hxd1. cbn [map sumZ] in Hxd1. lia. }
    assert (u = y0) by (apply (di_overlap _ _ _ H u y0 (k_data x - 1) (dall_in _ _ _ Hu) (Hin1 _ Hy0)); lia). subst u.
    destruct HY as [[-> ->]|(y & -> & Hy & ->)].
    + exfalso. rewrite app_nil_r in El1. subst l1'. rewrite E, last_rel_app in Hlr. cbn [last_rel] in Hlr. destruct (SFree_flags _ Huf) as (_ & _ & R). congruence.
    + f_equal. f_equal. rewrite E in El1. apply app_inj_tail in El1 as [E3 E4]. subst y0 l1a.
      f_equal. apply (dall_fun _ _ _ y _ _ H); [|exact Hu].
      pose proof (di_focus_in l1' y (x :: l2) d p t B) as Hd.
      assert (El : l1' ++ y :: x :: l2 = l1 ++ x :: l2) by (rewrite E, <- app_assoc; reflexivity). rewrite El in Hd. exact Hd.
  - intros q Eq. destruct HY as [[-> ->]|(y & -> & Hy & ->)]; [discriminate|]. injection Eq as <-.
    assert (El : l1' ++ y :: x :: l2 = l1 ++ x :: l2) by (rewrite El1, <- app_assoc; reflexivity).
    split; [|split].
    + apply (in_d_free _ _ _ H); auto. pose proof (di_focus_in l1' y (x :: l2) d p t B) as Hd. rewrite El in Hd. exact Hd.
    + rewrite El1 in Hc1. apply contig_app in Hc1 as [_ Hc1]. cbn [contig] in Hc1. rewrite El1, csum_app, csum_cons in Hxd1. unfold csum at 2 in Hxd1. cbn [map sumZ] in Hxd1.
      cbn [dblk c d_data d_size fst snd]. lia.
    + cbn [dblk c d_bsize snd]. apply nxt_nonnil. rewrite El1. destruct l1'; discriminate.
  - intros q Hq E1 E2. destruct (d_free_in _ _ _ H q Hq) as (u & zu & Hu & Huf & ->). cbn [dblk c d_data d_size d_bsize fst snd] in E1, E2. subst zu.
    pose proof (di_cell _ _ _ H _ (dall_in _ _ _ Hu)) as ((Pu & _) & _).
    destruct l2 as [|z0 l2a] eqn:E.
    + exfalso. destruct (dall_focus _ _ _ Hu) as (m1 & m2 & d' & p' & t' & B' & HP & Ez).
      set (b1 := mkBlk (m1 ++ u :: m2) d' p' t') in *.
      assert (Hb1 : In b1 (b0 :: B)) by (apply (Permutation_in _ (Permutation_sym HP)); simpl; auto).
      pose proof (di_blk _ _ _ H _ Hb1) as Hbo1. pose proof (b_size_pos _ _ Hbo1) as Hp1. pose proof (bo_contig _ _ Hbo1) as Hcc. unfold b_size in Hp1. cbn [b1 b_cells b_data] in Hp1, Hcc.
      destruct (last_split m1) as [->|(m1a & y & ->)]; [cbn [nxt app] in Ez; cbn [app] in Hp1; lia|].
      apply contig_app in Hcc as [Hcc Hcu]. cbn [contig] in Hcu. apply contig_app in Hcc as [_ Hcc]. cbn [contig] in Hcc.
      rewrite csum_app, csum_cons in Hcu. unfold csum at 2 in Hcu. cbn [map sumZ] in Hcu.
      assert (Hy1 : In y (b_cells b1)) by (cbn [b1 b_cells]; apply in_or_app; left; apply in_or_app; simpl; auto).
      assert (Hyc : In y (cells (b0 :: B))) by (apply in_cells; eauto).
      assert (y = x) by (apply (di_overlap _ _ _ H y x (k_data u - 1) Hyc Hxc); lia). subst y.
      assert (b1 = b0) by (apply (same_block _ _ _ H b1 b0 x Hb1 (or_introl eq_refl) Hy1); cbn [b0 b_cells]; apply in_or_app; simpl; auto).
      assert (Hu1 : In u (b_cells b0)) by (rewrite <- H0; cbn [b1 b_cells]; apply in_or_app; simpl; auto).
      cbn [b0 b_cells] in Hu1. pose proof (contig_inside _ _ _ Hc Hu1) as Hi. unfold inside, cell_region in Hi. cbn [fst snd] in Hi.
      rewrite csum_app, csum_cons in Hi. unfold csum at 2 in Hi. cbn [map sumZ] in Hi. lia.
    + assert (Hz0 : In z0 (cells (b0 :: B))) by (apply Hin2; simpl; auto).
      cbn [contig] in Hc2.
      assert (u = z0) by (apply (same_data _ _ _ _ _ H (dall_in _ _ _ Hu) Hz0); lia). subst u.
      destruct HZ as [[-> ->]|(z & -> & Hz & ->)].
      * exfalso. cbn [app] in El2. subst l2'. cbn [hd_rel] in Hhr. destruct (SFree_flags _ Huf) as (_ & _ & R). congruence.
      * cbn [app] in El2. injection El2 as <- <-. reflexivity.
  - intros q Eq. destruct HZ as [[-> ->]|(z & -> & Hz & ->)]; [discriminate|]. injection Eq as <-. cbn [app] in El2.
    split; [|split].
    + apply (in_d_free _ _ _ H); auto. pose proof (di_focus_in (l1 ++ [x]) z l2' d p t B) as Hd.
      rewrite nxt_nonnil in Hd by (destruct l1; discriminate). rewrite <- app_assoc in Hd. cbn [app] in Hd. rewrite <- El2 in Hd. exact Hd.
    + rewrite El2 in Hc2. cbn [contig] in Hc2. cbn [dblk c d_data d_size fst snd]. lia.
    + reflexivity.
Qed.

Lemma d_free_core_ok A s B ptr req :
  0 < A ->
  DI A s B -> In (ptr, req) (uregs B) ->
  exists B',
    DI A (d_free_core ptr s) B' /\
    Permutation ((ptr, req) :: uregs B') (uregs B) /\
    Permutation (map b_held B') (map b_held B) /\
    d_base (d_free_core ptr s) = d_base s /\ d_actual (d_free_core ptr s) = d_actual s /\ d_total_blocks (d_free_core ptr s) = d_total_blocks s /\
    d_aligned (d_free_core ptr s) = d_aligned s - aligned_round_up A req /\
    d_aligned_hwm (d_free_core ptr s) = d_aligned_hwm s /\ d_actual_hwm (d_free_core ptr s) = d_actual_hwm s.
Proof.
  intros HA H0 Hin. apply uregs_in in Hin as (x & Hx & Hxp & Hxs).
  destruct (cells_dall _ _ Hx) as (z & Hz). destruct (dall_focus _ _ _ Hz) as (l1 & l2 & d & p & t & B1 & HP & Ez).
  pose proof (DI_perm _ _ _ _ HP H0) as H. set (bs := csum (l1 ++ x :: l2)) in *.
  destruct (SUsed_flags _ _ Hxs) as (Xf & Xu & Xr).
  pose proof (di_blk _ _ _ H _ (or_introl eq_refl)) as Hb.
  pose proof (bo_merged _ _ Hb) as HM. cbn [b_cells] in HM. apply merged_app in HM as (M1 & M2 & _). cbn [merged] in M2. destruct M2 as [_ M2].
  pose proof (bo_contig _ _ Hb) as Hc. cbn [b_cells b_data] in Hc.
  assert (St : forall y, In y (l1 ++ x :: l2) -> stable y) by (intros y Hy; apply (di_stable _ _ _ H); rewrite cells_cons; apply in_or_app; auto).
  destruct (left_nb bs l1 ltac:(intros; apply St, in_or_app; auto) M1) as (l1' & ly & Y & El1 & Hlr & HY).
  destruct (right_nb l2 ltac:(intros; apply St, in_or_app; simpl; auto) M2) as (lz & l2' & Zo & El2 & Hhr & HZ).
  destruct (d_put_focus _ _ _ _ _ _ _ _ _ _ HA H Hxs l1' ly Y lz l2' Zo El1 Hlr HY El2 Hhr HZ) as (F0 & F' & PF & EP & PF' & SF'). fold bs in EP, PF'.
  destruct (di_focus_used _ _ _ _ _ _ _ _ _ _ H Hxs) as [PU PFr]. fold bs in PU, PFr.
  destruct (olist_free_left _ _ _ _ HY) as (LY1 & LY2 & LY3). destruct (olist_free_right _ _ HZ) as (LZ1 & LZ2 & LZ3).
  set (c := dblk (x, nxt bs l1)) in *.
  assert (Hnz : nxt 0 lz = 0) by (destruct lz; reflexivity).
  assert (Edr : drest bs l1 l2 B1 = tag bs l1' ++ tag (nxt bs l1') ly ++ tag 0 lz ++ tag 0 l2' ++ dall B1).
  { unfold drest. rewrite El1, El2, !tag_app, Hnz, <- !app_assoc. reflexivity. }
  assert (PF0 : Permutation F0 (map dblk (filter freep (drest bs l1' l2' B1)))).
  { apply (Permutation_app_inv_l (olist Y ++ olist Zo)). rewrite <- app_assoc, <- PF, PFr, Edr, !filter_app_map, LY1, LZ1. unfold drest. rewrite !filter_app_map.
    rewrite (app_assoc (map dblk (filter freep (tag bs l1'))) (olist Y)), (Permutation_app_comm (map dblk (filter freep (tag bs l1'))) (olist Y)), <- !app_assoc.
    apply Permutation_app_head. rewrite !app_assoc. apply Permutation_app_tail. apply Permutation_app_tail. apply Permutation_app_comm. }
  (* the lookup finds the fragment *)
  pose proof (d_lookup_spec ptr (d_used s)) as HL.
  assert (HL' : exists used, d_lookup ptr (d_used s) = Some (c, used) /\ Permutation (d_used s) (c :: used)).
  { destruct (d_lookup ptr (d_used s)) as [[c' used]|].
    - destruct HL as [HL1 HL2]. assert (Hc' : In c' (d_used s)) by (apply (Permutation_in _ (Permutation_sym HL1)); simpl; auto).
      destruct (d_used_in _ _ _ H c' Hc') as (x' & z' & r' & Hx' & _ & ->). cbn [dblk d_data fst] in HL2.
      pose proof (focus_in_cells l1 x l2 d p t B1) as Hxc. pose proof (di_focus_in l1 x l2 d p t B1) as Hxd. fold bs in Hxd.
      assert (x' = x) by (apply (same_data _ _ _ _ _ H (dall_in _ _ _ Hx') Hxc); congruence). subst x'.
      rewrite (dall_fun _ _ _ _ _ _ H Hx' Hxd) in *. exists used. split; [reflexivity|exact HL1].
    - exfalso. apply (HL c); [|exact Hxp]. apply (Permutation_in _ (Permutation_sym PU)). now left. }
  destruct HL' as (used & EL & PL).
  set (D := d + csum l1'). set (m := mkCell D D (csum (ly ++ [x] ++ lz)) SFree D).
  assert (Ecs : l1 ++ x :: l2 = l1' ++ (ly ++ [x] ++ lz) ++ l2') by (rewrite El1, El2, <- !app_assoc; reflexivity).
  assert (Hbs : bs = csum (l1' ++ (ly ++ [x] ++ lz) ++ l2')) by (unfold bs; now rewrite Ecs).
  rewrite Ecs in Hc. assert (Hc' := Hc). apply contig_app in Hc' as [Hc1 Hc2]. apply contig_app in Hc2 as [Hc2 Hc3].
  assert (Ej : d_join Y c Zo = dblk (m, nxt bs l1')).
  { unfold d_join, dblk, m, c, dblk. cbn [fst snd k_data k_size d_data d_size d_bsize]. rewrite !csum_app. fold D in Hc2.
    assert (EN : ly = [] -> nxt bs l1 = nxt bs l1') by (intros E; rewrite El1, E, app_nil_r; reflexivity).
    clearbody bs D. clear - Hc2 EN HY HZ.
    destruct HY as [[-> ->]|(y & -> & Hy & ->)], HZ as [[-> ->]|(zz & -> & Hzz & ->)]; cbn [app contig fst snd d_data d_size d_bsize] in *; unfold csum; cbn [map sumZ];
      f_equal; auto; unfold dblk; cbn [d_data d_size fst snd]; try lia; tauto. }
  rewrite Ej in *.
  pose proof ASP_M64 as HAM. pose proof (di_actual_b _ _ _ HA H) as Bact. pose proof (di_aligned_b _ _ _ H) as Bal. pose proof (di_relb_b _ _ _ HA H) as Brel.
  pose proof (di_hwm _ _ _ H) as Bhwm.
  pose proof (focus_in_cells l1 x l2 d p t B1) as Hxc.
  destruct (di_cell _ _ _ H _ Hxc) as ((C1 & C2 & C3) & C4 & C5). rewrite Hxs in C3.
  pose proof (focus_perm l1 [x] l2 d p t B1) as HFx. change ([x] ++ l2) with (x :: l2) in HFx.
  assert (Hal : d_aligned s = k_size x + sumZ (map k_size (filter is_used (rest l1' l2' B1)))).
  { rewrite (di_aligned _ _ _ H), (sumZ_perm _ _ (Permutation_map k_size (Permutation_filter is_used _ _ HFx))).
    cbn [app filter]. rewrite Xu. cbn [map sumZ]. unfold rest. rewrite El1, El2, !filter_app, LY3, LZ3, app_nil_r. reflexivity. }
  assert (Hs0 : 0 <= sumZ (map k_size (filter is_used (rest l1' l2' B1)))).
  { apply sum_filter_le. intros y Hy. assert (Hy' : In y (cells (mkBlk (l1 ++ x :: l2) d p t :: B1))).
    { rewrite cells_cons. cbn [b_cells]. apply rest_in in Hy. rewrite El1, El2, !in_app_iff. cbn [In]. rewrite !in_app_iff. tauto. }
    destruct (di_cell _ _ _ H _ Hy') as ((? & _) & _). lia. }
  assert (Hsz : 0 < csum (ly ++ [x] ++ lz)).
  { destruct (last_split (ly ++ [x] ++ lz)) as [E|(l & y & E)]; [destruct ly; discriminate|].
    rewrite E, csum_app. unfold csum at 2. cbn [map sumZ]. rewrite E in Hc2. pose proof (contig_pos _ _ Hc2 y ltac:(apply in_or_app; simpl; auto)).
    apply contig_app in Hc2 as [Hc2 _]. pose proof (csum_nonneg _ _ Hc2). lia. }
  assert (HmA : D mod A = 0).
  { destruct HY as [[-> ->]|(y & -> & Hy & ->)]; cbn [app contig] in Hc2.
    - destruct Hc2 as [E _]. fold D in E. rewrite <- E. exact C2.
    - destruct Hc2 as [E _]. fold D in E. rewrite <- E.
      assert (Hy' : In y (cells (mkBlk (l1 ++ x :: l2) d p t :: B1))).
      { rewrite cells_cons. cbn [b_cells]. rewrite El1, !in_app_iff. cbn [In]. tauto. }
      destruct (di_cell _ _ _ H _ Hy') as ((_ & ? & _) & _). exact H1. }
  set (s' := mkDP used F' (d_base s) (d_aligned s - k_size x) (d_aligned_hwm s) (d_actual s) (d_actual_hwm s)
                  (Z.of_nat (length (rel_blocks (mkBlk (l1' ++ [m] ++ l2') d p t :: B1)))) (d_total_blocks s)).
  assert (Es : d_free_core ptr s = s').
  { unfold d_free_core. rewrite EL. ds. rewrite EP.
    assert (Hcm : contig d (l1' ++ m :: l2')).
    { apply contig_app. split; [exact Hc1|]. cbn [contig m k_data k_size]. split; [reflexivity|]. split; [exact Hsz|exact Hc3]. }
    assert (Hbm : bs = csum (l1' ++ m :: l2')).
    { rewrite Hbs. rewrite !csum_app. rewrite (csum_cons m). cbn [m k_size]. rewrite !csum_app. lia. }
    rewrite Hbm, (dwhole_focus _ _ _ _ Hcm).
    assert (Hw : w64 (d_aligned s - d_size c) = d_aligned s - k_size x) by (change (d_size c) with (k_size x); apply w64_small; lia).
    rewrite Hw. unfold s'. cbn [app]. rewrite rel_blocks_mid. change (is_rel m) with true. cbn [andb].
    pose proof (di_relb _ _ _ H) as Erb. rewrite rel_blocks_mid, Xr in Erb. cbn [andb] in Erb.
    destruct l1' as [|? l1'], l2' as [|? l2']; ds; cbn [length]; try (rewrite <- Erb; reflexivity).
    rewrite w64_small by lia. rewrite Erb. unfold dset_rel, dset_lists, dset_aligned; ds. f_equal. lia. }
  rewrite Es.
  exists (mkBlk (l1' ++ [m] ++ l2') d p t :: B1). split; [|split; [|split]].
  - rewrite Ecs in H.
    apply (DI_replace A s s' l1' (ly ++ [x] ++ lz) l2' d p t B1 [m] H); unfold s'; ds; auto; rewrite <- ?Hbs.
    + destruct ly; discriminate.
    + discriminate.
    + unfold csum at 1. cbn [map sumZ m k_size]. lia.
    + cbn [contig m k_data k_size]. auto.
    + intros y [<-|[]]. split; [|split; [left; reflexivity|split; reflexivity]]. unfold cell_ok, m; qs. auto.
    + apply merged_app. rewrite El1 in M1. rewrite El2 in M2. apply merged_app in M1 as (M1 & _ & _). apply merged_app in M2 as (_ & M2 & _).
      split; [exact M1|]. cbn [app merged hd_rel]. change (is_rel m) with true. rewrite Hlr, Hhr. auto.
    + cbn [tag map filter]. change (usedp (m, nxt bs l1')) with false. cbn [map app].
      apply (Permutation_cons_inv (a := c)). rewrite <- PL, PU. constructor. rewrite Edr. unfold drest. rewrite !filter_app, LY2, LZ2. cbn [app]. reflexivity.
    + cbn [tag map filter]. change (freep (m, nxt bs l1')) with true. cbn [map app]. rewrite PF'. constructor. exact PF0.
    + cbn [filter map sumZ]. change (is_used m) with false. cbn [map sumZ]. lia.
    + lia.
  - rewrite (uregs_perm _ _ HP). unfold uregs.
    rewrite (Permutation_map cell_alloc (Permutation_filter is_used _ _ (focus_perm l1' [m] l2' d p t B1))).
    rewrite (Permutation_map cell_alloc (Permutation_filter is_used _ _ HFx)).
    cbn [app filter]. rewrite Xu. change (is_used m) with false. cbn [map]. unfold cell_alloc at 2. unfold cell_req. rewrite Hxs, Hxp. constructor.
    unfold rest. rewrite El1, El2, !filter_app, LY3, LZ3. rewrite app_nil_r. reflexivity.
  - rewrite (Permutation_map b_held HP). reflexivity.
  - unfold s'; ds. repeat split; auto. lia.
Qed.
