(** The invariant of the whole system: the registry lists exactly the program's allocations and the
    allocators hold exactly the memory behind them. *)
From Verif Require Import Base BaseFacts HeapModel HeapFacts StratModel StratFacts WrapModel WrapFacts QuickPoolModel FixedPoolModel FixedPoolFacts DynPoolModel DynPoolStratFacts
  GlobalModel GlobalSpec GlobalFacts GlobalFrame MapModel MapSpec AllocMapThms SystemModel SystemSpec.

(** ** The zero-byte pool among the other allocators *)

Fixpoint gdrop (C : list nodecfg) : gworld (C ++ boot) -> gworld boot :=
  match C return gworld (C ++ boot) -> gworld boot with
  | [] => fun w => w
  | _ :: C' => fun w => gdrop C' (snd w)
  end.

Lemma gnode_drop C i : (i <= 3)%nat -> forall w, gnode (C ++ boot) i w = gnode boot i (gdrop C w).
Proof.
  intros Hi. induction C as [|c C IH]; intros w; [reflexivity|]. cbn [app gnode gdrop].
  destruct (Nat.eqb_spec i (S (length (C ++ boot)))) as [->|]; [rewrite app_length in Hi; cbn in Hi; lia|]. apply IH.
Qed.

Definition elsewhere (i : nat) : Prop := i = 1%nat \/ (4 <= i)%nat.

Lemma peel C : config_ok (C ++ boot) -> (forall c, In c C -> elsewhere (nc_parent c)) ->
  forall w X, GI (C ++ boot) w X ->
  exists X', GI boot (gdrop C w) X' /\ X' 0%nat = X 0%nat /\ X' 2%nat = X 2%nat /\ X' 3%nat = X 3%nat /\
    forall i r, elsewhere i -> (i <= length (C ++ boot))%nat -> In r (X i) -> exists r', In r' (X' 1%nat) /\ inside r r'.
Proof.
  induction C as [|c C IH]; intros HC HE w X HG.
  - exists X. split; [exact HG|]. split; [auto|]. split; [auto|]. split; [auto|]. intros i r [->|Hi] Hl Hr; [|cbn in Hl; lia].
    exists r. split; auto. apply inside_refl.
  - cbn [app] in HC. destruct (node_ok_lim _ c HC) as (limP & E & Hk & HM & Hle). destruct HG as (L & HR & _ & HG). cbn [fst snd] in *.
    set (p := nc_parent c) in *. set (Y := hold X p (L ++ X p)) in *.
    assert (Hp : elsewhere p) by (apply HE; now left).
    destruct (IH (proj2 HC) (fun d Hd => HE d (or_intror Hd)) _ _ HG) as (X' & G & E0 & E2 & E3 & HI).
    exists X'. split; [exact G|].
    assert (Hne : forall j, ~ elsewhere j -> Y j = X j) by (intros j Hj; unfold Y; apply hold_ne; intros ->; contradiction).
    split; [rewrite E0; apply Hne; unfold elsewhere; lia|]. split; [rewrite E2; apply Hne; unfold elsewhere; lia|].
    split; [rewrite E3; apply Hne; unfold elsewhere; lia|].
    assert (HY : forall i r, (i <= length (C ++ boot))%nat -> In r (X i) -> In r (Y i)).
    { intros i r Hi Hr. unfold Y, hold. destruct (Nat.eqb_spec i p) as [->|]; auto. apply in_or_app; auto. }
    intros i r Hi Hl Hr. cbn [app length] in Hl. destruct (Nat.eq_dec i (S (length (C ++ boot)))) as [->|Hni].
    + assert (GL : good L).
      { pose proof (GInv_good _ _ _ _ p (proj2 HC) HG Hle) as H. unfold Y in H. rewrite hold_eq in H. apply good_app in H. tauto. }
      destruct (lo_inside _ _ _ _ _ (kind_leaf_ok _ limP Hk HM) _ _ _ HR GL) as [_ HCv].
      destruct (HCv r Hr) as (l & Hl1 & Hl2).
      destruct (HI p l Hp Hle) as (r' & H1 & H2); [unfold Y; rewrite hold_eq; apply in_or_app; auto|].
      exists r'. split; auto. unfold inside in *. lia.
    + apply (HI i r Hi); [lia|]. apply HY; auto. lia.
Qed.

(** What the operating system gave to HOST and to the zero-byte pool. *)
Lemma boot_split (w : gworld boot) X : GI boot w X ->
  exists L3, fx_rel 1 2048 (snd (fst w)) (X 3%nat) L3 /\ good (X 1%nat ++ L3).
Proof.
  destruct w as [[st3 s3] [[st2 s2] [[st1 s1] [st0 h]]]]. unfold boot. cbn [GInv].
  intros (L3 & HR3 & _ & L2 & HR2 & _ & L1 & HR1 & _ & (HO & HG) & _). cbn [fst snd] in *. exists L3. split; [exact HR3|].
  cbn [nc_parent nc_kind length kind_rel] in *. unfold null_id in *.
  unfold same_rel, hold in HR1, HR2, HO. cbn [Nat.eqb] in *.
  apply (good_perm _ _ HO) in HG.
  apply good_app in HG as (G1 & G2 & G3). apply good_app in G2 as (G2 & _ & _).
  apply good_app. split; [eapply good_perm; [apply Permutation_sym, HR1|exact G1]|].
  apply (good_perm _ _ (Permutation_sym HR2)) in G2. split; [apply good_app in G2; tauto|].
  intros x y Hx Hy. apply G3.
  - eapply Permutation_in; eauto.
  - apply in_or_app. left. eapply Permutation_in; [exact HR2|]. apply in_or_app; auto.
Qed.

Lemma zero_owns_other C w X i p n : config_ok (C ++ boot) -> (forall c, In c C -> elsewhere (nc_parent c)) ->
  GI (C ++ boot) w X -> elsewhere i -> (i <= length (C ++ boot))%nat -> In (p, n) (X i) -> zero_owns (C ++ boot) p w = false.
Proof.
  intros HC HE HG Hi Hl Hin. destruct (peel C HC HE w X HG) as (X' & G & E0 & E2 & E3 & HI).
  destruct (HI i _ Hi Hl Hin) as ([q m] & Hq & Hin2).
  pose proof (GInv_good _ _ _ _ i HC HG Hl) as Gi. destruct Gi as [Gi _]. specialize (Gi _ Hin).
  unfold zero_owns. rewrite gnode_drop by (unfold zero_id; lia).
  destruct (boot_split _ _ G) as (L3 & (itss & HF & HU & HL & _) & HG3).
  destruct (gdrop C w) as [[st3 s3] w2]. cbn [gnode boot length Nat.eqb zero_id fst snd nc_kind] in *.
  unfold fx_is_from_pool. destruct (existsb _ _) eqn:Ex; auto. exfalso. apply existsb_exists in Ex as (fp & Hfp & Ho).
  assert (Hb : 0 < 1 /\ (0 < 2048)%nat /\ 1 * Z.of_nat 2048 < M64) by (split; [lia|split; [lia|reflexivity]]).
  assert (HinL : In (pool_held 1 2048 fp) L3) by (eapply Permutation_in; [apply Permutation_sym, HL|now apply in_map]).
  apply good_app in HG3 as (_ & HG3 & HD). specialize (HD _ _ Hq HinL).
  destruct HG3 as [HW _]. specialize (HW _ HinL). destruct Hb as (Hb1 & Hb2 & Hb3).
  unfold pool_held in HD. rewrite (data_bytes_eq 1 2048 Hb1 Hb3 Hb2) in HD.
  apply (fp_owns_spec 1 2048 Hb1 Hb3 Hb2) in Ho; [|exact HW].
  unfold disj, inside, wf_region in *. cbn [fst snd] in *. lia.
Qed.

Lemma zero_owns_own C w X p : config_ok (C ++ boot) -> (forall c, In c C -> elsewhere (nc_parent c)) ->
  GI (C ++ boot) w X -> In (p, 1) (X zero_id) -> zero_owns (C ++ boot) p w = true.
Proof.
  intros HC HE HG Hin. destruct (peel C HC HE w X HG) as (X' & G & E0 & E2 & E3 & HI).
  unfold zero_owns. rewrite gnode_drop by (unfold zero_id; lia). unfold zero_id in Hin. rewrite <- E3 in Hin.
  destruct (boot_split _ _ G) as (L3 & (itss & HF & HU & HL & _) & HG3).
  destruct (gdrop C w) as [[st3 s3] w2]. cbn [gnode boot length Nat.eqb zero_id fst snd nc_kind] in *.
  apply (Permutation_in _ HU) in Hin.
  assert (Hb1 : 0 < 1) by lia. assert (Hb2 : (0 < 2048)%nat) by lia. assert (Hb3 : 1 * Z.of_nat 2048 < M64) by reflexivity.
  destruct (all_used_in 1 2048 Hb1 Hb3 Hb2 _ _ _ HF Hin) as (fp & Hfp & _ & Hi).
  unfold fx_is_from_pool. apply existsb_exists. exists fp. split; auto.
  assert (HinL : In (pool_held 1 2048 fp) L3) by (eapply Permutation_in; [apply Permutation_sym, HL|now apply in_map]).
  apply good_app in HG3 as (_ & [HW _] & _). specialize (HW _ HinL).
  apply (fp_owns_spec 1 2048 Hb1 Hb3 Hb2); [exact HW|].
  unfold inside, pool_held in Hi. rewrite (data_bytes_eq 1 2048 Hb1 Hb3 Hb2) in Hi. cbn [fst snd] in Hi. lia.
Qed.

(** ** The memory behind the program's allocations *)

Definition rnode (r : arec) : nat := if r_size r =? 0 then zero_id else Z.to_nat (r_strat r).
Definition Xof (g : list arec) : holdings := fun j => map rreg (filter (fun r => Nat.eqb (rnode r) j) g).
Definition reg (g : list arec) : registry := map (fun r => (r_ptr r, r)) g.

Lemma Xof_cons r g j : Xof (r :: g) j = if Nat.eqb (rnode r) j then rreg r :: Xof g j else Xof g j.
Proof. unfold Xof. cbn [filter]. destruct (Nat.eqb (rnode r) j); reflexivity. Qed.

Lemma Xof_in r g : In r g -> In (rreg r) (Xof g (rnode r)).
Proof. intros H. unfold Xof. apply in_map, filter_In. split; auto. apply Nat.eqb_refl. Qed.

Lemma forget_perm r g : NoDup (map r_ptr g) -> In r g -> Permutation g (r :: forget (r_ptr r) g).
Proof.
  induction g as [|x g IH]; intros Hn Hr; [destruct Hr|]. cbn [forget map] in *. inversion Hn as [|? ? H1 H2]; subst.
  destruct Hr as [->|Hr]; [now rewrite Z.eqb_refl|].
  destruct (Z.eqb_spec (r_ptr x) (r_ptr r)) as [E|E].
  - elim H1. rewrite E. now apply in_map.
  - rewrite perm_swap. constructor. auto.
Qed.

Lemma forget_absent p g : (forall r, In r g -> r_ptr r <> p) -> forget p g = g.
Proof.
  induction g as [|x g IH]; intros H; [reflexivity|]. cbn [forget].
  destruct (Z.eqb_spec (r_ptr x) p) as [E|E]; [elim (H x (or_introl eq_refl) E)|]. rewrite IH; auto. intros r Hr. apply H. now right.
Qed.

Lemma forget_in p g r : In r (forget p g) -> In r g.
Proof.
  induction g as [|x g IH]; cbn [forget]; [auto|]. destruct (r_ptr x =? p); [now right|]. intros [->|H]; [now left|right; auto].
Qed.

Lemma Xof_perm g g' j : Permutation g g' -> Permutation (Xof g j) (Xof g' j).
Proof. intros H. apply Permutation_map, Permutation_filter, H. Qed.

Lemma records_perm g2 g k : NoDup (map r_ptr g) -> Permutation g2 (reg g) ->
  (forall r, In r g -> r_ptr r = k -> records_at k g2 = [r]) /\ ((forall r, In r g -> r_ptr r <> k) -> records_at k g2 = []).
Proof.
  intros Hn HP.
  assert (HP2 : Permutation (records_at k g2) (records_at k (reg g))).
  { unfold records_at. now apply Permutation_map, Permutation_filter. }
  assert (E0 : forall g, (forall r, In r g -> r_ptr r <> k) -> records_at k (reg g) = []).
  { clear. induction g as [|x g IH]; intros H; [reflexivity|]. cbn [reg map]. rewrite records_at_cons.
    destruct (Z.eqb_spec (r_ptr x) k) as [E|E]; [elim (H x (or_introl eq_refl) E)|]. apply IH. intros r Hr. apply H. now right. }
  split.
  - intros r Hr Ek. assert (E1 : records_at k (reg g) = [r]).
    { clear HP HP2 g2. induction g as [|x g IH]; [destruct Hr|]. cbn [map reg] in *. rewrite records_at_cons. inversion Hn as [|? ? H1 H2]; subst.
      destruct Hr as [->|Hr].
      - rewrite Z.eqb_refl. f_equal. apply E0. intros r' Hr' E. apply H1. rewrite <- E. now apply in_map.
      - destruct (Z.eqb_spec (r_ptr x) (r_ptr r)) as [E|E]; [elim H1; rewrite E; now apply in_map|]. auto. }
    rewrite E1 in HP2. apply Permutation_sym, Permutation_length_1_inv in HP2. exact HP2.
  - intros H. rewrite (E0 g H) in HP2. now apply Permutation_sym, Permutation_nil in HP2.
Qed.

Lemma reg_perm g g' : Permutation g g' -> Permutation (reg g) (reg g').
Proof. apply Permutation_map. Qed.

Lemma drop_newest_perm k r g : records_at k g = [r] -> Permutation g ((k, r) :: drop_newest k g).
Proof.
  induction g as [|[y x] g IH]; [discriminate|]. rewrite records_at_cons. cbn [drop_newest fst].
  destruct (Z.eqb_spec y k) as [->|]; [now intros [= -> _]|]. intros E. rewrite perm_swap. constructor. auto.
Qed.

Lemma all_held_disj (X : holdings) n i j x y : good (all_held X n) -> (i < n)%nat -> (j < n)%nat -> i <> j ->
  In x (X i) -> In y (X j) -> disj x y.
Proof.
  intros [_ HP] Hi Hj Hne Hx Hy. unfold all_held in HP.
  assert (H : forall l i j x y, pairwise disj (flat_map X l) -> In i l -> In j l -> i <> j -> In x (X i) -> In y (X j) -> disj x y).
  { clear. induction l as [|a l IH]; intros i j x y HP Hi Hj Hne Hx Hy; [destruct Hi|]. cbn [flat_map] in HP.
    apply pairwise_app in HP as (H1 & H2 & H3).
    destruct Hi as [->|Hi], Hj as [->|Hj].
    - congruence.
    - apply H3; auto. apply in_flat_map. eauto.
    - apply disj_sym, H3; auto. apply in_flat_map. eauto.
    - exact (IH i j x y H2 Hi Hj Hne Hx Hy). }
  apply (H (seq 0 n) i j); auto; apply in_seq; lia.
Qed.

(** ** Null results *)

Lemma leaf_nonnull k limP : kind_ok k limP -> limP < M64 -> never_null (Some k) ->
  forall W (P : Parent W) Inv s w U L n, ParentSpec P limP Inv -> kind_rel k s U L -> Inv w L -> kind_guard k limP s n ->
  post (st_alloc (strat_of k) W P n (s, w)) (fun _ p => p <> 0) (fun _ _ => True).
Proof.
  intros Hk HM Hnn W P Inv s w U L n HP HR HI Hg.
  assert (HS : forall lim, kind_lim k limP = Some lim -> 0 < n <= lim -> post (st_alloc (strat_of k) W P n (s, w)) (fun _ p => p <> 0) (fun _ _ => True)).
  { intros lim El Hn. pose proof (kind_strat_ok k limP lim Hk HM El) as HSt.
    pose proof (so_alloc _ _ _ _ HSt W P Inv s w U L n HP HR HI Hn) as Ha.
    eapply post_imp; [exact Ha| |auto]. intros sw p (L' & H1 & H2).
    destruct (so_inside _ _ _ _ HSt _ _ _ H1 (ps_good _ _ _ HP _ _ H2)) as [H3 _]. apply good_nonnull in H3. lia. }
  destruct k; cbn [never_null] in Hnn; try contradiction;
    try (eapply HS; [reflexivity|exact Hg]).
  2: { cbn [kind_guard strat_of st_alloc DynamicPoolList kind_rel kind_ok] in *.
    eapply post_imp; [apply (d_alloc_contract cfg limP Hk W P Inv s w U L n HP HR HI Hg)| |auto]. intros sw p (L' & H1 & _).
    destruct (DInv_inside _ _ _ _ H1) as [H3 _]. apply good_nonnull in H3. lia. }
  cbn [kind_guard strat_of st_alloc Monotonic kind_rel kind_ok] in *. destruct HR as (R1 & R2 & _). unfold mo_allocate.
  assert (HB : wf_region (mo_block s, capacity)).
  { apply (ps_good _ _ _ HP _ _ HI). eapply Permutation_in; [apply Permutation_sym, R1|simpl; auto]. }
  unfold wf_region in HB. cbn [fst snd] in HB. cbn [mo_size].
  rewrite (w64_small (mo_size s + n)) by lia. destruct (Z.ltb_spec capacity (mo_size s + n)); cbn [post]; auto.
  rewrite w64_small; unfold ASP, M64 in *; lia.
Qed.

Lemma graw_nonnull C : config_ok C -> forall i n X w, GI C w X -> user_guard C i n w -> never_null (kind_at C i) ->
  post (p_alloc (graw C i) n w) (fun _ p => p <> 0) (fun _ _ => True).
Proof.
  induction C as [|c C IH]; intros HC i n X w HG Hu Hnn.
  - cbn [user_guard] in Hu. destruct Hu as [-> Hn]. destruct w as [st h].
    cbn [graw lift_parent p_alloc GInv fst snd] in *. destruct HG as [HG HS]. apply post_omap.
    pose proof (ps_alloc _ _ _ host_own_spec h _ n HG ltac:(lia)) as Ha.
    destruct (p_alloc host n h) as [h' p|h' e| | |]; cbn [post fst snd] in *; auto.
    pose proof (good_nonnull _ _ _ (ps_good _ _ _ host_own_spec _ _ Ha)). lia.
  - destruct (node_ok_lim C c HC) as (limP & E & Hk & HM & Hle).
    rewrite kind_at_cons in Hnn. cbn [user_guard] in Hu. cbn [graw]. destruct w as [[st s] w]. cbn [fst snd] in Hu.
    destruct HG as (L & HR & _ & HG). cbn [fst snd] in HR, HG.
    destruct (Nat.eqb_spec i (S (length C))) as [->|Hi].
    + rewrite E in Hu. cbn [p_alloc fst snd]. apply post_omap.
      pose proof (gparent_spec _ _ trivial_cl C (proj2 HC) (trivial_parents C) (nc_parent c) limP X I E) as HPS.
      eapply post_imp; [exact (leaf_nonnull _ limP Hk HM Hnn _ _ _ s w _ L n HPS HR HG Hu)| |]; auto.
    + cbn [lift_parent p_alloc fst snd]. apply post_omap.
      eapply post_imp; [exact (IH (proj2 HC) i n _ w HG Hu Hnn)| |]; auto.
Qed.

(** ** The invariant *)

Lemma boot_config : config_ok boot.
Proof.
  cbn [boot config_ok]. split.
  - exists (M64 - 1). split; [reflexivity|]. cbn [kind_ok]. unfold M64. split; [lia|]. split; lia.
  - split; [exists (M64 - 1); split; [reflexivity|exact I]|]. split; [exists (M64 - 1); split; [reflexivity|exact I]|exact I].
Qed.

Lemma usable_elsewhere C i : usable C i -> elsewhere i.
Proof. unfold usable, elsewhere, host_id. lia. Qed.
Lemma usable_le C i : usable (C ++ boot) i -> (i <= length (C ++ boot))%nat.
Proof. unfold usable, host_id. rewrite app_length. cbn [boot length]. lia. Qed.

(** What a call may do to the statistics: [f] is applied to those of [i]; those of others change only
    if the program ever tried to create a strategy on top of them, [q]. *)
Definition parents_in (q : list nat) (C : list nodecfg) : Prop := forall c, In c C -> In (nc_parent c) q.

Definition moved (q : list nat) (C : list nodecfg) (i : nat) (f : stats -> stats) (w w' : gworld C) : Prop :=
  forall j, (j <= length C)%nat -> st_hwm (gstats C j w) <= st_hwm (gstats C j w') /\
    (In j q \/ gstats C j w' = if Nat.eqb j i then f (gstats C j w) else gstats C j w).

Definition Qm (q : list nat) (j : nat) (s s' : stats) : Prop := st_hwm s <= st_hwm s' /\ (In j q \/ s' = s).

Lemma hwm_add n s : st_hwm s <= st_hwm (stats_add n s).
Proof. unfold stats_add. cbn [st_hwm]. destruct (Z.ltb_spec (st_hwm s) (w64 (st_cur s + n))); lia. Qed.

Lemma Qm_refl q j s : Qm q j s s.
Proof. split; [lia|auto]. Qed.
Lemma Qm_step q C : parents_in q C ->
  forall j n s s', has_child C j -> Qm q j s s' -> Qm q j s (stats_add n s') /\ Qm q j s (stats_sub n s').
Proof.
  intros HP j n s s' (c & Hc & Ec) [H1 _]. assert (H : In j q) by (rewrite <- Ec; auto).
  split; (split; [|auto]); [pose proof (hwm_add n s'); lia|exact H1]. Qed.

Lemma moved_same q C i w w' : steps (Qm q) C w w' -> moved q C i (fun s => s) w w'.
Proof. intros H j Hj. destruct (H j Hj) as [H1 H2]. split; auto. destruct (Nat.eqb j i); auto. Qed.

Lemma moved_after q C i f w w' : (forall s, st_hwm s <= st_hwm (f s)) -> (i <= length C)%nat -> steps (Qm q) C w w' -> moved q C i f w (gupd C i f w').
Proof.
  intros Hf Hi H j Hj. destruct (H j Hj) as [H1 H2]. rewrite (gstats_gupd C i j f Hi Hj).
  destruct (Nat.eqb_spec j i) as [->|]; [|auto]. pose proof (Hf (gstats C i w')). split; [lia|]. destruct H2 as [H2|H2]; [auto|]. right. now rewrite H2.
Qed.

Lemma moved_before q C i f w w' : (forall s, st_hwm s <= st_hwm (f s)) -> (i <= length C)%nat -> steps (Qm q) C (gupd C i f w) w' -> moved q C i f w w'.
Proof.
  intros Hf Hi H j Hj. specialize (H j Hj). unfold Qm in H. rewrite (gstats_gupd C i j f Hi Hj) in H. destruct H as [H1 H2].
  destruct (Nat.eqb_spec j i) as [E|]; [|auto]. rewrite E in *. pose proof (Hf (gstats C i w)). split; [lia|]. exact H2.
Qed.

Lemma zero_guard C (w : gworld (C ++ boot)) : user_guard (C ++ boot) zero_id 1 w.
Proof.
  induction C as [|c C IH]; [cbn; lia|]. cbn [app user_guard].
  destruct (Nat.eqb_spec zero_id (S (length (C ++ boot)))) as [E|]; [rewrite app_length in E; cbn in E; unfold zero_id in E; lia|]. apply IH.
Qed.

Lemma zero_kind C : kind_at (C ++ boot) zero_id = Some (KFixed 1 2048 2).
Proof.
  induction C as [|c C IH]; [reflexivity|]. cbn [app]. rewrite kind_at_cons.
  destruct (Nat.eqb_spec zero_id (S (length (C ++ boot)))) as [E|]; [rewrite app_length in E; cbn in E; unfold zero_id in E; lia|]. apply IH.
Qed.

Lemma host_guard C (w : gworld (C ++ boot)) n : 0 < n < M64 -> user_guard (C ++ boot) host_id n w.
Proof.
  intros Hn. induction C as [|c C IH].
  - cbn. unfold M64 in *. lia.
  - cbn [app user_guard]. destruct (Nat.eqb_spec host_id (S (length (C ++ boot)))) as [E|]; [|apply IH].
    rewrite app_length in E. cbn in E. unfold host_id in E. lia.
Qed.

Lemma host_kind C : kind_at (C ++ boot) host_id = Some KPassThrough.
Proof.
  induction C as [|c C IH]; [reflexivity|]. cbn [app]. rewrite kind_at_cons.
  destruct (Nat.eqb_spec host_id (S (length (C ++ boot)))) as [E|]; [|exact IH].
  rewrite app_length in E. cbn in E. unfold host_id in E. lia.
Qed.

Lemma kind_app c C i : (i <= length C)%nat -> kind_at (c :: C) i = kind_at C i.
Proof. intros H. rewrite kind_at_cons. destruct (Nat.eqb_spec i (S (length C))); [lia|reflexivity]. Qed.

Section Inv.
  Context (J : Judy (list arec)) (sparse : (Z -> Prop) -> Prop) (jrel : j_ty J -> fmap (list arec) -> cursor -> Prop)
    (jloc : j_ty J -> j_loc J -> Z -> Prop) (jplain : j_ty J -> Prop) (JS : JudySpec J sparse jrel jloc jplain).
  Context (ok : (Z -> Prop) -> Prop) (Hok : monotone ok).

  Record sinv (C : list nodecfg) (w : gworld (C ++ boot)) (a : amap J) (g : list arec) : Prop := mkSinv {
    si_conf : config_ok (C ++ boot);
    si_par : forall c, In c C -> elsewhere (nc_parent c);
    si_reg : exists g2, ahist J ok (g2, a) /\ Permutation g2 (reg g);
    si_ok : ok (keyed g);
    si_gi : GI (C ++ boot) w (Xof g);
    si_strat : forall r, In r g -> usable (C ++ boot) (Z.to_nat (r_strat r)) /\ 0 <= r_strat r /\ 0 <= r_size r;
    si_good : good (map rreg g)
  }.

  Lemma sinv_ptr C w a g r : sinv C w a g -> In r g -> 0 < r_ptr r /\ r_ptr r + r_size r <= ASP /\ addr_ok (r_ptr r).
  Proof.
    intros HS Hr. destruct (si_good _ _ _ _ HS) as [Hw _]. specialize (Hw _ (in_map rreg _ _ Hr)).
    unfold wf_region, rreg, addr_ok in *. cbn [fst snd] in Hw. unfold ASP, M64 in *. destruct (Z.eqb_spec (r_size r) 0); lia.
  Qed.

  Lemma sinv_nodup C w a g : sinv C w a g -> NoDup (map r_ptr g).
  Proof.
    intros HS. pose proof (good_NoDup_fst _ (si_good _ _ _ _ HS)) as H. rewrite map_map in H. exact H.
  Qed.

  Lemma keyed_registered g g2 x : Permutation g2 (reg g) -> registered g2 x <-> keyed g x.
  Proof.
    intros HP. unfold registered, keyed. rewrite (Permutation_map fst HP). unfold reg. rewrite map_map. cbn [fst].
    rewrite in_map_iff. split; intros (r & A & B); eauto.
  Qed.

  Lemma ok_registered g g2 : ok (keyed g) -> Permutation g2 (reg g) -> ok (registered g2).
  Proof. intros H HP. destruct Hok as [_ H2]. apply (H2 (keyed g)); auto. intros x. apply keyed_registered, HP. Qed.

  Lemma ok_forget p g : ok (keyed g) -> ok (keyed (forget p g)).
  Proof.
    intros H. destruct Hok as [_ H2]. apply (H2 (keyed g)); auto.
    intros x (r & A & B). exists r. split; auto. eapply forget_in; eauto.
  Qed.

  Lemma sinv_zero C w a g r : sinv C w a g -> In r g -> zero_owns (C ++ boot) (r_ptr r) w = (r_size r =? 0).
  Proof.
    intros HS Hr. pose proof (Xof_in r g Hr) as Hx. unfold rreg, rnode in Hx. destruct (r_size r =? 0) eqn:E.
    - eapply zero_owns_own; [apply HS|apply HS|apply HS|exact Hx].
    - destruct (si_strat _ _ _ _ HS r Hr) as (Hu & _). eapply zero_owns_other; [apply HS|apply HS|apply HS| | |exact Hx].
      + eapply usable_elsewhere; eauto.
      + eapply usable_le; eauto.
  Qed.

  (** The statistics play no part. *)
  Lemma sinv_gupd C i f w a g : (i <= length (C ++ boot))%nat -> sinv C w a g -> sinv C (gupd (C ++ boot) i f w) a g.
  Proof. intros Hi [H1 H2 H3 H4 H5 H6 H7]. constructor; auto. apply gupd_ok; auto. Qed.

  Lemma sinv_look C w a a' g : sinv C w a g -> looks J a a' -> sinv C w a' g.
  Proof.
    intros [H1 H2 (g2 & H3 & HP) H4 H5 H6 H7] Hl. constructor; auto. exists g2. split; auto.
    pose proof (ok_registered _ _ H4 HP) as Ho.
    destruct Hl as [(p & Hp & [Ha|Ha])|[(fuel & addr & Hn & Ha)|(fuel & addr & addr' & s & Hn & Hn' & Hd & Ha)]].
    - eapply ah_step; [exact H3|now apply (as_find J p)|exact Ho].
    - eapply ah_step; [exact H3|now apply (as_contains J p)|exact Ho].
    - eapply ah_step; [exact H3|now apply (as_records J fuel addr)|exact Ho].
    - eapply ah_step; [exact H3|now apply (as_records_of J fuel addr addr' s)|exact Ho].
  Qed.

  (** *** Removing a registration, possibly to put it back *)
  Lemma remove_ok C w a g p : sinv C w a g -> addr_ok p ->
    exists a1, 
      (forall r, In r g -> r_ptr r = p -> am_remove J p a = Ok a1 r /\
         (exists g2, ahist J ok (g2, a1) /\ Permutation g2 (reg (forget p g))) /\
         exists a2, am_insert J p r a1 = Ok a2 tt /\ sinv C w a2 g) /\
      ((forall r, In r g -> r_ptr r <> p) -> am_remove J p a = Throw a1 RuntimeError /\ sinv C w a1 g).
  Proof.
    intros HS Hp. pose proof HS as [H1 H2 (g2 & H3 & HP) H4 H5 H6 H7]. pose proof (sinv_nodup _ _ _ _ HS) as Hn.
    destruct (records_perm g2 g p Hn HP) as [Hin Hout].
    destruct (at_remove J sparse jrel jloc jplain JS ok g2 a p H3 Hp) as (a1 & E). exists a1. split.
    - intros r Hr Ep. rewrite (Hin r Hr Ep) in E. split; [exact E|].
      assert (HP' : Permutation (drop_newest p g2) (reg (forget p g))).
      { pose proof (drop_newest_perm p r g2 (Hin r Hr Ep)) as D1. rewrite <- Ep in *.
        pose proof (reg_perm _ _ (forget_perm r g Hn Hr)) as D2. cbn [reg map] in D2.
        eapply Permutation_cons_inv. rewrite <- D1, HP. exact D2. }
      assert (Ha : ahist J ok (drop_newest p g2, a1)).
      { eapply ah_step; [exact H3|apply (as_remove J p); auto; rewrite E; reflexivity|]. cbn [fst].
        eapply ok_registered; [|exact HP']. now apply ok_forget. }
      split; [eauto|].
      destruct (at_insert J sparse jrel jloc jplain JS ok _ _ p r Ha Hp) as (a2 & E2). exists a2. split; [exact E2|].
      assert (HP2 : Permutation ((p, r) :: drop_newest p g2) (reg g)).
      { rewrite HP'. rewrite <- Ep in *. pose proof (reg_perm _ _ (forget_perm r g Hn Hr)) as D2. cbn [reg map] in D2. now rewrite D2. }
      constructor; auto. exists ((p, r) :: drop_newest p g2). split; [|exact HP2].
      eapply ah_step; [exact Ha|apply (as_insert J p r); auto; rewrite E2; reflexivity|]. cbn [fst].
      eapply ok_registered; eauto.
    - intros Hno. rewrite (Hout Hno) in E. split; [exact E|]. constructor; auto. exists g2. split; [|exact HP].
      rewrite <- (drop_newest_absent p g2 (Hout Hno)).
      eapply ah_step; [exact H3|apply (as_remove J p); auto; rewrite E; reflexivity|]. cbn [fst].
      rewrite (drop_newest_absent p g2 (Hout Hno)). eapply ok_registered; eauto.
  Qed.

  (** *** Allocating *)
  Lemma alloc_inv C w w1 a a1 g r : sinv C w a g -> usable (C ++ boot) (Z.to_nat (r_strat r)) -> 0 <= r_strat r -> 0 <= r_size r ->
    GI (C ++ boot) w1 (hold (Xof g) (rnode r) (rreg r :: Xof g (rnode r))) ->
    ok (keyed (r :: g)) -> am_insert J (r_ptr r) r a = Ok a1 tt ->
    sinv C w1 a1 (r :: g).
  Proof.
    intros HS Hu Hr0 Hs0 HG Ho E. pose proof HS as [H1 H2 (g2 & H3 & HP) H4 H5 H6 H7].
    assert (HE : hperm (length (C ++ boot)) (hold (Xof g) (rnode r) (rreg r :: Xof g (rnode r))) (Xof (r :: g))).
    { intros j Hj. rewrite Xof_cons. unfold hold. rewrite Nat.eqb_sym. destruct (Nat.eqb_spec (rnode r) j) as [<-|]; reflexivity. }
    assert (Hrn : (rnode r <= length (C ++ boot))%nat).
    { unfold rnode. destruct (r_size r =? 0); [rewrite app_length; cbn; unfold zero_id; lia|]. eapply usable_le; eauto. }
    pose proof (GInv_good_all _ _ H1 _ _ HG) as HGA.
    assert (Hwf : wf_region (rreg r)).
    { pose proof (GInv_good _ _ _ _ (rnode r) H1 HG Hrn) as [Hw _]. apply Hw. rewrite hold_eq. now left. }
    constructor; auto.
    - exists ((r_ptr r, r) :: g2). split; [|now apply perm_skip].
      assert (Hk : addr_ok (r_ptr r)) by (unfold wf_region, rreg, addr_ok, ASP, M64 in *; cbn [fst snd] in *; destruct (r_size r =? 0); lia).
      eapply ah_step; [exact H3|apply (as_insert J (r_ptr r) r); auto; rewrite E; reflexivity|]. cbn [fst].
      eapply ok_registered; [exact Ho|]. now apply perm_skip.
    - eapply GInv_ext; [exact H1|exact HE|exact HG].
    - intros r' [<-|Hr']; auto.
    - cbn [map]. apply good_cons. split; [exact Hwf|]. split; [|exact H7].
      intros y Hy. apply in_map_iff in Hy as (r' & <- & Hr').
      pose proof (Xof_in r' g Hr') as Hx.
      assert (Hrn' : (rnode r' <= length (C ++ boot))%nat).
      { unfold rnode. destruct (r_size r' =? 0); [rewrite app_length; cbn; unfold zero_id; lia|]. eapply usable_le, H6; auto. }
      destruct (Nat.eq_dec (rnode r) (rnode r')) as [En|Hne].
      + pose proof (GInv_good _ _ _ _ (rnode r) H1 HG Hrn) as [_ Hd]. rewrite hold_eq in Hd. apply (proj1 (pairwise_cons _ _ _)) in Hd as [Hd _].
        apply Hd. rewrite En. exact Hx.
      + eapply all_held_disj; [exact HGA| | | | |]; [apply Nat.lt_succ_r, Hrn|apply Nat.lt_succ_r, Hrn'|exact Hne|rewrite hold_eq; now left|].
        rewrite hold_ne by auto. exact Hx.
  Qed.

  Definition null_bump (q : list nat) (C : list nodecfg) (i : nat) (n : Z) (w w' : gworld (C ++ boot)) : Prop :=
    ~ never_null (kind_at (C ++ boot) i) /\ moved q (C ++ boot) i (stats_add n) w w'.

  Lemma sys_allocate_ok q C w a g i n nm : parents_in q (C ++ boot) -> sinv C w a g -> usable (C ++ boot) i -> n = 0 \/ user_guard (C ++ boot) i n w ->
    post (sys_allocate J (C ++ boot) i n nm (w, a))
      (fun sw' p => addr_ok p /\ p <> 0 /\ (forall r, In r g -> r_ptr r <> p) /\ moved q (C ++ boot) i (stats_add n) w (fst sw') /\
         (ok (keyed (mkRec p n (Z.of_nat i) nm :: g)) -> sinv C (fst sw') (snd sw') (mkRec p n (Z.of_nat i) nm :: g)))
      (fun sw' e => sinv C (fst sw') (snd sw') g /\
         (moved q (C ++ boot) i (fun s => s) w (fst sw') \/ null_bump q C i n w (fst sw'))).
  Proof.
    intros Hq HS Hu Hn. pose proof HS as [H1 H2 H3 H4 H5 H6 H7].
    set (k := if n =? 0 then zero_id else i). set (m := if n =? 0 then 1 else n).
    assert (Hg : user_guard (C ++ boot) k m w).
    { unfold k, m. destruct (Z.eqb_spec n 0); [apply zero_guard|]. destruct Hn; [contradiction|assumption]. }
    assert (Ec : (if n =? 0 then p_alloc (graw (C ++ boot) zero_id) 1 (fst (w, a)) else p_alloc (graw (C ++ boot) i) n (fst (w, a)))
             = p_alloc (graw (C ++ boot) k) m w) by (unfold k, m; destruct (n =? 0); reflexivity).
    unfold sys_allocate. rewrite Ec. clear Ec.
    destruct (graw_alloc_steps (Qm q) (C ++ boot) (Qm_refl _) (Qm_step _ _ Hq) H1 k m w (Xof g) H5 Hg) as [Hk Ha].
    assert (Hnn : n = 0 \/ never_null (kind_at (C ++ boot) i) -> post (p_alloc (graw (C ++ boot) k) m w) (fun _ p => p <> 0) (fun _ _ => True)).
    { intros Hc. eapply graw_nonnull; eauto. unfold k. destruct (Z.eqb_spec n 0); [rewrite zero_kind; exact I|]. destruct Hc; [contradiction|assumption]. }
    destruct (p_alloc (graw (C ++ boot) k) m w) as [w1 p|w1 e| | |]; cbn [post omap bind] in Ha |- *; auto.
    2: { cbn [fst snd]. destruct Ha as [HG HM]. split; [constructor; auto|]. left. now apply moved_same. }
    destruct Ha as [HG HM]. unfold sys_track, sys_register. cbn [fst snd].
    revert HG. destruct (Z.eqb_spec p 0) as [E0|Hp]; intros HG.
    - cbn [bind post fst snd]. split.
      + apply sinv_gupd; [now apply usable_le|]. constructor; auto.
      + right. split.
        * intros Hc. exact (Hnn (or_intror Hc) E0).
        * apply moved_after; auto; [apply hwm_add|now apply usable_le].
    - set (r := mkRec p n (Z.of_nat i) nm).
      assert (Er : rreg r = (p, m)) by reflexivity.
      assert (En : rnode r = k) by (unfold rnode, r, k; cbn [r_size r_strat]; destruct (n =? 0); auto; apply Nat2Z.id).
      assert (HG' : GI (C ++ boot) w1 (hold (Xof g) (rnode r) (rreg r :: Xof g (rnode r)))) by (rewrite Er, En; exact HG).
      pose proof (GInv_good _ _ _ _ k H1 HG Hk) as HGk. rewrite hold_eq in HGk. pose proof HGk as [Hw _]. specialize (Hw _ (or_introl eq_refl)).
      assert (Hap : addr_ok p) by (unfold wf_region, addr_ok, ASP, M64 in *; cbn [fst snd] in Hw; lia).
      assert (Hsz : 0 <= n) by (unfold wf_region, m in Hw; cbn [fst snd] in Hw; destruct (Z.eqb_spec n 0); lia).
      destruct H3 as (g2 & H3 & HP).
      destruct (at_insert J sparse jrel jloc jplain JS ok g2 a p r H3 Hap) as (a1 & Ei). rewrite Ei. cbn [omap bind post fst snd].
      split; [exact Hap|]. split; [exact Hp|].
      assert (Hm : moved q (C ++ boot) i (stats_add n) w (gupd (C ++ boot) i (stats_add n) w1)).
      { apply moved_after; auto; [apply hwm_add|now apply usable_le]. }
      split; [|split; [exact Hm|]].
      + intros r' Hr' E. pose proof (Xof_in r' g Hr') as Hx.
        assert (Hrn' : (rnode r' <= length (C ++ boot))%nat).
        { unfold rnode. destruct (r_size r' =? 0); [rewrite app_length; cbn; unfold zero_id; lia|]. eapply usable_le, H6; auto. }
        assert (Hd : disj (p, m) (rreg r')).
        { destruct (Nat.eq_dec k (rnode r')) as [En'|Hne].
          - destruct HGk as [_ Hd]. apply (proj1 (pairwise_cons _ _ _)) in Hd as [Hd _]. apply Hd. rewrite En'. exact Hx.
          - eapply all_held_disj; [exact (GInv_good_all _ _ H1 _ _ HG)| | | | |]; [apply Nat.lt_succ_r, Hk|apply Nat.lt_succ_r, Hrn'|exact Hne|rewrite hold_eq; now left|].
            rewrite hold_ne by auto. exact Hx. }
        destruct H7 as [Hw' _]. specialize (Hw' _ (in_map rreg _ _ Hr')).
        unfold disj, wf_region, rreg in *. cbn [fst snd] in *. lia.
      + intros Ho. apply sinv_gupd; [now apply usable_le|].
        apply (alloc_inv C w w1 a a1 g r); auto; try (unfold r; cbn [r_strat r_size]; rewrite ?Nat2Z.id; auto; lia).
  Qed.

  (** *** Deallocating *)
  Lemma sys_deallocate_wrong C w a g i p : sinv C w a g -> addr_ok p -> p <> 0 ->
    (forall r, In r g -> r_ptr r = p -> r_strat r <> Z.of_nat i) ->
    exists a', sys_deallocate J (C ++ boot) i p (w, a) = Throw (w, a') RuntimeError /\ sinv C w a' g.
  Proof.
    intros HS Hp Hp0 Hw. destruct (remove_ok C w a g p HS Hp) as (a1 & Hin & Hout).
    unfold sys_deallocate, sys_untrack. destruct (Z.eqb_spec p 0); [contradiction|]. cbn [fst snd].
    assert (Hd : (exists r, In r g /\ r_ptr r = p) \/ forall r, In r g -> r_ptr r <> p).
    { clear. induction g as [|x g IH]; [right; intros r []|]. destruct (Z.eq_dec (r_ptr x) p).
      - left. exists x. split; auto. now left.
      - destruct IH as [(r & A & B)|H]; [left; exists r; split; auto; now right|]. right. intros r [<-|Hr]; auto. }
    destruct Hd as [(r & Hr & Ep)|Hno].
    - destruct (Hin r Hr Ep) as (E & _ & a2 & E2 & HS2). rewrite E. cbn [omap bind fst snd].
      destruct (Z.eqb_spec (r_strat r) (Z.of_nat i)) as [Es|Es]; [elim (Hw r Hr Ep Es)|].
      unfold sys_register. destruct (Z.eqb_spec p 0); [contradiction|]. cbn [fst snd].
      assert (Er : mkRec p (r_size r) (r_strat r) (r_name r) = r) by (destruct r; cbn in *; now subst).
      rewrite Er, E2. cbn [omap bind]. eauto.
    - destruct (Hout Hno) as (E & HS2). rewrite E. cbn [omap bind fst snd]. eauto.
  Qed.

  Lemma forget_inv C w w' a' g r : sinv C w a' g -> forall a, In r g ->
    (exists g2, ahist J ok (g2, a) /\ Permutation g2 (reg (forget (r_ptr r) g))) ->
    GI (C ++ boot) w' (hold (Xof g) (rnode r) (Xof (forget (r_ptr r) g) (rnode r))) ->
    sinv C w' a (forget (r_ptr r) g).
  Proof.
    intros HS a Hr HR HG. pose proof (sinv_nodup _ _ _ _ HS) as Hn. pose proof HS as [H1 H2 H3 H4 H5 H6 H7].
    pose proof (forget_perm r g Hn Hr) as HPf. constructor; auto.
    - now apply ok_forget.
    - eapply GInv_ext; [exact H1| |exact HG]. intros j Hj. unfold hold. destruct (Nat.eqb_spec j (rnode r)) as [->|Hne]; [reflexivity|].
      pose proof (Xof_perm _ _ j HPf) as HPj. rewrite Xof_cons in HPj. destruct (Nat.eqb_spec (rnode r) j); [congruence|exact HPj].
    - intros r' Hr'. apply H6. eapply forget_in; eauto.
    - apply (Permutation_map rreg) in HPf. apply (good_perm _ _ HPf) in H7. cbn [map] in H7. apply good_cons in H7. tauto.
  Qed.

  Lemma sys_deallocate_right q C w a g i r : parents_in q (C ++ boot) -> sinv C w a g -> In r g -> r_strat r = Z.of_nat i ->
    post (sys_deallocate J (C ++ boot) i (r_ptr r) (w, a))
      (fun sw' _ => sinv C (fst sw') (snd sw') (forget (r_ptr r) g) /\ moved q (C ++ boot) i (stats_sub (r_size r)) w (fst sw'))
      (fun sw' _ => coalescing (kind_at (C ++ boot) i) /\
         sinv C (fst sw') (snd sw') (forget (r_ptr r) g) /\ moved q (C ++ boot) i (stats_sub (r_size r)) w (fst sw')).
  Proof.
    intros Hq HS Hr Es. destruct (sinv_ptr _ _ _ _ r HS Hr) as (Hp1 & Hp2 & Hp3).
    destruct (remove_ok C w a g (r_ptr r) HS Hp3) as (a1 & Hin & _). destruct (Hin r Hr eq_refl) as (E & HR & _).
    destruct (si_strat _ _ _ _ HS r Hr) as (Hu & Hs0 & Hz0).
    assert (Ei : Z.to_nat (r_strat r) = i) by lia. rewrite Ei in Hu. pose proof (usable_le _ _ Hu) as Hi.
    pose proof (sinv_nodup _ _ _ _ HS) as Hn.
    unfold sys_deallocate, sys_untrack. destruct (Z.eqb_spec (r_ptr r) 0); [lia|]. cbn [fst snd]. rewrite E. cbn [omap bind fst snd].
    rewrite Es, Z.eqb_refl. cbn [bind fst snd].
    set (w1 := gupd (C ++ boot) i (stats_sub (r_size r)) w).
    assert (HS1 : sinv C w1 a g) by (now apply sinv_gupd).
    rewrite (sinv_zero C w1 a g r HS1 Hr).
    assert (HPf : Permutation (Xof g (rnode r)) (rreg r :: Xof (forget (r_ptr r) g) (rnode r))).
    { pose proof (Xof_perm _ _ (rnode r) (forget_perm r g Hn Hr)) as H. rewrite Xof_cons, Nat.eqb_refl in H. exact H. }
    assert (Hrn : (rnode r <= length (C ++ boot))%nat).
    { unfold rnode. destruct (r_size r =? 0); [rewrite app_length; cbn; unfold zero_id; lia|]. rewrite Ei. exact Hi. }
    pose proof (graw_free_steps (Qm q) (C ++ boot) (Qm_refl _) (Qm_step _ _ Hq) (si_conf _ _ _ _ HS) (rnode r) (fst (rreg r)) (snd (rreg r))
                  (Xof (forget (r_ptr r) g) (rnode r)) w1 (Xof g) (si_gi _ _ _ _ HS1) Hrn) as Hf.
    rewrite <- surjective_pairing in Hf. specialize (Hf HPf).
    assert (Ec : (if r_size r =? 0 then p_dealloc (graw (C ++ boot) zero_id) (r_ptr r) 1 w1 else p_dealloc (graw (C ++ boot) i) (r_ptr r) (r_size r) w1)
             = p_dealloc (graw (C ++ boot) (rnode r)) (fst (rreg r)) (snd (rreg r)) w1).
    { unfold rnode, rreg. cbn [fst snd]. rewrite Ei. destruct (r_size r =? 0); reflexivity. }
    rewrite Ec. apply post_omap. eapply post_imp; [exact Hf| |].
    - intros w' u [HG HM]. cbn [fst snd]. split.
      + eapply forget_inv; eauto.
      + apply moved_before; auto. intros s. cbn. lia.
    - intros w' u (Hc & HG & HM). cbn [fst snd]. split; [|split].
      + revert Hc. unfold rnode. destruct (r_size r =? 0); [rewrite zero_kind; intros []|]. now rewrite Ei.
      + eapply forget_inv; eauto.
      + apply moved_before; auto. intros s. cbn. lia.
  Qed.

  (** *** Resizing an allocation of HOST *)
  Lemma sys_host_realloc_ok q C w a g r n : parents_in q (C ++ boot) -> sinv C w a g -> In r g -> r_strat r = Z.of_nat host_id -> r_size r <> 0 ->
    0 < n < M64 ->
    post (sys_host_realloc J (C ++ boot) (r_ptr r) n (w, a))
      (fun sw' p => addr_ok p /\ p <> 0 /\ (forall r', In r' (forget (r_ptr r) g) -> r_ptr r' <> p) /\
         moved q (C ++ boot) host_id (fun s => s) w (fst sw') /\
         (ok (keyed (mkRec p n (Z.of_nat host_id) 0 :: forget (r_ptr r) g)) ->
            sinv C (fst sw') (snd sw') (mkRec p n (Z.of_nat host_id) 0 :: forget (r_ptr r) g)))
      (fun sw' e => e = RuntimeError /\ fst sw' = gtick (C ++ boot) w /\
         exists g2, ahist J ok (g2, snd sw') /\ Permutation g2 (reg (forget (r_ptr r) g))).
  Proof.
    intros Hq HS Hr Es Hsz Hn. destruct (sinv_ptr _ _ _ _ r HS Hr) as (Hp1 & Hp2 & Hp3).
    destruct (remove_ok C w a g (r_ptr r) HS Hp3) as (a1 & Hin & _). destruct (Hin r Hr eq_refl) as (E & HR & _).
    destruct (si_strat _ _ _ _ HS r Hr) as (Hu & Hs0 & Hz0). pose proof (sinv_nodup _ _ _ _ HS) as Hnd.
    assert (Ern : rnode r = host_id) by (unfold rnode; rewrite Es; destruct (Z.eqb_spec (r_size r) 0); [contradiction|apply Nat2Z.id]).
    assert (Err : rreg r = (r_ptr r, r_size r)) by (unfold rreg; destruct (Z.eqb_spec (r_size r) 0); [contradiction|reflexivity]).
    assert (Hhl : (host_id <= length (C ++ boot))%nat) by (rewrite app_length; cbn; unfold host_id; lia).
    unfold sys_host_realloc. cbn [fst snd]. rewrite E. cbn [omap bind fst snd].
    assert (HPf : Permutation (Xof g host_id) ((r_ptr r, r_size r) :: Xof (forget (r_ptr r) g) host_id)).
    { pose proof (Xof_perm _ _ (rnode r) (forget_perm r g Hnd Hr)) as H. rewrite Xof_cons, Nat.eqb_refl, Ern, Err in H. exact H. }
    pose proof (graw_free_steps (Qm q) (C ++ boot) (Qm_refl _) (Qm_step _ _ Hq) (si_conf _ _ _ _ HS) host_id (r_ptr r) (r_size r)
                  (Xof (forget (r_ptr r) g) host_id) w (Xof g) (si_gi _ _ _ _ HS) Hhl HPf) as Hf.
    rewrite host_kind in Hf. unfold host_realloc. destruct (p_dealloc (graw (C ++ boot) host_id) (r_ptr r) (r_size r) w) as [w1 u|w1 e| | |]; cbn [post coalescing] in Hf; try contradiction; try (destruct Hf; contradiction); try exact I.
    destruct Hf as [HG1 HM1].
    assert (HS1 : sinv C w1 a1 (forget (r_ptr r) g)) by (eapply forget_inv; eauto; rewrite Ern; exact HG1).
    pose proof HS1 as [H1 H2 H3 H4 H5 H6 H7].
    assert (Hg : user_guard (C ++ boot) host_id n w1) by (apply host_guard; lia).
    destruct (graw_alloc_steps (Qm q) (C ++ boot) (Qm_refl _) (Qm_step _ _ Hq) H1 host_id n w1 (Xof (forget (r_ptr r) g)) H5 Hg) as [_ Ha].
    assert (Hnn : post (p_alloc (graw (C ++ boot) host_id) n w1) (fun _ p => p <> 0) (fun _ _ => True)).
    { eapply graw_nonnull; eauto. rewrite host_kind. exact I. }
    destruct (p_alloc (graw (C ++ boot) host_id) n w1) as [w2 p|w2 e| | |]; cbn [post omap bind fst snd] in Ha, Hnn |- *; auto.
    destruct (Z.eqb_spec p 0) as [E0|Hp]; [contradiction|]. destruct Ha as [HG HM].
    unfold sys_register. destruct (Z.eqb_spec p 0); [contradiction|]. cbn [fst snd].
    set (r2 := mkRec p n (Z.of_nat host_id) 0).
    assert (Er2 : rreg r2 = (p, n)) by (unfold rreg, r2; cbn [r_ptr r_size]; destruct (Z.eqb_spec n 0); [lia|reflexivity]).
    assert (En2 : rnode r2 = host_id) by (unfold rnode, r2; cbn [r_size r_strat]; destruct (Z.eqb_spec n 0); [lia|apply Nat2Z.id]).
    assert (HG' : GI (C ++ boot) w2 (hold (Xof (forget (r_ptr r) g)) (rnode r2) (rreg r2 :: Xof (forget (r_ptr r) g) (rnode r2)))) by (rewrite Er2, En2; exact HG).
    pose proof (GInv_good _ _ _ _ host_id H1 HG Hhl) as HGk. rewrite hold_eq in HGk. pose proof HGk as [Hw _]. specialize (Hw _ (or_introl eq_refl)).
    assert (Hap : addr_ok p) by (unfold wf_region, addr_ok, ASP, M64 in *; cbn [fst snd] in Hw; lia).
    destruct H3 as (g2 & H3 & HP).
    destruct (at_insert J sparse jrel jloc jplain JS ok g2 a1 p r2 H3 Hap) as (a2 & Ei). fold r2. rewrite Ei. cbn [omap bind post fst snd].
    split; [exact Hap|]. split; [exact Hp|]. split; [|split].
    - intros r' Hr' E'. pose proof (Xof_in r' _ Hr') as Hx.
      assert (Hrn' : (rnode r' <= length (C ++ boot))%nat).
      { unfold rnode. destruct (r_size r' =? 0); [rewrite app_length; cbn; unfold zero_id; lia|]. eapply usable_le, H6; auto. }
      assert (Hd : disj (p, n) (rreg r')).
      { destruct (Nat.eq_dec host_id (rnode r')) as [En'|Hne].
        - destruct HGk as [_ Hd]. apply (proj1 (pairwise_cons _ _ _)) in Hd as [Hd _]. apply Hd. rewrite En'. exact Hx.
        - eapply all_held_disj; [exact (GInv_good_all _ _ H1 _ _ HG)| | | | |]; [apply Nat.lt_succ_r, Hhl|apply Nat.lt_succ_r, Hrn'|exact Hne|rewrite hold_eq; now left|].
          rewrite hold_ne by auto. exact Hx. }
      destruct H7 as [Hw' _]. specialize (Hw' _ (in_map rreg _ _ Hr')).
      unfold disj, wf_region, rreg in *. cbn [fst snd] in *. lia.
    - apply (moved_same q (C ++ boot) host_id w w2). intros j Hj. specialize (HM1 j Hj). specialize (HM j Hj). unfold Qm in *.
      split; [lia|]. destruct HM as [_ [|HM]]; [tauto|]. destruct HM1 as [_ [|HM1]]; [tauto|]. right. congruence.
    - intros Ho. eapply (alloc_inv C w1 w2 a1 a2 (forget (r_ptr r) g) r2); eauto; unfold r2; cbn [r_strat r_size]; rewrite ?Nat2Z.id; try lia.
      now left.
  Qed.

  (** *** The other calls *)
  Lemma sys_release_ok q C w a g i : parents_in q (C ++ boot) -> sinv C w a g ->
    post (sys_release J (C ++ boot) i (w, a))
      (fun sw' _ => sinv C (fst sw') (snd sw') g /\ moved q (C ++ boot) i (fun s => s) w (fst sw'))
      (fun sw' _ => sinv C (fst sw') (snd sw') g /\ moved q (C ++ boot) i (fun s => s) w (fst sw')).
  Proof.
    intros Hq [H1 H2 H3 H4 H5 H6 H7]. unfold sys_release. apply post_omap.
    pose proof (grelease_steps (Qm q) (C ++ boot) (Qm_refl _) (Qm_step _ _ Hq) H1 i w (Xof g) H5) as H.
    eapply post_imp; [exact H| |]; cbn [fst snd]; intros w' u [HG HM]; (split; [constructor; auto|now apply moved_same]).
  Qed.

  Lemma sys_coalesce_ok q C w a g i : parents_in q (C ++ boot) -> sinv C w a g ->
    post (sys_coalesce J (C ++ boot) i (w, a))
      (fun sw' _ => sinv C (fst sw') (snd sw') g /\ moved q (C ++ boot) i (fun s => s) w (fst sw'))
      (fun sw' _ => sinv C (fst sw') (snd sw') g /\ moved q (C ++ boot) i (fun s => s) w (fst sw')).
  Proof.
    intros Hq [H1 H2 H3 H4 H5 H6 H7]. unfold sys_coalesce. apply post_omap.
    pose proof (gcoalesce_steps (Qm q) (C ++ boot) (Qm_refl _) (Qm_step _ _ Hq) H1 i w (Xof g) H5) as H.
    eapply post_imp; [exact H| |]; cbn [fst snd]; intros w' u [HG HM]; (split; [constructor; auto|now apply moved_same]).
  Qed.

  (** Lookup, by whatever pointer, leaves the program's allocations alone; at the address of an
      allocation it finds that allocation. *)
  Lemma find_ok C w a g p sw' i : sinv C w a g -> addr_ok p ->
    sys_find_allocator J (C ++ boot) p (w, a) = Ok sw' i ->
    fst sw' = w /\ sinv C w (snd sw') g /\ forall r, In r g -> r_ptr r = p -> i = Z.to_nat (r_strat r).
  Proof.
    intros HS Hp E. unfold sys_find_allocator in E. cbn [fst snd] in E.
    destruct (am_find J p a) as [a1 r| | | |] eqn:Ef; try discriminate. cbn [omap] in E. injection E as <- <-.
    split; [reflexivity|]. cbn [fst snd]. split.
    - eapply sinv_look; [exact HS|]. left. exists p. split; auto. left. rewrite Ef. reflexivity.
    - intros r' Hr' Ep. pose proof (sinv_nodup _ _ _ _ HS) as Hn. destruct (si_reg _ _ _ _ HS) as (g2 & Hh & HP).
      destruct (records_perm g2 g p Hn HP) as [Hin _].
      destruct (at_find_exact J sparse jrel jloc jplain JS ok g2 a p r' [] Hh Hp (Hin r' Hr' Ep) Ep) as (a2 & E2).
      unfold am_find in Ef. rewrite E2 in Ef. now injection Ef as _ <-.
  Qed.

  Lemma find_throw C w a g p sw' e : sinv C w a g -> addr_ok p ->
    sys_find_allocator J (C ++ boot) p (w, a) = Throw sw' e ->
    fst sw' = w /\ sinv C w (snd sw') g /\ forall r, In r g -> r_ptr r <> p.
  Proof.
    intros HS Hp E. unfold sys_find_allocator in E. cbn [fst snd] in E.
    destruct (am_find J p a) as [|a1 e'| | |] eqn:Ef; try discriminate. cbn [omap] in E. injection E as <- <-.
    split; [reflexivity|]. cbn [fst snd]. split.
    - eapply sinv_look; [exact HS|]. left. exists p. split; auto. left. rewrite Ef. reflexivity.
    - intros r' Hr' Ep. pose proof (sinv_nodup _ _ _ _ HS) as Hn. destruct (si_reg _ _ _ _ HS) as (g2 & Hh & HP).
      destruct (records_perm g2 g p Hn HP) as [Hin _].
      destruct (at_find_exact J sparse jrel jloc jplain JS ok g2 a p r' [] Hh Hp (Hin r' Hr' Ep) Ep) as (a2 & E2).
      unfold am_find in Ef. rewrite E2 in Ef. discriminate.
  Qed.
End Inv.
