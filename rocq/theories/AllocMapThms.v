(** Histories of the allocation map. *)
From Verif Require Import Base BaseFacts MapModel MapSpec MapFacts MapThms.

(** ** Registries *)

Definition spec_of (g : registry) : fmap (list arec) :=
  fun k => match records_at k g with [] => None | rs => Some rs end.

Lemma spec_of_some g k rs : spec_of g k = Some rs <-> records_at k g = rs /\ rs <> [].
Proof. unfold spec_of. destruct (records_at k g); split; intros; try split; try congruence; try (destruct H; congruence). Qed.

Lemma records_at_cons k r g x : records_at x ((k, r) :: g) = if k =? x then r :: records_at x g else records_at x g.
Proof. unfold records_at. cbn [filter fst]. destruct (k =? x); reflexivity. Qed.

Lemma spec_of_cons k r g x : spec_of ((k, r) :: g) x = if x =? k then Some (r :: records_at x g) else spec_of g x.
Proof. unfold spec_of. rewrite records_at_cons, Z.eqb_sym. destruct (x =? k); reflexivity. Qed.

Lemma records_at_drop k g x : records_at x (drop_newest k g) = if x =? k then tl (records_at k g) else records_at x g.
Proof.
  induction g as [|[y r] g IH]; cbn [drop_newest]; [destruct (x =? k); reflexivity|]. cbn [fst]. destruct (Z.eqb_spec y k) as [->|Hn].
  - rewrite !records_at_cons, Z.eqb_refl, (Z.eqb_sym k x). destruct (Z.eqb_spec x k) as [E|E]; [rewrite E|]; reflexivity.
  - rewrite !records_at_cons, IH. destruct (Z.eqb_spec y k); [contradiction|]. destruct (Z.eqb_spec x k) as [E|E]; [rewrite E|reflexivity].
    destruct (Z.eqb_spec y k); [contradiction|reflexivity].
Qed.

Lemma drop_newest_length k g : records_at k g <> [] -> length g = S (length (drop_newest k g)).
Proof.
  induction g as [|[y r] g IH]; [intros H; elim H; reflexivity|]. rewrite records_at_cons. cbn [drop_newest fst].
  destruct (y =? k); [reflexivity|]. intros H. cbn [length]. now rewrite (IH H).
Qed.

Lemma drop_newest_absent k g : records_at k g = [] -> drop_newest k g = g.
Proof.
  induction g as [|[y r] g IH]; [reflexivity|]. rewrite records_at_cons. cbn [drop_newest fst].
  destruct (y =? k); [discriminate|]. intros H. now rewrite (IH H).
Qed.

Lemma records_at_In k g r : In r (records_at k g) <-> In (k, r) g.
Proof.
  unfold records_at. rewrite in_map_iff. split.
  - intros ([y s] & <- & H). apply filter_In in H as [H E]. cbn [fst snd] in *. apply Z.eqb_eq in E. now subst y.
  - intros H. exists (k, r). split; auto. apply filter_In. split; auto. apply Z.eqb_refl.
Qed.

Lemma registered_dom g k : registered g k <-> dom (spec_of g) k.
Proof.
  unfold registered, dom, spec_of. rewrite in_map_iff. split.
  - intros ([y r] & <- & H) E. cbn [fst] in *. apply records_at_In in H. destruct (records_at y g); [destruct H|discriminate].
  - intros H. destruct (records_at k g) as [|r t] eqn:E; [elim H; reflexivity|]. exists (k, r). split; auto. apply records_at_In. rewrite E. simpl; auto.
Qed.

(** Going through the keys one by one gives every record once. *)
Lemma flat_records g ks : NoDup ks -> (forall x, In x (map fst g) -> In x ks) ->
  Permutation (flat_map (fun k => records_at k g) ks) (map snd g).
Proof.
  intros Hn Hc.
  assert (H : forall ks, NoDup ks -> Permutation (flat_map (fun k => records_at k g) ks)
            (map snd (filter (fun x => existsb (Z.eqb (fst x)) ks) g))).
  { clear. induction ks as [|k ks IH]; intros Hn.
    - cbn [flat_map existsb]. replace (filter (fun _ => false) g) with (@nil (Z * arec)); [constructor|]. clear. induction g; auto.
    - inversion Hn as [|? ? H1 H2]; subst. cbn [flat_map]. etransitivity; [apply Permutation_app_head, IH, H2|]. unfold records_at. rewrite <- map_app.
      apply Permutation_map. clear IH Hn. induction g as [|[y r] g IH]; [constructor|]. cbn [filter fst existsb].
      destruct (Z.eqb_spec y k) as [->|Hne]; cbn [orb].
      + replace (existsb (Z.eqb k) ks) with false; [cbn [app]; constructor; exact IH|].
        symmetry. apply not_true_iff_false. intros E. apply existsb_exists in E as (z & Hz & E). apply Z.eqb_eq in E. now subst z.
      + destruct (existsb (Z.eqb y) ks); [|exact IH]. etransitivity; [symmetry; apply Permutation_middle|]. constructor. exact IH. }
  etransitivity; [apply H, Hn|]. replace (filter (fun x => existsb (Z.eqb (fst x)) ks) g) with g; [reflexivity|].
  symmetry. clear H Hn. induction g as [|[y r] g IH]; [reflexivity|]. cbn [filter fst].
  replace (existsb (Z.eqb y) ks) with true; [f_equal; apply IH; intros x Hx; apply Hc; simpl; auto|].
  symmetry. apply existsb_exists. exists y. split; [apply Hc; simpl; auto|apply Z.eqb_refl].
Qed.

Lemma ascending_NoDup l : ascending l -> NoDup l.
Proof. induction l as [|x l IH]; intros H; constructor; [intros Hi; destruct H as [H _]; specialize (H _ Hi); lia|apply IH, H]. Qed.

Section AllocMapThms.
  Context (J : Judy (list arec)) (sparse : (Z -> Prop) -> Prop)
          (jrel : j_ty J -> fmap (list arec) -> cursor -> Prop) (jloc : j_ty J -> j_loc J -> Z -> Prop) (jplain : j_ty J -> Prop).
  Hypothesis JS : JudySpec J sparse jrel jloc jplain.
  Notation mrep := (mrep J jrel).
  Notation mplain := (mplain J jplain).

  Definition arep (g : registry) (a : amap J) : Prop :=
    (exists c, mrep (am_map J a) (spec_of g) c) /\ am_size J a = w64 (Z.of_nat (length g)).

  Lemma mrep_ext mm m m' c : (forall k, m k = m' k) -> mrep mm m c -> mrep mm m' c.
  Proof.
    intros He (H1 & ks & H2 & H3). split; [eapply (js_ext _ _ _ _ _ JS); eauto|]. exists ks. split; auto. eapply keys_of_ext; eauto.
  Qed.

  Lemma am_insert_ok k r g a : arep g a -> addr_ok k ->
    exists a', am_insert J k r a = Ok a' tt /\ arep ((k, r) :: g) a' /\
      (mplain (am_map J a) -> sparse (registered ((k, r) :: g)) -> mplain (am_map J a')).
  Proof.
    intros [[c Hr] Hs] Hk. unfold am_insert.
    destruct (mm_insert_ok J sparse jrel jloc jplain JS k [r] _ _ c Hr Hk) as (mm & E & R1 & R2 & R3 & R4). rewrite E.
    assert (Hsz : w64 (am_size J a + 1) = w64 (Z.of_nat (length ((k, r) :: g)))).
    { rewrite Hs. unfold w64. rewrite Zplus_mod_idemp_l. cbn [length]. f_equal. lia. }
    assert (Hsp : sparse (registered ((k, r) :: g)) -> sparse (fun x => x = k \/ dom (spec_of g) x)).
    { apply (js_sparse _ _ _ _ _ JS). intros x [->|Hx]; [left; auto|right; apply registered_dom, Hx]. }
    destruct (spec_of g k) as [rs|] eqn:Es.
    - apply spec_of_some in Es as [Es Hne].
      destruct (mm_assign_ok J sparse jrel jloc jplain JS (r :: rs) mm _ _ _ R1 R2) as (A1 & A2 & A3).
      eexists. split; [reflexivity|]. split; [split; [exists (CPos k)|exact Hsz]|cbn [am_map]; auto].
      cbn [am_map]. eapply mrep_ext; [|exact A1]. intros x. unfold fset. rewrite spec_of_cons. destruct (Z.eqb_spec x k) as [->|]; auto. now rewrite Es.
    - eexists. split; [reflexivity|]. split; [split; [exists (CPos k)|exact Hsz]|cbn [am_map]; auto].
      cbn [am_map]. eapply mrep_ext; [|exact R1]. intros x. unfold fset. rewrite spec_of_cons. destruct (Z.eqb_spec x k) as [->|]; auto.
      unfold spec_of in Es. destruct (records_at k g); [reflexivity|discriminate].
  Qed.

  Lemma am_remove_ok k g a : arep g a -> addr_ok k ->
    exists a', match records_at k g with
               | r :: _ => am_remove J k a = Ok a' r
               | [] => am_remove J k a = Throw a' RuntimeError
               end /\ arep (drop_newest k g) a' /\ (mplain (am_map J a) -> mplain (am_map J a')).
  Proof.
    intros [[c Hr] Hs] Hk. unfold am_remove.
    destruct (mm_find_ok J sparse jrel jloc jplain JS k _ _ c Hr Hk) as (mm & k1 & cf & E & R1 & R2 & R3 & R4). rewrite E.
    destruct (records_at k g) as [|r rs] eqn:Eg.
    - assert (En : spec_of g k = None) by (unfold spec_of; now rewrite Eg). rewrite En.
      eexists. split; [reflexivity|]. rewrite drop_newest_absent by auto. split; [split; [exists cf; exact R1|exact Hs]|exact R4].
    - assert (En : spec_of g k = Some (r :: rs)) by (unfold spec_of; now rewrite Eg). rewrite En.
      destruct R3 as (Ra & _ & ->); [unfold dom; congruence|].
      destruct (mm_assign_ok J sparse jrel jloc jplain JS rs mm _ _ _ R1 Ra) as (A1 & A2 & A3).
      assert (Hsz : w64 (am_size J a - 1) = w64 (Z.of_nat (length (drop_newest k g)))).
      { rewrite Hs. unfold w64. rewrite Zminus_mod_idemp_l. f_equal. pose proof (drop_newest_length k g). rewrite H; [lia|congruence]. }
      destruct rs as [|r2 rs].
      + destruct (mm_remove_last_ok J sparse jrel jloc jplain JS _ _ _ A1 A2) as (mm2 & E2 & B1 & B2 & B3). rewrite E2.
        eexists. split; [reflexivity|]. split; [split; [exists CLost|exact Hsz]|cbn [am_map]; auto].
        cbn [am_map]. eapply mrep_ext; [|exact B1]. intros x. unfold fdel, fset, spec_of. rewrite records_at_drop, Eg.
        destruct (Z.eqb_spec x k); auto.
      + eexists. split; [reflexivity|]. split; [split; [exists (CPos k)|exact Hsz]|cbn [am_map]; auto].
        cbn [am_map]. eapply mrep_ext; [|exact A1]. intros x. unfold fset, spec_of. rewrite records_at_drop, Eg.
        destruct (Z.eqb_spec x k); auto.
  Qed.

  (** What a lookup returns, whatever the records are. *)
  Lemma am_find_record_any p g a : arep g a -> addr_ok p ->
    match am_find_record J p a with Ok a' _ => arep g a' | Throw _ _ => False | UB => True | _ => False end.
  Proof.
    intros [[c Hr] Hs] Hk. unfold am_find_record.
    destruct (mm_find_or_before_any J sparse jrel jloc jplain JS p _ _ c Hr Hk) as (mm & c' & E & R1 & R2).
    destruct (mm_find_or_before J p (am_map J a)) as [mm' [k' second]]. cbn [fst] in E. subst mm'.
    assert (Ha : arep g (mkAM J mm (am_size J a))) by (split; [exists c'; exact R1|exact Hs]).
    destruct second as [[|r rs]|]; [exact I| |exact Ha]. destruct (_ || _); exact Ha.
  Qed.

  Lemma am_find_record_ok p g a : arep g a -> mplain (am_map J a) -> addr_ok p ->
    exists a' res, am_find_record J p a = Ok a' res /\ arep g a' /\ mplain (am_map J a') /\
      ((exists k r rs, records_at k g = r :: rs /\ k <= p /\ (forall x, registered g x -> x <= p -> x <= k) /\
          res = if (p <? w64 (r_ptr r + r_size r)) || (r_ptr r =? p) then Some r else None) \/
       ((forall x, registered g x -> p < x) /\ res = None)).
  Proof.
    intros [[c Hr] Hs] Hp Hk. unfold am_find_record.
    destruct (mm_find_or_before_ok J sparse jrel jloc jplain JS p _ _ c Hr Hk Hp) as (mm & k' & ov & c' & E & R1 & R2 & R3 & R4). rewrite E.
    assert (Ha : arep g (mkAM J mm (am_size J a))) by (split; [exists c'; exact R1|exact Hs]).
    destruct ov as [rs|].
    - destruct R4 as (L1 & L2 & L3). apply spec_of_some in L1 as [L1 Hne]. cbn in L2. destruct rs as [|r rs]; [congruence|].
      eexists. exists (if (p <? w64 (r_ptr r + r_size r)) || (r_ptr r =? p) then Some r else None).
      split; [destruct (_ || _); reflexivity|]. split; [exact Ha|]. split; [exact R3|]. left. exists k', r, rs. split; auto. split; [lia|].
      split; auto. intros x Hx Hxp. apply L3; [apply registered_dom, Hx|cbn; lia].
    - do 2 eexists. split; [reflexivity|]. split; [exact Ha|]. split; [exact R3|]. right. split; auto. intros x Hx. apply R4, registered_dom, Hx.
  Qed.

  (** ** Walking *)
  Lemma above_split g k k' : k < k' -> (forall x, registered g x -> k < x -> k' <= x) ->
    length (filter (fun x => k <? fst x) g) = (length (records_at k' g) + length (filter (fun x => (k' <? fst x)%Z) g))%nat.
  Proof.
    intros Hk. unfold records_at. rewrite map_length. induction g as [|[y r] g IH]; [reflexivity|]. intros H. cbn [filter fst].
    assert (Hy : k < y -> k' <= y) by (apply H; left; reflexivity). specialize (IH ltac:(intros x Hx; apply H; right; exact Hx)).
    destruct (Z.ltb_spec k y), (Z.ltb_spec k' y), (Z.eqb_spec y k'); cbn [length]; lia.
  Qed.

  Lemma above_none g k : (forall x, registered g x -> x <= k) -> filter (fun x : Z * arec => k <? fst x) g = [].
  Proof.
    induction g as [|[y r] g IH]; [reflexivity|]. intros H. cbn [filter fst].
    assert (Hy : y <= k) by (apply H; left; reflexivity). destruct (Z.ltb_spec k y); [lia|]. apply IH. intros x Hx. apply H. right. exact Hx.
  Qed.

  Lemma ai_walk_end fuel o a : it_key o = 0 -> (0 < fuel)%nat -> ai_walk J fuel (mkAIt o None) a = Ok a [].
  Proof.
    intros E Hf. destruct fuel as [|f]; [lia|]. cbn [ai_walk]. unfold ai_at_end. cbn [ai_outer ai_inner].
    unfold mi_eq. cbn [it_key mi_end]. rewrite E. reflexivity.
  Qed.

  Lemma ai_walk_ok g : ~ registered g 0 -> forall fuel o r rs a c, mrep (am_map J a) (spec_of g) c -> it_key o <> 0 -> registered g (it_key o) ->
    (mm_oper (am_map J a) = it_addr o -> c = CPos (it_key o)) ->
    (length (r :: rs) + length (filter (fun x => (it_key o <? fst x)%Z) g) < fuel)%nat ->
    exists a' ks c', ai_walk J fuel (mkAIt o (Some (it_key o, r :: rs))) a = Ok a' (r :: rs ++ flat_map (fun k => records_at k g) ks) /\
      mrep (am_map J a') (spec_of g) c' /\ am_size J a' = am_size J a /\ (mplain (am_map J a) -> mplain (am_map J a')) /\
      ascending ks /\ forall x, In x ks <-> registered g x /\ it_key o < x.
  Proof.
    intros Hg0. induction fuel as [|f IH]; intros o r rs a c Hr H0 Hreg Hc Hf; [lia|]. cbn [ai_walk]. unfold ai_at_end. cbn [ai_outer ai_inner].
    unfold mi_eq at 1. cbn [it_key mi_end]. destruct (Z.eqb_spec (it_key o) 0); [contradiction|]. cbn [andb ai_deref ai_inner].
    destruct rs as [|r2 rs].
    - unfold ai_next. cbn [ai_inner ai_outer].
      assert (Hak : addr_ok (it_key o)) by (eapply (js_dom _ _ _ _ _ JS); [exact (proj1 Hr)|apply registered_dom, Hreg]).
      destruct (mi_next_ok J sparse jrel jloc jplain JS o _ _ c Hr H0 Hak) as (mm1 & o1 & E & R1 & R2 & R3 & R4); [auto|]. rewrite E.
      destruct R4 as [(k & v & HL & Eit & R)|(Hn & Eit & R)].
      + destruct HL as (L1 & L2 & L3). cbn in L2. apply spec_of_some in L1 as [L1 Hne].
        assert (Hkr : registered g k) by (apply registered_dom; unfold dom, spec_of; rewrite L1; destruct v; [congruence|discriminate]).
        assert (Hk0 : k <> 0) by (intros ->; contradiction).
        unfold mi_eq. cbn [it_key mi_end]. subst o1. cbn [it_key it_val]. destruct (Z.eqb_spec k 0); [contradiction|].
        destruct v as [|s v]; [congruence|]. cbn [bind].
        assert (L3' : forall x, registered g x -> it_key o < x -> k <= x) by (intros x Hx Hlt; apply L3; [apply registered_dom, Hx|exact Hlt]).
        destruct (IH (mkIt (it_addr o) k (Some (s :: v))) s v (mkAM J mm1 (am_size J a)) (CPos k) R) as (a2 & ks & c2 & W1 & W2 & W3 & W4 & W5 & W6); auto.
        { cbn [it_key]. pose proof (above_split g (it_key o) k L2 L3') as Hsp. rewrite L1 in Hsp. cbn [length] in Hsp, Hf |- *. lia. }
        cbn [it_key] in W1, W6. rewrite W1. cbn [bind]. exists a2, (k :: ks), c2. split; [cbn [flat_map app]; rewrite L1; reflexivity|]. split; auto.
        split; [exact W3|]. split; [intros Hp; apply W4, R3, Hp|]. split.
        { cbn [ascending]. split; auto. intros y Hy. apply W6 in Hy as [_ Hy]. exact Hy. }
        intros x. cbn [In]. rewrite W6. split.
        * intros [<-|[X1 X2]]; [auto|split; auto; lia].
        * intros [X1 X2]. specialize (L3' x X1 X2). destruct (Z.eq_dec k x); auto. right. split; auto. lia.
      + unfold mi_eq. cbn [it_key mi_end]. rewrite Eit. cbn [Z.eqb bind]. rewrite ai_walk_end; auto; [|cbn [length] in Hf; lia]. cbn [bind].
        exists (mkAM J mm1 (am_size J a)), [], CTop. split; [reflexivity|]. split; [exact R|]. split; [reflexivity|]. split; [exact R3|]. split; [exact I|].
        intros x. split; [intros []|]. intros [X1 X2]. apply registered_dom in X1. specialize (Hn x X1). lia.
    - unfold ai_next. cbn [ai_inner ai_outer bind].
      destruct (IH o r2 rs a c Hr H0 Hreg Hc) as (a2 & ks & c2 & W1 & W2 & W3 & W4 & W5 & W6); [cbn [length] in *; lia|].
      rewrite W1. cbn [bind]. exists a2, ks, c2. split; [reflexivity|]. auto 7.
  Qed.

  (** However far the walk gets, it leaves the map as it was. *)
  Lemma ai_walk_any g : forall fuel o r rs a c, mrep (am_map J a) (spec_of g) c -> it_key o <> 0 -> addr_ok (it_key o) ->
    am_size J a = w64 (Z.of_nat (length g)) -> (mm_oper (am_map J a) = it_addr o -> c = CPos (it_key o)) ->
    match ai_walk J fuel (mkAIt o (Some (it_key o, r :: rs))) a with
    | Ok a' _ => arep g a' /\ (mplain (am_map J a) -> mplain (am_map J a'))
    | NoFuel => True
    | _ => False
    end.
  Proof.
    induction fuel as [|f IH]; intros o r rs a c Hr H0 Hak Hs Hc; [exact I|]. cbn [ai_walk]. unfold ai_at_end. cbn [ai_outer ai_inner].
    unfold mi_eq at 1. cbn [it_key mi_end]. destruct (Z.eqb_spec (it_key o) 0); [contradiction|]. cbn [andb ai_deref ai_inner].
    destruct rs as [|r2 rs].
    - unfold ai_next. cbn [ai_inner ai_outer].
      destruct (mi_next_ok J sparse jrel jloc jplain JS o _ _ c Hr H0 Hak) as (mm1 & o1 & E & R1 & R2 & R3 & R4); [auto|]. rewrite E.
      destruct R4 as [(k & v & HL & Eit & R)|(Hn & Eit & R)].
      + destruct HL as (L1 & L2 & L3). cbn in L2. apply spec_of_some in L1 as [L1 Hne]. unfold addr_ok in Hak.
        unfold mi_eq. cbn [it_key mi_end]. subst o1. cbn [it_key it_val]. destruct (Z.eqb_spec k 0); [lia|].
        destruct v as [|s v]; [congruence|]. cbn [bind].
        assert (Hk : addr_ok k) by (eapply (js_dom _ _ _ _ _ JS); [exact (proj1 R)|unfold dom, spec_of; rewrite L1; discriminate]).
        specialize (IH (mkIt (it_addr o) k (Some (s :: v))) s v (mkAM J mm1 (am_size J a)) (CPos k) R). cbn [it_key] in IH.
        specialize (IH ltac:(auto) Hk Hs ltac:(auto)). destruct (ai_walk J f _ _) as [a2 l| | | |]; cbn [bind]; auto.
        destruct IH as [I1 I2]. split; auto.
      + unfold mi_eq. cbn [it_key mi_end]. rewrite Eit. cbn [Z.eqb bind]. destruct f; [exact I|]. rewrite ai_walk_end by (auto; lia). cbn [bind].
        split; [split; [exists CTop; exact R|exact Hs]|exact R3].
    - unfold ai_next. cbn [ai_inner ai_outer bind]. specialize (IH o r2 rs a c Hr H0 Hak Hs Hc).
      destruct (ai_walk J f _ _) as [a2 l| | | |]; cbn [bind]; auto.
  Qed.

  Lemma begin_any g a addr : arep g a -> exists a1 it, ai_begin J addr a = Ok a1 it /\ forall fuel addr',
    match ai_walk J fuel (mkAIt (mkIt addr' (it_key (ai_outer it)) (it_val (ai_outer it))) (ai_inner it)) a1 with
    | Ok a' _ => arep g a' /\ (mplain (am_map J a) -> mplain (am_map J a'))
    | NoFuel => True
    | _ => False
    end.
  Proof.
    intros [[c Hr] Hs].
    destruct (mi_begin_ok J sparse jrel jloc jplain JS addr _ _ c Hr) as (mm & it & E & R1 & R2 & R3 & R4).
    unfold ai_begin. rewrite E.
    assert (Hend : forall v c' fuel addr', mrep mm (spec_of g) c' ->
      match ai_walk J fuel (mkAIt (mkIt addr' 0 v) None) (mkAM J mm (am_size J a)) with
      | Ok a' _ => arep g a' /\ (mplain (am_map J a) -> mplain (am_map J a'))
      | NoFuel => True
      | _ => False
      end).
    { intros v c' fuel addr' Hm. destruct fuel; [exact I|]. rewrite ai_walk_end by (auto; lia). split; [split; [exists c'; exact Hm|exact Hs]|exact R3]. }
    destruct R4 as [(k & v & HL & Eit & R)|(Hn & Eit & R)]; subst it; cbn [it_key it_val].
    - destruct HL as (L1 & _ & L3). pose proof L1 as L1'. apply spec_of_some in L1 as [L1 Hne].
      destruct (Z.eqb_spec k 0) as [->|Hk0].
      + do 2 eexists. split; [reflexivity|]. intros fuel addr'. cbn [ai_outer ai_inner it_key it_val]. eapply Hend; eauto.
      + do 2 eexists. split; [reflexivity|]. intros fuel addr'. cbn [ai_outer ai_inner it_key it_val]. destruct v as [|s v]; [congruence|].
        assert (Hk : addr_ok k) by (eapply (js_dom _ _ _ _ _ JS); [exact (proj1 R)|unfold dom; congruence]).
        pose proof (ai_walk_any g fuel (mkIt addr' k (Some (s :: v))) s v (mkAM J mm (am_size J a)) (CPos k) R) as W. cbn [it_key] in W.
        specialize (W Hk0 Hk Hs ltac:(auto)). destruct (ai_walk J fuel _ _); auto. destruct W as [W1 W2]. split; auto.
    - cbn [Z.eqb]. do 2 eexists. split; [reflexivity|]. intros fuel addr'. cbn [ai_outer ai_inner it_key it_val]. eapply Hend; eauto.
  Qed.

  Definition listing (g : registry) (l : list arec) : Prop :=
    exists ks, ascending ks /\ (forall x, In x ks <-> registered g x) /\ l = flat_map (fun k => records_at k g) ks.

  Lemma walk_from g fuel a a0 addr addr' mm it : arep g a0 -> ~ registered g 0 -> (length g < fuel)%nat ->
    addr <> 0 -> mi_begin J addr (am_map J a0) = (mm, it) -> a = mkAM J mm (am_size J a0) ->
    exists it1, ai_begin J addr a0 = Ok a it1 /\
      exists a' l, ai_walk J fuel (mkAIt (mkIt addr' (it_key (ai_outer it1)) (it_val (ai_outer it1))) (ai_inner it1)) a = Ok a' l /\
        listing g l /\ arep g a' /\ (mplain (am_map J a0) -> mplain (am_map J a')).
  Proof.
    intros [[c Hr] Hs] Hg0 Hf Ha Eb ->.
    destruct (mi_begin_ok J sparse jrel jloc jplain JS addr _ _ c Hr) as (mm1 & it1 & E & R1 & R2 & R3 & R4).
    rewrite E in Eb. injection Eb as -> ->. unfold ai_begin. rewrite E.
    destruct R4 as [(k & v & HL & Eit & R)|(Hn & Eit & R)]; subst it; cbn [it_key it_val].
    - destruct HL as (L1 & _ & L3). apply spec_of_some in L1 as [L1 Hne].
      assert (Hkr : registered g k) by (apply registered_dom; unfold dom, spec_of; rewrite L1; destruct v; [congruence|discriminate]).
      destruct (Z.eqb_spec k 0) as [->|Hk0]; [contradiction|]. eexists. split; [reflexivity|]. cbn [ai_outer ai_inner it_key it_val].
      destruct v as [|s v]; [congruence|].
      destruct (ai_walk_ok g Hg0 fuel (mkIt addr' k (Some (s :: v))) s v (mkAM J mm (am_size J a0)) (CPos k) R) as (a2 & ks & c2 & W1 & W2 & W3 & W4 & W5 & W6); auto.
      { cbn [it_key]. assert (Hsp : (length (filter (fun x => (k - 1 <? fst x)%Z) g) <= length g)%nat).
        { clear. induction g as [|x g IH]; [auto|]. cbn [filter]. destruct (_ <? _); cbn [length]; lia. }
        rewrite (above_split g (k - 1) k) in Hsp; [rewrite L1 in Hsp; lia|lia|]. intros x Hx _. apply L3; [apply registered_dom, Hx|exact I]. }
      cbn [it_key] in W1, W6. rewrite W1. do 2 eexists. split; [reflexivity|]. split.
      + exists (k :: ks). split; [|split].
        * cbn [ascending]. split; auto. intros y Hy. apply W6 in Hy as [_ Hy]. exact Hy.
        * intros x. cbn [In]. rewrite W6. split; [intros [<-|[X _]]; auto|]. intros X. destruct (Z.eq_dec k x); auto. right. split; auto.
          assert (k <= x) by (apply L3; [apply registered_dom, X|exact I]). lia.
        * cbn [flat_map]. rewrite L1. reflexivity.
      + split; [split; [exists c2; exact W2|rewrite W3; exact Hs]|]. intros Hp. apply W4, R3, Hp.
    - cbn [Z.eqb]. eexists. split; [reflexivity|]. cbn [ai_outer ai_inner it_key it_val]. rewrite ai_walk_end by (auto; lia).
      do 2 eexists. split; [reflexivity|]. split; [|split; [split; [exists CTop; exact R|exact Hs]|exact R3]].
      exists []. split; [exact I|]. split; [|reflexivity]. intros x. split; [intros []|]. intros X. apply registered_dom in X. elim (Hn x X).
  Qed.

  Lemma mi_begin_addr addr mm mm1 it : mi_begin J addr mm = (mm1, it) -> it = mkIt addr (it_key it) (it_val it).
  Proof. unfold mi_begin. destruct (j_first J (mm_j mm)). intros E. injection E as _ <-. reflexivity. Qed.

  Lemma ai_begin_addr addr a a' it : ai_begin J addr a = Ok a' it -> ai_outer it = mkIt addr (it_key (ai_outer it)) (it_val (ai_outer it)).
  Proof.
    unfold ai_begin. destruct (mi_begin J addr (am_map J a)) as [mm o] eqn:E. apply mi_begin_addr in E.
    destruct (it_key o =? 0); [|destruct (it_val o) eqn:Ev; [|discriminate]]; intros H; injection H as _ <-; cbn [ai_outer]; congruence.
  Qed.

  Lemma am_records_ok g a fuel addr : arep g a -> ~ registered g 0 -> (length g < fuel)%nat -> addr <> 0 ->
    exists a' l, am_records J fuel addr a = Ok a' l /\ listing g l /\ arep g a' /\ (mplain (am_map J a) -> mplain (am_map J a')).
  Proof.
    intros Ha Hg Hf Had. destruct (mi_begin J addr (am_map J a)) as [mm it] eqn:E.
    destruct (walk_from g fuel _ a addr addr mm it Ha Hg Hf Had E eq_refl) as (it1 & E1 & a' & l & W & R).
    exists a', l. split; [|exact R]. unfold am_records. rewrite E1. cbn [bind]. pose proof (ai_begin_addr _ _ _ _ E1) as Eo.
    destruct it1 as [o i]. cbn [ai_outer ai_inner] in *. rewrite <- Eo in W. exact W.
  Qed.

  Lemma am_records_of_ok g a fuel addr addr' s : arep g a -> ~ registered g 0 -> (length g < fuel)%nat -> addr <> 0 ->
    exists a' l, am_records_of J fuel addr addr' s a = Ok a' (filter (fun r => r_strat r =? s) l) /\ listing g l /\ arep g a' /\
      (mplain (am_map J a) -> mplain (am_map J a')).
  Proof.
    intros Ha Hg Hf Had. destruct (mi_begin J addr (am_map J a)) as [mm it] eqn:E.
    destruct (walk_from g fuel _ a addr addr' mm it Ha Hg Hf Had E eq_refl) as (it1 & E1 & a' & l & W & R).
    exists a', l. split; [|exact R]. unfold am_records_of. rewrite E1. cbn [bind]. rewrite W. reflexivity.
  Qed.

  (** ** Histories *)
  Lemma arep_step c s s' : arep (fst s) (snd s) -> astep J c s s' -> arep (fst s') (snd s').
  Proof.
    intros Hr Hs. destruct Hs; cbn [fst snd] in *.
    - destruct (am_insert_ok k r g a Hr H) as (a1 & E & R & _). rewrite E in H0. cbn in H0. now subst a1.
    - destruct (am_remove_ok k g a Hr H) as (a1 & E & R & _). destruct (records_at k g); rewrite E in H0; cbn in H0; now subst a1.
    - pose proof (am_find_record_any p g a Hr H) as Hf. unfold am_find in H0. destruct (am_find_record J p a) as [a1 [r|]| | | |]; cbn in H0; try contradiction; now subst a1.
    - pose proof (am_find_record_any p g a Hr H) as Hf. unfold am_contains in H0. destruct (am_find_record J p a) as [a1 r| | | |]; cbn in H0; try contradiction; now subst a1.
    - destruct Hr as [[c Hr] Hsz]. unfold am_clear in H. pose proof Hr as (_ & ks & Hks & _).
      pose proof (mm_clear_ok J sparse jrel jloc jplain JS fuel _ _ c ks Hr Hks) as Hc.
      destruct (mm_clear J fuel (am_map J a)) as [mm []| | | |]; cbn in H; try contradiction. subst a'.
      split; [exists CTop|reflexivity]. exact (proj1 Hc).
    - destruct (begin_any g a addr Hr) as (a1 & it & E & W). unfold am_records in H0. rewrite E in H0. cbn [bind] in H0.
      specialize (W fuel addr). pose proof (ai_begin_addr _ _ _ _ E) as Eo. destruct it as [o i]. cbn [ai_outer ai_inner] in *. rewrite <- Eo in W.
      destruct (ai_walk J fuel _ _); cbn in H0; try contradiction. subst a'. exact (proj1 W).
    - destruct (begin_any g a addr Hr) as (a1 & it & E & W). unfold am_records_of in H2. rewrite E in H2. cbn [bind] in H2.
      specialize (W fuel addr'). destruct (ai_walk J fuel _ _); cbn in H2; try contradiction. subst a'. exact (proj1 W).
  Qed.

  Lemma ahist_rep ok s : ahist J ok s -> arep (fst s) (snd s).
  Proof.
    induction 1; [|eapply arep_step; eauto]. split; [|reflexivity]. exists CTop.
    eapply mrep_ext; [|apply (mrep_init J sparse jrel jloc jplain JS)]. reflexivity.
  Qed.

  Lemma ahist_plain s : ahist J sparse s -> mplain (am_map J (snd s)).
  Proof.
    induction 1 as [|s c s' Hh IH Hs Hok]; [apply (mrep_init J sparse jrel jloc jplain JS)|].
    pose proof (ahist_rep _ _ Hh) as Hr. destruct Hs; cbn [fst snd] in *.
    - destruct (am_insert_ok k r g a Hr H) as (a1 & E & R & Hp). rewrite E in H0. cbn in H0. subst a1. auto.
    - destruct (am_remove_ok k g a Hr H) as (a1 & E & R & Hp). destruct (records_at k g); rewrite E in H0; cbn in H0; subst a1; auto.
    - destruct (am_find_record_ok p g a Hr IH H) as (a1 & r & E & _ & Hp & _). unfold am_find in H0. rewrite E in H0. destruct r; cbn in H0; now subst a1.
    - destruct (am_find_record_ok p g a Hr IH H) as (a1 & r & E & _ & Hp & _). unfold am_contains in H0. rewrite E in H0. cbn in H0; now subst a1.
    - destruct Hr as [[c Hr] Hsz]. unfold am_clear in H. pose proof Hr as (_ & ks & Hks & _).
      pose proof (mm_clear_ok J sparse jrel jloc jplain JS fuel _ _ c ks Hr Hks) as Hc.
      destruct (mm_clear J fuel (am_map J a)) as [mm []| | | |]; cbn in H; try contradiction. subst a'. now apply Hc.
    - destruct (begin_any g a addr Hr) as (a1 & it & E & W). unfold am_records in H0. rewrite E in H0. cbn [bind] in H0.
      specialize (W fuel addr). pose proof (ai_begin_addr _ _ _ _ E) as Eo. destruct it as [o i]. cbn [ai_outer ai_inner] in *. rewrite <- Eo in W.
      destruct (ai_walk J fuel _ _); cbn in H0; try contradiction. subst a'. now apply W.
    - destruct (begin_any g a addr Hr) as (a1 & it & E & W). unfold am_records_of in H2. rewrite E in H2. cbn [bind] in H2.
      specialize (W fuel addr'). destruct (ai_walk J fuel _ _); cbn in H2; try contradiction. subst a'. now apply W.
  Qed.

  (** ** The theorems *)
  Lemma at_insert ok g a k r : ahist J ok (g, a) -> addr_ok k -> exists a', am_insert J k r a = Ok a' tt.
  Proof. intros Hh Hk. destruct (am_insert_ok k r g a (ahist_rep _ _ Hh) Hk) as (a' & E & _). eauto. Qed.

  Lemma at_remove ok g a k : ahist J ok (g, a) -> addr_ok k ->
    exists a', am_remove J k a = match records_at k g with r :: _ => Ok a' r | [] => Throw a' RuntimeError end.
  Proof. intros Hh Hk. destruct (am_remove_ok k g a (ahist_rep _ _ Hh) Hk) as (a' & E & _). exists a'. destruct (records_at k g); exact E. Qed.

  (** The base address of a record is found whatever the other keys are. *)
  Lemma at_find_exact ok g a k r rs : ahist J ok (g, a) -> addr_ok k -> records_at k g = r :: rs -> r_ptr r = k ->
    exists a', am_find_record J k a = Ok a' (Some r).
  Proof.
    intros Hh Hk Er Ep. destruct (ahist_rep _ _ Hh) as [[c (H1 & _)] _]. cbn [fst snd] in H1.
    assert (Em : spec_of g k = Some (r :: rs)) by (apply spec_of_some; split; [exact Er|discriminate]).
    unfold am_find_record, mm_find_or_before. pose proof (js_strt _ _ _ _ _ JS _ _ _ _ H1 Hk) as Hs.
    destruct (j_strt J k (mm_j (am_map J a))) as [j ol]. destruct Hs as (_ & S1). destruct ol as [l|].
    - destruct S1 as [(E1 & _)|(k' & v & (L1 & L2 & L3) & E3 & E4 & E5)]; [congruence|].
      assert (Hle : k' <= k) by (apply L3; [unfold dom; congruence|cbn; lia]). cbn in L2. assert (k' = k) by lia. subst k'.
      destruct (js_read _ _ _ _ _ JS _ _ _ _ _ E3 E4) as [_ E6].
      rewrite E5, Z.eqb_refl. unfold mm_deref. cbn [mm_last mm_j]. rewrite E6, Em. rewrite Ep, Z.eqb_refl, orb_true_r. eauto.
    - destruct S1 as [_ S2]. specialize (S2 k ltac:(unfold dom; congruence)). lia.
  Qed.

  Lemma at_size ok g a : ahist J ok (g, a) -> am_size J a = w64 (Z.of_nat (length g)).
  Proof. intros Hh. apply (ahist_rep _ _ Hh). Qed.

  Lemma at_lookup g a p : ahist J sparse (g, a) -> addr_ok p ->
    exists a' res, am_find_record J p a = Ok a' res /\
      ((exists k r rs, records_at k g = r :: rs /\ k <= p /\ (forall x, registered g x -> x <= p -> x <= k) /\
         res = if (p <? w64 (r_ptr r + r_size r)) || (r_ptr r =? p) then Some r else None) \/
       ((forall x, registered g x -> p < x) /\ res = None)).
  Proof.
    intros Hh Hp. destruct (am_find_record_ok p g a (ahist_rep _ _ Hh) (ahist_plain _ Hh) Hp) as (a' & res & E & _ & _ & R). eauto.
  Qed.

  Lemma at_lookup_tidy g a p : ahist J sparse (g, a) -> tidy g -> addr_ok p ->
    exists a' res, am_find_record J p a = Ok a' res /\
      (forall r, res = Some r <-> (exists k, In (k, r) g) /\ covers r p).
  Proof.
    intros Hh [T1 T2] Hp. destruct (at_lookup g a p Hh Hp) as (a' & res & E & R). exists a', res. split; auto.
    destruct R as [(k & r & rs & Eg & Hk & Hmax & ->)|(Hn & ->)].
    - assert (Hin : In (k, r) g) by (apply records_at_In; rewrite Eg; simpl; auto). destruct (T1 _ _ Hin) as (-> & Hsz & Hlt).
      assert (Hpos : 0 <= r_ptr r).
      { pose proof (ahist_rep _ _ Hh) as [[c Hm] _]. assert (addr_ok (r_ptr r)); [|unfold addr_ok in *; lia].
        eapply (js_dom _ _ _ _ _ JS); [exact (proj1 Hm)|]. apply registered_dom. unfold registered. apply in_map_iff. exists (r_ptr r, r). auto. }
      unfold w64. rewrite (Z.mod_small (r_ptr r + r_size r)) by lia.
      assert (Hcv : (p <? r_ptr r + r_size r) || (r_ptr r =? p) = true <-> covers r p).
      { unfold covers. rewrite orb_true_iff, Z.ltb_lt, Z.eqb_eq. split; intros; lia. }
      intros s. split.
      + destruct ((p <? r_ptr r + r_size r) || (r_ptr r =? p)) eqn:Eb; [|discriminate]. intros X. injection X as <-. split; [eauto|]. now apply Hcv.
      + intros [[k Hs] Hc]. destruct (T1 _ _ Hs) as (-> & Hsz' & Hlt').
        assert (Hle : r_ptr s <= r_ptr r).
        { apply Hmax; [unfold registered; apply in_map_iff; exists (r_ptr s, s); auto|]. unfold covers in Hc. lia. }
        assert (Hsr : (r_ptr r, r) = (r_ptr s, s) \/ forall x, ~ (covers r x /\ covers s x)).
        { destruct (pairwise_in (fun a b : Z * arec => forall x, ~ (covers (snd a) x /\ covers (snd b) x))) with (l := g) (x := (r_ptr r, r)) (y := (r_ptr s, s)) as [X|X]; auto.
          - intros u v Huv x [X1 X2]. apply (Huv x). auto. }
        destruct Hsr as [X|X].
        * injection X as _ ->. apply Hcv in Hc. now rewrite Hc.
        * exfalso. apply (X (r_ptr r)). unfold covers in *. lia.
    - intros s. split; [discriminate|]. intros [[k Hin] Hc]. exfalso. destruct (T1 _ _ Hin) as (-> & Hsz & Hlt).
      assert (p < r_ptr s) by (apply Hn; unfold registered; apply in_map_iff; exists (r_ptr s, s); auto). unfold covers in Hc. lia.
  Qed.

  Lemma tidy_once g r r' p : tidy g -> (exists k, In (k, r) g) -> (exists k, In (k, r') g) -> covers r p -> covers r' p -> r = r'.
  Proof.
    intros [T1 T2] [k H] [k' H'] Hc Hc'.
    destruct (pairwise_in (fun a b : Z * arec => forall x, ~ (covers (snd a) x /\ covers (snd b) x))) with (l := g) (x := (k, r)) (y := (k', r')) as [X|X]; auto.
    - intros u v Huv x [X1 X2]. apply (Huv x). auto.
    - congruence.
    - exfalso. apply (X p). auto.
  Qed.

  Lemma at_records ok g a fuel addr : ahist J ok (g, a) -> ~ registered g 0 -> (length g < fuel)%nat -> addr <> 0 ->
    exists a' l, am_records J fuel addr a = Ok a' l /\ Permutation l (map snd g) /\
      exists ks, ascending ks /\ (forall x, In x ks <-> registered g x) /\ l = flat_map (fun k => records_at k g) ks.
  Proof.
    intros Hh H0 Hf Ha. destruct (am_records_ok g a fuel addr (ahist_rep _ _ Hh) H0 Hf Ha) as (a' & l & E & L & _).
    exists a', l. split; auto. split; auto. destruct L as (ks & L1 & L2 & ->). apply flat_records; [apply ascending_NoDup, L1|]. intros x Hx. apply L2, Hx.
  Qed.

  Lemma at_records_of ok g a fuel addr addr' s : ahist J ok (g, a) -> ~ registered g 0 -> (length g < fuel)%nat -> addr <> 0 ->
    exists a' l, am_records_of J fuel addr addr' s a = Ok a' l /\ Permutation l (filter (fun r => r_strat r =? s) (map snd g)).
  Proof.
    intros Hh H0 Hf Ha. destruct (am_records_of_ok g a fuel addr addr' s (ahist_rep _ _ Hh) H0 Hf Ha) as (a' & l & E & L & _).
    do 2 eexists. split; [exact E|]. destruct L as (ks & L1 & L2 & ->).
    assert (P : Permutation (flat_map (fun k => records_at k g) ks) (map snd g)).
    { apply flat_records; [apply ascending_NoDup, L1|]. intros x Hx. apply L2, Hx. }
    clear -P. induction P; cbn [filter].
    - constructor.
    - destruct (_ =? s); [constructor|]; auto.
    - destruct (r_strat x =? s), (r_strat y =? s); try constructor; reflexivity.
    - etransitivity; eauto.
  Qed.
End AllocMapThms.
