(** Histories of the pointer map and of the allocation map. *)
From Verif Require Import Base BaseFacts MapModel MapSpec MapFacts.

Section MapThms.
  Context {V : Type} (J : Judy V) (sparse : (Z -> Prop) -> Prop)
          (jrel : j_ty J -> fmap V -> cursor -> Prop) (jloc : j_ty J -> j_loc J -> Z -> Prop) (jplain : j_ty J -> Prop).
  Hypothesis JS : JudySpec J sparse jrel jloc jplain.
  Notation mrep := (mrep J jrel).
  Notation mplain := (mplain J jplain).

  Definition its_ok (s : mstate J) (c : cursor) : Prop :=
    forall a it, ms_its J s a = Some it -> a <> 0 /\ it_addr it = a /\ addr_ok (it_key it) /\
      (mm_oper (ms_map J s) = a -> it_key it <> 0 ->
         c = CPos (it_key it) \/ (c = CTop /\ forall x, ~ dom (ms_spec J s) x)).

  Definition minv (s : mstate J) : Prop := exists c, mrep (ms_map J s) (ms_spec J s) c /\ its_ok s c.

  Lemma zero_ok : addr_ok 0. Proof. unfold addr_ok, M64; lia. Qed.

  Lemma its_quiet m mm its c m' mm' c' : its_ok (mkMS J m mm its) c -> mm_oper mm' = 0 -> its_ok (mkMS J m' mm' its) c'.
  Proof.
    intros H E a it Hit. cbn [ms_its ms_map] in *. destruct (H a it Hit) as (H1 & H2 & H3 & _).
    split; auto. split; auto. split; auto. cbn [ms_map]. intros. congruence.
  Qed.

  Lemma least_ok mm m c lo k v : mrep mm m c -> least_above m lo k v -> addr_ok k.
  Proof. intros [H _] (E & _). eapply (js_dom _ _ _ _ _ JS); eauto. unfold dom. congruence. Qed.

  Lemma minv_step s c s' : minv s -> mstep J c s s' -> minv s'.
  Proof.
    intros (cu & Hr & Hi) Hs. destruct Hs; cbn [ms_spec ms_map ms_its] in *.
    - destruct (mm_insert_ok J sparse jrel jloc jplain JS k v mm m cu Hr H) as (mm1 & E & R1 & R2 & R3 & R4).
      rewrite E in H0. injection H0 as <- <- <-. exists (CPos k). split; [exact R1|]. eapply its_quiet; eauto.
    - destruct (mm_find_ok J sparse jrel jloc jplain JS k mm m cu Hr H) as (mm1 & k1 & cf & E & R1 & R2 & R3 & R4).
      rewrite E in H0. injection H0 as <- <-. exists cf. split; [exact R1|]. eapply its_quiet; eauto.
    - destruct (mm_find_or_before_any J sparse jrel jloc jplain JS k mm m cu Hr H) as (mm1 & c' & E & R1 & R2).
      rewrite H0 in E. cbn [fst] in E. subst mm1. exists c'. split; [exact R1|]. eapply its_quiet; eauto.
    - pose proof (mm_erase_ok J sparse jrel jloc jplain JS k mm m cu Hr H) as He. destruct (m k).
      + destruct He as (mm1 & E & R1 & R2 & R3). rewrite E in H0. injection H0 as <-. exists CLost. split; [exact R1|]. eapply its_quiet; eauto.
      + destruct He as [E|(mm1 & E & _)]; rewrite E in H0; discriminate.
    - pose proof (mm_erase_ok J sparse jrel jloc jplain JS k mm m cu Hr H) as He. destruct (m k).
      + destruct He as (mm1 & E & R1 & R2 & R3). rewrite E in H0. discriminate.
      + destruct He as [E|(mm1 & E & R1 & R2 & R3)]; rewrite E in H0; [discriminate|]. injection H0 as <- _.
        exists (CGap k). split; [exact R1|]. eapply its_quiet; eauto.
    - pose proof Hr as (_ & ks & Hks & _). pose proof (mm_clear_ok J sparse jrel jloc jplain JS fuel mm m cu ks Hr Hks) as Hc.
      rewrite H in Hc. destruct Hc as (R1 & R2 & R3). exists CTop. split; [exact R1|].
      intros a it Hit. cbn [ms_its ms_map ms_spec] in *. destruct (Hi a it Hit) as (I1 & I2 & I3 & _).
      split; auto. split; auto. split; auto.
    - destruct (mi_begin_ok J sparse jrel jloc jplain JS a mm m cu Hr) as (mm1 & it1 & E & R1 & R2 & R3 & R4).
      rewrite E in H0. injection H0 as <- <-.
      destruct R4 as [(k & v & HL & Eit & R)|(Hn & Eit & R)].
      + exists (CPos k). split; [exact R|]. intros b itb Hb. cbn [ms_its ms_map ms_spec] in *. unfold fset in Hb.
        destruct (Z.eqb_spec b a) as [->|Hne].
        * injection Hb as <-. subst it1. cbn [it_addr it_key]. split; auto. split; auto. split; [eapply least_ok; eauto|]. auto.
        * destruct (Hi b itb Hb) as (I1 & I2 & I3 & _). do 3 (split; [assumption|]); congruence.
      + exists CTop. split; [exact R|]. intros b itb Hb. cbn [ms_its ms_map ms_spec] in *. unfold fset in Hb.
        destruct (Z.eqb_spec b a) as [->|Hne].
        * injection Hb as <-. subst it1. cbn [it_addr it_key]. split; auto. split; auto. split; [apply zero_ok|]. congruence.
        * destruct (Hi b itb Hb) as (I1 & I2 & I3 & _). do 3 (split; [assumption|]); congruence.
    - destruct (Hi a it H) as (I1 & I2 & I3 & I4). cbn [ms_map ms_spec] in I4.
      destruct (mi_next_ok J sparse jrel jloc jplain JS it mm m cu Hr H0 I3) as (mm1 & it1 & E & R1 & R2 & R3 & R4).
      { rewrite I2. auto. }
      rewrite E in H1. injection H1 as <- <-. rewrite I2 in *.
      destruct R4 as [(k & v & HL & Eit & R)|(Hn & Eit & R)].
      + exists (CPos k). split; [exact R|]. intros b itb Hb. cbn [ms_its ms_map ms_spec] in *. unfold fset in Hb.
        destruct (Z.eqb_spec b a) as [->|Hne].
        * injection Hb as <-. subst it1. cbn [it_addr it_key]. split; auto. split; auto. split; [eapply least_ok; eauto|]. auto.
        * destruct (Hi b itb Hb) as (J1 & J2 & J3 & _). do 3 (split; [assumption|]); congruence.
      + exists CTop. split; [exact R|]. intros b itb Hb. cbn [ms_its ms_map ms_spec] in *. unfold fset in Hb.
        destruct (Z.eqb_spec b a) as [->|Hne].
        * injection Hb as <-. split; auto. split; auto. rewrite Eit. split; [apply zero_ok|]. congruence.
        * destruct (Hi b itb Hb) as (J1 & J2 & J3 & _). do 3 (split; [assumption|]); congruence.
    - exists cu. split; [exact Hr|]. intros x itx Hx. cbn [ms_its ms_map ms_spec] in *. unfold fset in Hx.
      destruct (Z.eqb_spec x b) as [->|Hne]; [|apply (Hi x itx Hx)].
      injection Hx as <-. cbn [it_addr it_key]. destruct (Hi a it H0) as (I1 & I2 & I3 & _). split; [auto|]. split; [auto|]. split; [auto|congruence].
  Qed.

  Lemma mhist_inv ok s : mhist J ok s -> minv s.
  Proof.
    induction 1; [|eapply minv_step; eauto]. exists CTop. split; [apply (mrep_init J sparse jrel jloc jplain JS)|].
    intros a it H. discriminate.
  Qed.

  Lemma mhist_plain s : mhist J sparse s -> mplain (ms_map J s).
  Proof.
    induction 1 as [|s c s' Hh IH Hs Hok]; [apply (mrep_init J sparse jrel jloc jplain JS)|].
    pose proof (mhist_inv _ _ Hh) as (cu & Hr & Hi). destruct Hs; cbn [ms_spec ms_map ms_its] in *.
    - destruct (mm_insert_ok J sparse jrel jloc jplain JS k v mm m cu Hr H) as (mm1 & E & R1 & R2 & R3 & R4).
      rewrite E in H0. injection H0 as <- <- <-. apply R4; auto. eapply (js_sparse _ _ _ _ _ JS); [|exact Hok].
      intros x [->|Hx]; destruct (m k) as [v0|] eqn:Em; auto.
      + unfold dom. congruence.
      + unfold dom. rewrite fset_eq. discriminate.
      + unfold dom, fset in *. destruct (x =? k); auto. discriminate.
    - destruct (mm_find_ok J sparse jrel jloc jplain JS k mm m cu Hr H) as (mm1 & k1 & cf & E & R1 & R2 & R3 & R4).
      rewrite E in H0. injection H0 as <- <-. auto.
    - destruct (mm_find_or_before_ok J sparse jrel jloc jplain JS k mm m cu Hr H IH) as (mm1 & k1 & ov & c' & E & _ & _ & R & _).
      rewrite E in H0. injection H0 as <- <-. auto.
    - pose proof (mm_erase_ok J sparse jrel jloc jplain JS k mm m cu Hr H) as He. destruct (m k).
      + destruct He as (mm1 & E & R1 & R2 & R3). rewrite E in H0. injection H0 as <-. auto.
      + destruct He as [E|(mm1 & E & _)]; rewrite E in H0; discriminate.
    - pose proof (mm_erase_ok J sparse jrel jloc jplain JS k mm m cu Hr H) as He. destruct (m k).
      + destruct He as (mm1 & E & R1 & R2 & R3). rewrite E in H0. discriminate.
      + destruct He as [E|(mm1 & E & R1 & R2 & R3)]; rewrite E in H0; [discriminate|]. injection H0 as <- _. auto.
    - pose proof Hr as (_ & ks & Hks & _). pose proof (mm_clear_ok J sparse jrel jloc jplain JS fuel mm m cu ks Hr Hks) as Hc.
      rewrite H in Hc. destruct Hc as (R1 & R2 & R3). auto.
    - destruct (mi_begin_ok J sparse jrel jloc jplain JS a mm m cu Hr) as (mm1 & it1 & E & R1 & R2 & R3 & R4).
      rewrite E in H0. injection H0 as <- <-. auto.
    - destruct (Hi a it H) as (I1 & I2 & I3 & I4). cbn [ms_map ms_spec] in I4.
      destruct (mi_next_ok J sparse jrel jloc jplain JS it mm m cu Hr H0 I3) as (mm1 & it1 & E & R1 & R2 & R3 & R4).
      { rewrite I2. auto. }
      rewrite E in H1. injection H1 as <- <-. auto.
    - auto.
  Qed.

  (** ** The results of each call *)

  Lemma mt_insert ok s k v : mhist J ok s -> addr_ok k ->
    exists mm', mm_insert J k v (ms_map J s) =
      (mm', (k, Some (match ms_spec J s k with Some v0 => v0 | None => v end)),
       match ms_spec J s k with Some _ => false | None => true end).
  Proof.
    intros Hh Hk. destruct (mhist_inv _ _ Hh) as (cu & Hr & _).
    destruct (mm_insert_ok J sparse jrel jloc jplain JS k v _ _ cu Hr Hk) as (mm1 & E & _). eauto.
  Qed.

  Lemma mt_find ok s k : mhist J ok s -> addr_ok k ->
    exists mm' k', mm_find J k (ms_map J s) = (mm', (k', ms_spec J s k)) /\ (dom (ms_spec J s) k -> k' = k).
  Proof.
    intros Hh Hk. destruct (mhist_inv _ _ Hh) as (cu & Hr & _).
    destruct (mm_find_ok J sparse jrel jloc jplain JS k _ _ cu Hr Hk) as (mm1 & k1 & cf & E & _ & _ & R & _).
    exists mm1, k1. split; auto. intros Hd. now apply R.
  Qed.

  Lemma mt_size ok s : mhist J ok s ->
    exists ks, keys_of (ms_spec J s) ks /\ mm_size (ms_map J s) = w64 (Z.of_nat (length ks)).
  Proof. intros Hh. destruct (mhist_inv _ _ Hh) as (cu & (_ & Hr) & _). exact Hr. Qed.

  Lemma mt_find_or_before s k : mhist J sparse s -> addr_ok k ->
    exists mm' k' ov, mm_find_or_before J k (ms_map J s) = (mm', (k', ov)) /\
      match ov with
      | Some v => greatest_below (ms_spec J s) (Some (k + 1)) k' v
      | None => forall x, dom (ms_spec J s) x -> k < x
      end.
  Proof.
    intros Hh Hk. destruct (mhist_inv _ _ Hh) as (cu & Hr & _). pose proof (mhist_plain _ Hh) as Hp.
    destruct (mm_find_or_before_ok J sparse jrel jloc jplain JS k _ _ cu Hr Hk Hp) as (mm1 & k1 & ov & c' & E & _ & _ & _ & R).
    exists mm1, k1, ov. auto.
  Qed.

  Lemma mt_erase ok s k : mhist J ok s -> addr_ok k -> dom (ms_spec J s) k ->
    exists mm', mm_erase J k (ms_map J s) = Ok mm' tt.
  Proof.
    intros Hh Hk Hd. destruct (mhist_inv _ _ Hh) as (cu & Hr & _).
    pose proof (mm_erase_ok J sparse jrel jloc jplain JS k _ _ cu Hr Hk) as He. unfold dom in Hd.
    destruct (ms_spec J s k); [|congruence]. destruct He as (mm' & E & _). eauto.
  Qed.

  Lemma mt_erase_absent ok s k mm' : mhist J ok s -> addr_ok k -> ~ dom (ms_spec J s) k -> mm_erase J k (ms_map J s) <> Ok mm' tt.
  Proof.
    intros Hh Hk Hd. destruct (mhist_inv _ _ Hh) as (cu & Hr & _).
    pose proof (mm_erase_ok J sparse jrel jloc jplain JS k _ _ cu Hr Hk) as He. unfold dom in Hd.
    destruct (ms_spec J s k); [exfalso; apply Hd; discriminate|]. destruct He as [E|(mm1 & E & _)]; rewrite E; discriminate.
  Qed.

  Lemma mt_clear ok s ks fuel : mhist J ok s -> keys_of (ms_spec J s) ks -> (length ks < fuel)%nat ->
    exists mm', mm_clear J fuel (ms_map J s) = Ok mm' tt.
  Proof.
    intros Hh Hk Hf. destruct (mhist_inv _ _ Hh) as (cu & Hr & _).
    pose proof (mm_clear_ok J sparse jrel jloc jplain JS fuel _ _ cu ks Hr Hk) as He.
    destruct (mm_clear J fuel (ms_map J s)) as [mm' []| | | |]; try contradiction; [eauto|lia].
  Qed.

  Lemma mt_begin ok s a : mhist J ok s ->
    (exists mm' k v, mi_begin J a (ms_map J s) = (mm', mkIt a k (Some v)) /\ least_above (ms_spec J s) None k v) \/
    (exists mm', mi_begin J a (ms_map J s) = (mm', mi_end a) /\ forall x, ~ dom (ms_spec J s) x).
  Proof.
    intros Hh. destruct (mhist_inv _ _ Hh) as (cu & Hr & _).
    destruct (mi_begin_ok J sparse jrel jloc jplain JS a _ _ cu Hr) as (mm1 & it1 & E & R1 & R2 & R3 & R4).
    destruct R4 as [(k & v & HL & Eit & R)|(Hn & Eit & R)]; subst it1; [left|right]; eauto 6.
  Qed.

  (** An iterator moves to the least key above its own in the present contents, whatever other
      calls were made since it was positioned. *)
  Lemma mt_next ok s a it : mhist J ok s -> ms_its J s a = Some it -> it_key it <> 0 ->
    exists mm' it', mi_next J it (ms_map J s) = (mm', it') /\ it_addr it' = a /\
      ((exists k v, least_above (ms_spec J s) (Some (it_key it)) k v /\ it_key it' = k /\ it_val it' = Some v) \/
       ((forall x, dom (ms_spec J s) x -> x <= it_key it) /\ mi_eq it' (mi_end 0) = true)).
  Proof.
    intros Hh Hit Hk. destruct (mhist_inv _ _ Hh) as (cu & Hr & Hi). destruct (Hi a it Hit) as (I1 & I2 & I3 & I4).
    destruct (mi_next_ok J sparse jrel jloc jplain JS it _ _ cu Hr Hk I3) as (mm1 & it1 & E & R1 & R2 & R3 & R4).
    { rewrite I2. auto. }
    exists mm1, it1. split; auto. split; [congruence|].
    destruct R4 as [(k & v & HL & Eit & R)|(Hn & Eit & R)]; [left|right].
    - subst it1. eauto.
    - split; auto. unfold mi_eq, mi_end. cbn [it_key]. rewrite Eit. reflexivity.
  Qed.

  (** ** Walking *)
  Lemma walk_ok fuel : forall it mm m c ks, mrep mm m c -> keys_of m ks -> ~ dom m 0 ->
    (mm_oper mm = it_addr it -> it_key it <> 0 -> c = CPos (it_key it)) ->
    (it_key it <> 0 -> dom m (it_key it) /\ it_val it = m (it_key it)) ->
    (length (filter (fun x => (it_key it <=? x)%Z) ks) < fuel)%nat \/ (it_key it = 0 /\ (0 < fuel)%nat) ->
    exists mm' l c', mi_walk J fuel it mm = Some (mm', l) /\ mrep mm' m c' /\ ascending (map fst l) /\
      forall k ov, In (k, ov) l <-> it_key it <> 0 /\ it_key it <= k /\ dom m k /\ ov = m k.
  Proof.
    induction fuel as [|f IH]; intros it mm m c ks Hr Hks H0 Hc Hv Hf; [lia|]. cbn [mi_walk].
    unfold mi_eq at 1, mi_end at 1. cbn [it_key]. destruct (Z.eqb_spec (it_key it) 0) as [E0|E0].
    - exists mm, [], c. split; auto. split; auto. split; [exact I|]. intros k ov. split; [intros []|tauto].
    - destruct (Hv E0) as [Hd Hval]. assert (Hak : addr_ok (it_key it)) by (eapply (js_dom _ _ _ _ _ JS); [exact (proj1 Hr)|exact Hd]).
      destruct (mi_next_ok J sparse jrel jloc jplain JS it mm m c Hr E0 Hak) as (mm1 & it1 & E & R1 & R2 & R3 & R4); [auto|].
      rewrite E. destruct Hf as [Hf|[Hf _]]; [|contradiction].
      destruct R4 as [(k & v & HL & Eit & R)|(Hn & Eit & R)].
      + assert (Hk0 : k <> 0) by (intros ->; apply H0; unfold dom; rewrite (proj1 HL); discriminate).
        destruct HL as (L1 & L2 & L3). cbn in L2.
        destruct (IH it1 mm1 m (CPos k) ks R Hks H0) as (mm2 & l & c' & W1 & W2 & W3 & W4).
        * intros _ _. now subst it1.
        * intros _. subst it1. cbn [it_key it_val]. split; [unfold dom; congruence|auto].
        * left. apply -> Nat.lt_succ_r in Hf. eapply Nat.lt_le_trans; [|exact Hf]. subst it1. cbn [it_key].
          assert (Hin : In (it_key it) ks) by (apply Hks, Hd). clear -Hin L2. revert Hin. induction ks as [|x ks IHk]; [intros []|].
          assert (Hmono : (length (filter (fun y => (k <=? y)%Z) ks) <= length (filter (fun y => (it_key it <=? y)%Z) ks))%nat).
          { clear -L2. induction ks as [|y ks IHk]; cbn [filter length]; auto. destruct (Z.leb_spec k y), (Z.leb_spec (it_key it) y); cbn [length]; lia. }
          intros [->|Hin]; cbn [filter].
          -- rewrite Z.leb_refl. destruct (Z.leb_spec k (it_key it)); cbn [length]; lia.
          -- specialize (IHk Hin). destruct (Z.leb_spec k x), (Z.leb_spec (it_key it) x); cbn [length]; lia.
        * rewrite W1. do 3 eexists. split; [reflexivity|]. split; [exact W2|]. cbn [map fst ascending]. split.
          -- split; auto. intros y Hy. apply in_map_iff in Hy as ((k2 & ov) & <- & Hy). apply W4 in Hy as (_ & Hy & _).
             subst it1. cbn [it_key fst] in *. lia.
          -- intros x ov. cbn [In]. rewrite W4. subst it1. cbn [it_key]. split.
             ++ intros [Ex|(_ & X1 & X2 & X3)]; [injection Ex as <- <-|]; repeat split; auto; try lia.
             ++ intros (_ & X1 & X2 & X3). destruct (Z.eq_dec x (it_key it)) as [->|Hne]; [left; congruence|].
                right. split; auto. split; auto. apply L3; auto. cbn. lia.
      + destruct (IH it1 mm1 m CTop ks R Hks H0) as (mm2 & l & c' & W1 & W2 & W3 & W4).
        * congruence.
        * congruence.
        * right. split; auto. assert (Hin : In (it_key it) (filter (fun x => (it_key it <=? x)%Z) ks)) by (apply filter_In; split; [apply Hks, Hd|apply Z.leb_refl]). destruct (filter _ ks); [destruct Hin|cbn [length] in Hf; lia].
        * rewrite W1. do 3 eexists. split; [reflexivity|]. split; [exact W2|]. cbn [map fst ascending].
          assert (El : l = []). { destruct l as [|[x ov] l]; auto. destruct (proj1 (W4 x ov) ltac:(simpl; auto)) as (X & _). congruence. }
          subst l. split; [cbn; tauto|]. intros x ov. cbn [In]. split.
          -- intros [Ex|[]]. injection Ex as <- <-. repeat split; auto; lia.
          -- intros (_ & X1 & X2 & X3). specialize (Hn x X2). assert (x = it_key it) by lia. subst x. left. congruence.
  Qed.

  Lemma mt_walk ok s a ks : mhist J ok s -> keys_of (ms_spec J s) ks -> ~ dom (ms_spec J s) 0 ->
    exists l mm1 mm2 it, mi_begin J a (ms_map J s) = (mm1, it) /\ mi_walk J (S (length ks)) it mm1 = Some (mm2, l) /\
      ascending (map fst l) /\ forall k ov, In (k, ov) l <-> dom (ms_spec J s) k /\ ov = ms_spec J s k.
  Proof.
    intros Hh Hks H0. destruct (mhist_inv _ _ Hh) as (cu & Hr & _).
    destruct (mi_begin_ok J sparse jrel jloc jplain JS a _ _ cu Hr) as (mm1 & it & E & R1 & R2 & R3 & R4).
    destruct R4 as [(k & v & HL & Eit & R)|(Hn & Eit & R)].
    - destruct (walk_ok (S (length ks)) it mm1 (ms_spec J s) (CPos k) ks R Hks H0) as (mm2 & l & c' & W1 & W2 & W3 & W4).
      + intros _ _. now subst it.
      + intros _. subst it. cbn [it_key it_val]. destruct HL as (L1 & _). split; [unfold dom; congruence|auto].
      + left. apply -> Nat.lt_succ_r. clear. induction ks as [|x ks IH]; cbn [filter length]; auto. destruct (_ <=? x); cbn [length]; lia.
      + exists l, mm1, mm2, it. split; auto. split; auto. split; auto. intros x ov. rewrite W4. subst it. cbn [it_key].
        assert (k <> 0) by (intros ->; apply H0; unfold dom; rewrite (proj1 HL); discriminate).
        split; [tauto|]. intros [X1 X2]. split; auto. split; auto. apply HL; cbn; auto.
    - subst it. exists [], mm1, mm1, (mkIt a 0 None). split; auto. split; [reflexivity|]. split; [exact I|].
      intros k ov. split; [intros []|intros [X _]; elim (Hn k X)].
  Qed.
End MapThms.
