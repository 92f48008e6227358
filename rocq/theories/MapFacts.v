(** MemoryMap behaves as a finite map, over any Judy array meeting [JudySpec]. *)
From Verif Require Import Base BaseFacts MapModel MapSpec.

Lemma keys_of_set {V} (m : fmap V) k v l : keys_of m l -> m k = None -> keys_of (fset m k v) (k :: l).
Proof.
  intros [H1 H2] Hk. split.
  - constructor; auto. rewrite H2. unfold dom. congruence.
  - intros x. cbn [In]. rewrite H2. unfold dom, fset. destruct (Z.eqb_spec x k) as [->|Hn].
    + split; [discriminate|auto].
    + split; [intros [E|E]; congruence|auto].
Qed.

Lemma keys_of_update {V} (m : fmap V) k v l : keys_of m l -> dom m k -> keys_of (fset m k v) l.
Proof.
  intros [H1 H2] Hk. split; auto. intros x. rewrite H2. unfold dom, fset in *. destruct (Z.eqb_spec x k) as [->|Hn]; [|reflexivity].
  split; auto. discriminate.
Qed.

Lemma keys_of_del {V} (m : fmap V) k l : keys_of m l -> dom m k ->
  exists l', keys_of (fdel m k) l' /\ length l = S (length l').
Proof.
  intros [H1 H2] Hk. apply H2 in Hk. apply in_split in Hk as (a & b & ->). exists (a ++ b).
  apply NoDup_remove in H1 as [H3 H4]. split; [|rewrite !app_length; cbn [length]; lia]. split; auto.
  intros x. unfold dom, fdel. specialize (H2 x). destruct (Z.eqb_spec x k) as [->|Hn].
  - split; [contradiction|congruence].
  - rewrite in_app_iff in H2 |- *. cbn [In] in H2. unfold dom in H2. rewrite <- H2. split; intuition congruence.
Qed.

Lemma keys_of_ext {V} (m m' : fmap V) l : (forall k, m k = m' k) -> keys_of m l -> keys_of m' l.
Proof. intros H [H1 H2]. split; auto. intros k. rewrite H2. unfold dom. now rewrite H. Qed.

Lemma keys_of_nil {V} (m : fmap V) l : keys_of m l -> (forall x, ~ dom m x) -> l = [].
Proof. intros [_ H] Hn. destruct l as [|x l]; auto. exfalso. apply (Hn x), H. simpl; auto. Qed.

Lemma keys_of_length {V} (m : fmap V) l l' : keys_of m l -> keys_of m l' -> length l = length l'.
Proof.
  intros [H1 H2] [H3 H4]. apply Permutation_length, NoDup_Permutation; auto. intros x. now rewrite H2, H4.
Qed.

Section Facts.
  Context {V : Type} (J : Judy V) (sparse : (Z -> Prop) -> Prop)
          (jrel : j_ty J -> fmap V -> cursor -> Prop) (jloc : j_ty J -> j_loc J -> Z -> Prop) (jplain : j_ty J -> Prop).
  Hypothesis JS : JudySpec J sparse jrel jloc jplain.

  (** The map holds [m]; its cursor is [c]. *)
  Definition mrep (mm : mmap J) (m : fmap V) (c : cursor) : Prop :=
    jrel (mm_j mm) m c /\ exists ks, keys_of m ks /\ mm_size mm = w64 (Z.of_nat (length ks)).

  Definition mplain (mm : mmap J) : Prop := jplain (mm_j mm).

  (** [m_last] is the cell of [k]. *)
  Definition mat (mm : mmap J) (k : Z) : Prop := exists l, mm_last mm = Some l /\ jloc (mm_j mm) l k.

  Lemma mat_deref mm m c k : mrep mm m c -> mat mm k -> dom m k /\ mm_deref J mm = m k.
  Proof. intros [H _] (l & E & Hl). unfold mm_deref. rewrite E. exact (js_read _ _ _ _ _ JS _ _ _ _ _ H Hl). Qed.

  Lemma mrep_init : mrep (mm_init J) fempty CTop /\ mplain (mm_init J).
  Proof.
    destruct (js_open _ _ _ _ _ JS) as [H1 H2]. split; [split; [exact H1|]|exact H2].
    exists []. split; [split; [constructor|intros k; split; [intros []|intros H; apply H; reflexivity]]|reflexivity].
  Qed.

  Lemma mm_assign_ok v mm m c k : mrep mm m c -> mat mm k ->
    mrep (mm_assign J v mm) (fset m k v) c /\ mat (mm_assign J v mm) k /\ (mplain mm -> mplain (mm_assign J v mm)).
  Proof.
    intros (H1 & ks & H2 & H3) (l & E & Hl). unfold mm_assign. rewrite E.
    destruct (js_write _ _ _ _ _ JS _ _ _ _ _ v H1 Hl) as (W1 & W2 & W3).
    split; [|split; [exists l; split; auto|exact W3]]. split; [exact W1|]. exists ks. split; auto.
    apply keys_of_update; auto. apply (js_read _ _ _ _ _ JS _ _ _ _ _ H1 Hl).
  Qed.

  Lemma mm_insert_ok k v mm m c : mrep mm m c -> addr_ok k ->
    exists mm', mm_insert J k v mm =
                  (mm', (k, Some (match m k with Some v0 => v0 | None => v end)), match m k with Some _ => false | None => true end) /\
      mrep mm' (match m k with Some _ => m | None => fset m k v end) (CPos k) /\ mat mm' k /\ mm_oper mm' = 0 /\
      (mplain mm -> sparse (fun x => x = k \/ dom m x) -> mplain mm').
  Proof.
    intros (H1 & ks & H2 & H3) Hk. unfold mm_insert. pose proof (js_cell _ _ _ _ _ JS _ _ _ _ H1 Hk) as Hc.
    destruct (j_cell J k (mm_j mm)) as [j l]. destruct Hc as [Hc Hp]. destruct (m k) as [v0|] eqn:Em.
    - destruct Hc as [C1 C2]. destruct (js_read _ _ _ _ _ JS _ _ _ _ _ C1 C2) as [_ Er]. rewrite Er, Em.
      eexists. split; [unfold mm_deref; cbn [mm_last mm_j]; rewrite Er, Em; reflexivity|].
      split; [split; [exact C1|exists ks; auto]|]. split; [exists l; auto|]. split; auto. intros P1 P2. apply (Hp P1 P2).
    - destruct Hc as [C1 C2]. rewrite C1. destruct (C2 v) as [C3 C4].
      destruct (js_read _ _ _ _ _ JS _ _ _ _ _ C3 C4) as [_ Er].
      eexists. split; [unfold mm_deref; cbn [mm_last mm_j]; rewrite Er, fset_eq; reflexivity|].
      split; [split; [exact C3|]|]. { exists (k :: ks). split; [now apply keys_of_set|]. cbn [mm_size length]. rewrite H3.
        unfold w64. rewrite Zplus_mod_idemp_l. f_equal. lia. }
      split; [exists l; auto|]. split; auto. intros P1 P2. apply (Hp P1 P2).
  Qed.

  Lemma mm_find_ok k mm m c : mrep mm m c -> addr_ok k ->
    exists mm' k' c', mm_find J k mm = (mm', (k', m k)) /\ mrep mm' m c' /\ mm_oper mm' = 0 /\
      (dom m k -> mat mm' k /\ k' = k /\ c' = CPos k) /\ (mplain mm -> mplain mm').
  Proof.
    intros (H1 & ks & H2 & H3) Hk. unfold mm_find. pose proof (js_slot _ _ _ _ _ JS _ _ _ _ H1 Hk) as Hs.
    destruct (j_slot J k (mm_j mm)) as [j ol]. destruct Hs as (S1 & S2 & S3).
    destruct (m k) as [v|] eqn:Em; destruct ol as [l|]; try contradiction.
    - destruct (js_read _ _ _ _ _ JS _ _ _ _ _ S1 S3) as [_ Er]. do 3 eexists.
      split; [unfold mm_deref; cbn [mm_last mm_j]; rewrite Er, Em; reflexivity|].
      split; [split; [exact S1|exists ks; auto]|]. split; auto. split; [|exact S2]. intros _. split; auto. exists l. auto.
    - do 3 eexists. split; [unfold mm_deref; cbn [mm_last mm_j]; rewrite S3; reflexivity|].
      split; [split; [exact S1|exists ks; auto]|]. split; auto. split; [|exact S2]. intros Hd. elim Hd. exact Em.
    - do 3 eexists. split; [reflexivity|].
      split; [split; [exact S1|exists ks; auto]|]. split; auto. split; [|exact S2]. intros Hd. elim Hd. exact Em.
  Qed.

  Lemma mm_find_or_before_ok k mm m c : mrep mm m c -> addr_ok k -> mplain mm ->
    exists mm' k' ov c', mm_find_or_before J k mm = (mm', (k', ov)) /\ mrep mm' m c' /\ mm_oper mm' = 0 /\ mplain mm' /\
      match ov with
      | Some v => greatest_below m (Some (k + 1)) k' v
      | None => forall x, dom m x -> k < x
      end.
  Proof.
    intros (H1 & ks & H2 & H3) Hk Hp. unfold mm_find_or_before. pose proof (js_strt _ _ _ _ _ JS _ _ _ _ H1 Hk) as Hs.
    destruct (j_strt J k (mm_j mm)) as [j ol]. destruct Hs as (S0 & S1). specialize (S0 Hp).
    assert (Hprv : forall c' hi, jrel j m c' -> c' <> CLost -> (forall k, c' <> CGap k) -> above c' = hi -> (forall x, dom m x -> lt_opt hi x -> x <= k) ->
              (forall x, dom m x -> x <= k -> lt_opt hi x) -> forall parent,
              exists mm' k' ov c'', (let '(j2, l2) := j_prv J j in
                 (mkMM j2 l2 0 (mm_size mm), (j_key J j2 parent, mm_deref J (mkMM j2 l2 0 (mm_size mm))))) = (mm', (k', ov)) /\
                 mrep mm' m c'' /\ mm_oper mm' = 0 /\ mplain mm' /\
                 match ov with Some v => greatest_below m (Some (k + 1)) k' v | None => forall x, dom m x -> k < x end).
    { intros c' hi R1 R2 R2' <- R3 R4 parent. pose proof (js_prv _ _ _ _ _ JS _ _ _ R1 R2 R2' S0) as Hv.
      destruct (j_prv J j) as [j2 ol2]. destruct Hv as [V1 V2]. destruct ol2 as [l2|].
      - destruct V2 as (k' & v & (G1 & G2 & G3) & V3 & V4 & V5).
        destruct (js_read _ _ _ _ _ JS _ _ _ _ _ V3 V4) as [Vd Er].
        exists (mkMM j2 (Some l2) 0 (mm_size mm)), k', (Some v), (CPos k').
        split; [unfold mm_deref; cbn [mm_last mm_j]; rewrite Er, V5, G1; reflexivity|].
        split; [split; [exact V3|exists ks; auto]|]. split; auto. split; auto. split; auto.
        assert (k' <= k) by (apply R3; auto). split; [cbn; lia|]. intros x Hx Hl. cbn in Hl. apply G3; auto. apply R4; auto. lia.
      - destruct V2 as (V3 & V4). exists (mkMM j2 None 0 (mm_size mm)), (j_key J j2 parent), None, CTop.
        split; [reflexivity|]. split; [split; [exact V3|exists ks; auto]|]. split; auto. split; auto.
        intros x Hx. destruct (Z.lt_ge_cases k x); auto. elim (V4 x Hx). apply R4; auto. }
    destruct ol as [l|].
    - destruct S1 as [(E1 & E2 & E3 & E4)|(k' & v & (L1 & L2 & L3) & E3 & E4 & E5)].
      + rewrite E4, Z.eqb_refl. unfold mm_deref at 1. cbn [mm_last mm_j]. rewrite E2.
        apply (Hprv (CPos k) (Some k)); auto; [discriminate|discriminate|intros x Hx Hl; cbn in Hl; lia|].
        intros x Hx Hle. cbn. assert (x <> k) by (intros ->; apply Hx, E1). lia.
      + cbn in L2. rewrite E5. unfold mm_deref at 1. cbn [mm_last mm_j]. destruct (js_read _ _ _ _ _ JS _ _ _ _ _ E3 E4) as [_ Er].
        rewrite Er, L1. destruct (Z.eqb_spec k' k) as [->|Hn].
        * exists (mkMM j (Some l) 0 (mm_size mm)), k, (Some v), (CPos k). split; [reflexivity|].
          split; [split; [exact E3|exists ks; auto]|]. split; auto. split; auto. split; auto. split; [cbn; lia|].
          intros x _ Hl. cbn in Hl. lia.
        * apply (Hprv (CPos k') (Some k')); auto; [discriminate|discriminate| |].
          -- intros x Hx Hl. cbn in Hl. destruct (Z.lt_ge_cases k x); auto. assert (k' <= x) by (apply L3; cbn; auto; lia). lia.
          -- intros x Hx Hle. cbn. lia.
    - destruct S1 as [S2 S3]. assert (Hd : mm_deref J (mkMM j None 0 (mm_size mm)) = None) by reflexivity.
      assert (HH := Hprv CTop None S2 ltac:(discriminate) ltac:(discriminate) eq_refl ltac:(intros x Hx _; specialize (S3 x Hx); lia) ltac:(cbn; auto) (j_key J j 0)).
      rewrite Hd. destruct (j_key J j 0 =? k); exact HH.
  Qed.

  Lemma mm_find_or_before_any k mm m c : mrep mm m c -> addr_ok k ->
    exists mm' c', fst (mm_find_or_before J k mm) = mm' /\ mrep mm' m c' /\ mm_oper mm' = 0.
  Proof.
    intros (H1 & ks & H2 & H3) Hk. unfold mm_find_or_before. pose proof (js_strt _ _ _ _ _ JS _ _ _ _ H1 Hk) as Hs.
    destruct (j_strt J k (mm_j mm)) as [j ol]. destruct Hs as (_ & S1).
    assert (R : exists c', jrel j m c' /\ forall k0, c' <> CGap k0).
    { destruct ol as [l|]; [destruct S1 as [(_ & _ & S & _)|(k' & v & _ & S & _)]|destruct S1 as [S _]]; eexists; (split; [exact S|discriminate]). }
    destruct R as (c' & R & Rg). pose proof (js_prv_any _ _ _ _ _ JS _ _ _ R Rg) as R2. destruct (j_prv J j) as [j2 l2]. cbn [fst] in R2.
    assert (HA : mrep (mkMM j ol 0 (mm_size mm)) m c') by (split; [exact R|exists ks; auto]).
    assert (HB : mrep (mkMM j2 l2 0 (mm_size mm)) m CLost) by (split; [exact R2|exists ks; auto]).
    destruct (j_key J j 0 =? k); destruct (mm_deref J _); cbn [fst]; eauto.
  Qed.

  Lemma mm_remove_last_ok mm m k : mrep mm m (CPos k) -> mat mm k ->
    exists mm', mm_remove_last J mm = Ok mm' tt /\ mrep mm' (fdel m k) CLost /\ mm_oper mm' = mm_oper mm /\ (mplain mm -> mplain mm').
  Proof.
    intros Hr Ha. destruct (mat_deref _ _ _ _ Hr Ha) as [Hd He]. destruct Hr as (H1 & ks & H2 & H3).
    unfold mm_remove_last. rewrite He. destruct (m k) as [v|] eqn:Em; [|elim Hd; exact Em].
    eexists. split; [reflexivity|]. destruct (js_del _ _ _ _ _ JS _ _ _ H1 Hd) as [D1 D2].
    split; [|split; [reflexivity|exact D2]]. split; [exact D1|].
    destruct (keys_of_del _ _ _ H2 Hd) as (ks' & K1 & K2). exists ks'. split; auto. cbn [mm_size]. rewrite H3.
    unfold w64. rewrite Zminus_mod_idemp_l. f_equal. lia.
  Qed.

  Lemma mm_erase_ok k mm m c : mrep mm m c -> addr_ok k ->
    match m k with
    | Some _ => exists mm', mm_erase J k mm = Ok mm' tt /\ mrep mm' (fdel m k) CLost /\ mm_oper mm' = 0 /\ (mplain mm -> mplain mm')
    | None => mm_erase J k mm = UB \/
              exists mm', mm_erase J k mm = Throw mm' RuntimeError /\ mrep mm' m (CGap k) /\ mm_oper mm' = 0 /\ (mplain mm -> mplain mm')
    end.
  Proof.
    intros (H1 & ks & H2 & H3) Hk. unfold mm_erase. pose proof (js_slot _ _ _ _ _ JS _ _ _ _ H1 Hk) as Hs.
    destruct (j_slot J k (mm_j mm)) as [j ol]. destruct Hs as (S1 & S2 & S3).
    destruct (m k) as [v|] eqn:Em; destruct ol as [l|]; try contradiction.
    - destruct (mm_remove_last_ok (mkMM j (Some l) 0 (mm_size mm)) m k) as (mm' & E & R1 & R2 & R3).
      + split; [exact S1|]. exists ks. auto.
      + exists l. auto.
      + exists mm'. split; [exact E|]. split; [exact R1|]. split; [exact R2|intros Hp; apply R3, S2, Hp].
    - left. unfold mm_remove_last, mm_deref. cbn [mm_last mm_j]. now rewrite S3.
    - right. eexists. split; [reflexivity|]. split; [split; [exact S1|exists ks; auto]|]. split; auto.
  Qed.

  Lemma mm_clear_ok fuel : forall mm m c ks, mrep mm m c -> keys_of m ks ->
    match mm_clear J fuel mm with
    | Ok mm' _ => mrep mm' fempty CTop /\ mm_oper mm' = mm_oper mm /\ (mplain mm -> mplain mm')
    | NoFuel => (fuel <= length ks)%nat
    | _ => False
    end.
  Proof.
    induction fuel as [|f IH]; intros mm m c ks Hr Hks; cbn [mm_clear]; [lia|].
    destruct Hr as (H1 & ks0 & H2 & H3). pose proof (js_first _ _ _ _ _ JS _ _ _ H1) as Hf.
    destruct (j_first J (mm_j mm)) as [j ol]. destruct Hf as [F0 F1]. destruct ol as [l|].
    - destruct F1 as (k & v & (L1 & _) & F2 & F3 & _).
      destruct (mm_remove_last_ok (mkMM j (Some l) (mm_oper mm) (mm_size mm)) m k) as (m2 & E & R1 & R2 & R3).
      + split; [exact F2|]. exists ks0. auto.
      + exists l. auto.
      + rewrite E. cbn [bind]. assert (Hd : dom m k) by (unfold dom; congruence).
        destruct (keys_of_del _ _ _ Hks Hd) as (ks' & K1 & K2). specialize (IH _ _ _ _ R1 K1).
        destruct (mm_clear J f m2); try contradiction; [|lia]. destruct IH as (I1 & I2 & I3).
        split; auto. split; [rewrite I2, R2; reflexivity|]. intros Hp. apply I3, R3, F0, Hp.
    - destruct F1 as [F2 F3]. split; [|split; [reflexivity|exact F0]]. split.
      + eapply (js_ext _ _ _ _ _ JS); [|exact F2]. intros x. unfold fempty. specialize (F3 x). unfold dom in F3.
        destruct (m x); auto. elim F3. discriminate.
      + exists []. split; [|reflexivity]. split; [constructor|]. intros x. split; [intros []|intros H; apply H; reflexivity].
  Qed.

  Lemma mi_begin_ok a mm m c : mrep mm m c ->
    exists mm' it, mi_begin J a mm = (mm', it) /\ it_addr it = a /\ mm_oper mm' = a /\ (mplain mm -> mplain mm') /\
      ((exists k v, least_above m None k v /\ it = mkIt a k (Some v) /\ mrep mm' m (CPos k)) \/
       ((forall x, ~ dom m x) /\ it = mkIt a 0 None /\ mrep mm' m CTop)).
  Proof.
    intros (H1 & ks & H2 & H3). unfold mi_begin. pose proof (js_first _ _ _ _ _ JS _ _ _ H1) as Hf.
    destruct (j_first J (mm_j mm)) as [j ol]. destruct Hf as [F0 F1]. do 2 eexists. split; [reflexivity|].
    split; [reflexivity|]. split; [reflexivity|]. split; [exact F0|]. destruct ol as [l|].
    - left. destruct F1 as (k & v & HL & F2 & F3 & F4). exists k, v. split; auto.
      destruct (js_read _ _ _ _ _ JS _ _ _ _ _ F2 F3) as [_ Er]. split.
      + unfold mm_deref. cbn [mm_last mm_j]. rewrite Er, F4, (proj1 HL). reflexivity.
      + split; [exact F2|]. exists ks. auto.
    - right. destruct F1 as [F2 F3]. split; auto. split.
      + unfold mm_deref. cbn [mm_last mm_j]. now rewrite (js_key _ _ _ _ _ JS _ _ F2).
      + split; [exact F2|]. exists ks. auto.
  Qed.

  (** An iterator at [k]: either the cursor must be found again, or it is still where the iterator left it. *)
  Lemma mi_next_ok it mm m c : mrep mm m c -> it_key it <> 0 -> addr_ok (it_key it) ->
    (mm_oper mm = it_addr it -> c = CPos (it_key it) \/ (c = CTop /\ forall x, ~ dom m x)) ->
    exists mm' it', mi_next J it mm = (mm', it') /\ it_addr it' = it_addr it /\ mm_oper mm' = it_addr it /\ (mplain mm -> mplain mm') /\
      ((exists k v, least_above m (Some (it_key it)) k v /\ it' = mkIt (it_addr it) k (Some v) /\ mrep mm' m (CPos k)) \/
       ((forall x, dom m x -> x <= it_key it) /\ it_key it' = 0 /\ mrep mm' m CTop)).
  Proof.
    intros (H1 & ks & H2 & H3) Hk Ha Ho. unfold mi_next.
    assert (Hj : exists j0 c0, (if negb (it_key it =? 0) && negb (mm_oper mm =? it_addr it)
                             then fst (j_slot J (it_key it) (mm_j mm)) else mm_j mm) = j0 /\
                jrel j0 m c0 /\ c0 <> CLost /\ (mplain mm -> jplain j0) /\ (above c0 = Some (it_key it) \/ forall x, ~ dom m x)).
    { destruct (Z.eqb_spec (it_key it) 0); [contradiction|]. destruct (Z.eqb_spec (mm_oper mm) (it_addr it)) as [E|E]; cbn [negb andb].
      - exists (mm_j mm), c. split; auto. split; auto. destruct (Ho E) as [->|[-> Hn]]; split; auto; try discriminate.
      - pose proof (js_slot _ _ _ _ _ JS _ _ _ _ H1 Ha) as Hs. destruct (j_slot J (it_key it) (mm_j mm)) as [j ol].
        destruct Hs as (S1 & S2 & _). eexists j, _. cbn [fst]. split; auto. split; [exact S1|]. destruct ol; (split; [discriminate|]; split; auto). }
    destruct Hj as (j0 & c0 & -> & R1 & R2 & R3 & R4). pose proof (js_nxt _ _ _ _ _ JS _ _ _ R1 R2) as Hn.
    destruct (j_nxt J j0) as [j ol]. destruct Hn as [N0 N1]. destruct ol as [l|].
    - destruct N1 as (k & v & HL & N2 & N3 & N4). destruct (js_read _ _ _ _ _ JS _ _ _ _ _ N2 N3) as [_ Er].
      do 2 eexists. split; [reflexivity|]. split; [reflexivity|]. split; [reflexivity|]. split; [intros Hp; apply N0, R3, Hp|].
      left. exists k, v. split; [|split; [unfold mm_deref; cbn [mm_last mm_j]; rewrite Er, N4, (proj1 HL); reflexivity|split; [exact N2|exists ks; auto]]].
      destruct R4 as [<-|Hn]; [exact HL|]. elim (Hn k). unfold dom. rewrite (proj1 HL). discriminate.
    - destruct N1 as [N2 N3]. do 2 eexists. split; [reflexivity|]. split; [reflexivity|]. split; [reflexivity|].
      split; [intros Hp; apply N0, R3, Hp|]. right. split; [|split; [reflexivity|split; [exact N2|exists ks; auto]]].
      intros x Hx. destruct R4 as [Ec|Hn]; [|elim (Hn x Hx)]. specialize (N3 x Hx). rewrite Ec in N3. cbn in N3. lia.
  Qed.
End Facts.
