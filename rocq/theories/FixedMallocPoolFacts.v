(** Lemmas behind the properties of FixedMallocPool. *)
From Verif Require Import Base BaseFacts FixedMallocPoolModel.

Section FixedMallocPoolFacts.
  Context (obj per : Z) {W : Type} (P : Parent W) (limP : Z) (Inv : W -> list region -> Prop).
  Hypothesis PS : ParentSpec P limP Inv.
  Hypothesis Hobj : 8 <= obj.
  Hypothesis Hper : 0 < per < M32.
  Hypothesis Hl : obj * per <= limP.
  Hypothesis HM : limP < M64.

  Notation addr := (fm_addr obj).

  (** The free slots [E] form a list through the memory that ends at the first slot never
      used, [ni]. *)
  Fixpoint chain (p : fmpool) (m : fmap Z) (ni : Z) (E : list Z) : Prop :=
    match E with
    | [] => True
    | e :: t => (exists v, m (addr p e) = Some v /\ ((t = [] /\ ni = per) \/ v = hd ni t)) /\ chain p m ni t
    end.

  Definition fm_ok (p : fmpool) (m : fmap Z) (E A : list Z) : Prop :=
    let ni := fm_ninit p in
    0 < fm_data p /\ 0 <= ni <= per /\ NoDup (E ++ A) /\ (forall i, In i (E ++ A) -> 0 <= i < ni) /\
    Z.of_nat (length E) + Z.of_nat (length A) = ni /\
    fm_nfree p = Z.of_nat (length E) + (per - ni) /\
    fm_next p = (if fm_nfree p =? 0 then 0 else addr p (hd ni E)) /\
    chain p m ni E.

  Lemma addr_inj p i j : addr p i = addr p j -> i = j.
  Proof. unfold fm_addr. nia. Qed.

  Definition held (p : fmpool) : region := (fm_data p, obj * per).

  (** Memory outside the block of [p] does not matter. *)
  Lemma chain_frame p q m m' ni E : fm_data q = fm_data p ->
    (forall e, In e E -> m' (addr p e) = m (addr p e)) -> chain p m ni E -> chain q m' ni E.
  Proof.
    intros Ed. induction E as [|e t IH]; cbn [chain]; auto. intros Hm ((v & H1 & H2) & H3). split.
    - exists v. split; auto. unfold fm_addr in *. rewrite Ed, Hm; auto. now left.
    - apply IH; auto. intros x Hx. apply Hm. now right.
  Qed.

  Lemma fm_ok_frame p m m' E A : fm_ok p m E A ->
    (forall a, fm_data p <= a < fm_data p + obj * per -> m' a = m a) -> fm_ok p m' E A.
  Proof.
    intros (H1 & H2 & H3 & H4 & H5 & H6 & H7 & H8) Hm. unfold fm_ok.
    split; auto. split; auto. split; auto. split; auto. split; auto. split; auto. split; auto.
    eapply chain_frame; [reflexivity| |exact H8]. intros e He. apply Hm.
    assert (0 <= e < fm_ninit p) by (apply H4, in_or_app; auto). unfold fm_addr. nia.
  Qed.

  Lemma chain_snoc p m ni E : chain p m ni E -> ~ In ni E -> ni < per ->
    chain p (fset m (addr p ni) (ni + 1)) (ni + 1) (E ++ [ni]).
  Proof.
    induction E as [|e t IH]; cbn [app chain]; intros Hc Hn Hlt.
    - split; auto. exists (ni + 1). rewrite fset_eq. split; auto.
    - destruct Hc as ((v & H1 & H2) & H3). cbn [In] in Hn. split; [|apply IH; auto].
      exists v. rewrite fset_ne by (intros E'; apply addr_inj in E'; auto). split; auto. right.
      destruct H2 as [[_ H2]|H2]; [lia|]. rewrite H2. destruct t; reflexivity.
  Qed.

  Lemma fm_alloc_in_pool_ok p m E A : fm_ok p m E A ->
    (fm_nfree p = 0 /\ fm_alloc_in_pool obj per p m = Ok (p, m) 0) \/
    (fm_nfree p <> 0 /\ exists p' m' e E', fm_alloc_in_pool obj per p m = Ok (p', m') (addr p e) /\ fm_data p' = fm_data p /\
       0 <= e < per /\ fm_ok p' m' E' (e :: A) /\
       (forall a, ~ (fm_data p <= a < fm_data p + obj * per) -> m' a = m a)).
  Proof.
    intros HO. pose proof HO as (H1 & H2 & H3 & H4 & H5 & H6 & H7 & H8).
    unfold fm_alloc_in_pool.
    destruct (Z.ltb_spec (fm_ninit p) per) as [Hlt|Hge].
    - (* one more slot is initialised *)
      right. split; [lia|].
      assert (Ez : (fm_data p =? 0) = false) by lia. rewrite Ez.
      assert (Ew : w32 (fm_ninit p + 1) = fm_ninit p + 1) by (apply w32_small; lia). rewrite Ew.
      set (ni := fm_ninit p) in *. set (m1 := fset m (addr p ni) (ni + 1)).
      assert (Hni : ~ In ni (E ++ A)) by (intros Hc; apply H4 in Hc; lia).
      assert (Hc1 : chain p m1 (ni + 1) (E ++ [ni])).
      { apply chain_snoc; auto. intros Hc. apply Hni, in_or_app; auto. }
      cbn [fm_nfree fm_next fm_data fm_ninit]. destruct (Z.ltb_spec 0 (fm_nfree p)); [|lia].
      assert (Enf : (fm_nfree p =? 0) = false) by lia. rewrite Enf in H7.
      destruct (E ++ [ni]) as [|e t] eqn:EE; [destruct E; discriminate|].
      assert (He : hd ni E = e) by (destruct E; cbn in EE; injection EE; auto). rewrite He in H7.
      assert (HND : NoDup ((e :: t) ++ A)).
      { rewrite <- EE, <- app_assoc. apply (Permutation_NoDup (Permutation_middle E A ni)). constructor; auto. }
      assert (Hb : forall i, In i ((e :: t) ++ A) -> 0 <= i < ni + 1).
      { intros i. rewrite <- EE, <- app_assoc. intros Hi. apply in_app_or in Hi as [Hi|[<-|Hi]]; [|lia|];
          [specialize (H4 i (in_or_app _ _ _ (or_introl Hi)))|specialize (H4 i (in_or_app _ _ _ (or_intror Hi)))]; lia. }
      assert (Hlen : Z.of_nat (length t) = Z.of_nat (length E)).
      { apply (f_equal (@length Z)) in EE. rewrite app_length in EE. cbn in EE. lia. }
      cbn [chain] in Hc1. destruct Hc1 as ((v & C1 & C2) & C3).
      assert (Hnew : forall nx, nx = (if fm_nfree p - 1 =? 0 then 0 else addr p (hd (ni + 1) t)) ->
                fm_ok (mkFm (fm_data p) nx (ni + 1) (fm_nfree p - 1)) m1 t (e :: A)).
      { intros nx Enx. unfold fm_ok. cbn [fm_data fm_ninit fm_nfree fm_next length].
        split; auto. split; [lia|].
        split; [eapply Permutation_NoDup; [|exact HND]; apply Permutation_middle|].
        split; [intros i Hi; apply Hb; eapply Permutation_in; [apply Permutation_sym, Permutation_middle|exact Hi]|].
        split; [lia|]. split; [lia|]. split; [exact Enx|].
        eapply chain_frame; [| |exact C3]; auto. }
      assert (He2 : 0 <= e < per) by (specialize (Hb e (or_introl eq_refl)); lia).
      assert (Hfr : forall a, ~ (fm_data p <= a < fm_data p + obj * per) -> m1 a = m a).
      { intros a Ha. unfold m1. apply fset_ne. intros ->. apply Ha. unfold fm_addr. nia. }
      destruct (Z.eqb_spec (fm_nfree p - 1) 0) as [E0|E0].
      + eexists _, m1, e, t. split; [rewrite H7; reflexivity|]. split; auto.
      + rewrite H7, C1. eexists _, m1, e, t. split; [reflexivity|]. split; auto. split; auto. split; [|exact Hfr].
        apply Hnew. destruct C2 as [[-> C2]|C2]; [cbn [length] in Hlen; lia|]. subst v. reflexivity.
    - (* all slots are initialised *)
      destruct (Z.eqb_spec (fm_nfree p) 0) as [E0|E0].
      { left. split; auto. cbv zeta. rewrite E0. reflexivity. }
      right. split; auto. destruct (Z.ltb_spec 0 (fm_nfree p)); [|lia].
      set (ni := fm_ninit p) in *.
      destruct E as [|e t]; [cbn [length] in *; lia|]. cbn [hd] in H7. cbn [chain] in H8. destruct H8 as ((v & C1 & C2) & C3).
      assert (He2 : 0 <= e < per) by (specialize (H4 e (or_introl eq_refl)); lia). cbn [length] in *.
      assert (Hnew : forall nx, nx = (if fm_nfree p - 1 =? 0 then 0 else addr p (hd ni t)) ->
                fm_ok (mkFm (fm_data p) nx ni (fm_nfree p - 1)) m t (e :: A)).
      { intros nx Enx. unfold fm_ok. cbn [fm_data fm_ninit fm_nfree fm_next length].
        split; auto. split; [lia|].
        split; [eapply Permutation_NoDup; [|exact H3]; apply Permutation_middle|].
        split; [intros i Hi; apply H4; eapply Permutation_in; [apply Permutation_sym, Permutation_middle|exact Hi]|].
        split; [lia|]. split; [lia|]. split; [exact Enx|].
        eapply chain_frame; [| |exact C3]; auto. }
      destruct (Z.eqb_spec (fm_nfree p - 1) 0) as [E1|E1].
      + eexists _, m, e, t. split; [rewrite H7; reflexivity|]. split; auto.
      + rewrite H7, C1. eexists _, m, e, t. split; [reflexivity|]. split; auto. split; auto. split; [|auto].
        apply Hnew. destruct C2 as [[-> C2]|C2]; [cbn [length] in *; lia|]. subst v. reflexivity.
  Qed.

  Lemma fm_free_ok p m E A1 e A2 : fm_ok p m E (A1 ++ e :: A2) -> fm_data p + obj * per <= ASP ->
    fm_ok (mkFm (fm_data p) (addr p e) (fm_ninit p) (w64 (fm_nfree p + 1)))
          (fset m (addr p e) (if fm_next p =? 0 then w32 per else fm_index obj p (fm_next p))) (e :: E) (A1 ++ A2).
  Proof.
    intros (H1 & H2 & H3 & H4 & H5 & H6 & H7 & H8) Hasp. unfold fm_ok. cbn [fm_data fm_ninit fm_nfree fm_next].
    assert (HP : Permutation (E ++ A1 ++ e :: A2) ((e :: E) ++ A1 ++ A2)).
    { cbn [app]. rewrite !app_assoc. apply Permutation_sym, Permutation_middle. }
    assert (He : 0 <= e < fm_ninit p) by (apply H4; eapply Permutation_in; [apply Permutation_sym, HP|now left]).
    assert (Enf : w64 (fm_nfree p + 1) = fm_nfree p + 1) by (apply w64_small; unfold M32, M64 in *; lia). rewrite Enf.
    rewrite !app_length in *. cbn [length] in *.
    split; auto. split; auto. split; [eapply Permutation_NoDup; eauto|].
    split; [intros i Hi; apply H4; eapply Permutation_in; [apply Permutation_sym, HP|exact Hi]|].
    split; [lia|]. split; [lia|].
    split; [destruct (Z.eqb_spec (fm_nfree p + 1) 0); [lia|reflexivity]|].
    cbn [chain hd]. assert (HeE : ~ In e E).
    { intros Hc. apply (Permutation_NoDup HP) in H3. cbn [app] in H3. inversion H3 as [|? ? Hn _]; subst. apply Hn, in_or_app; auto. }
    split.
    - eexists. split; [apply fset_eq|]. rewrite H7. destruct (Z.eqb_spec (fm_nfree p) 0) as [E0|E0].
      + left. cbn [Z.eqb]. split; [destruct E; cbn [length] in *; auto; lia|lia].
      + right. assert (Hh : 0 <= hd (fm_ninit p) E <= fm_ninit p).
        { destruct E as [|x E]; cbn [hd]; [lia|]. assert (In x ((x :: E) ++ A1 ++ e :: A2)) as Hx by now left. apply H4 in Hx. lia. }
        assert (Ea : (addr p (hd (fm_ninit p) E) =? 0) = false) by (unfold fm_addr; nia). rewrite Ea.
        unfold fm_index, fm_addr. replace (fm_data p + hd (fm_ninit p) E * obj - fm_data p) with (hd (fm_ninit p) E * obj) by lia.
        rewrite Z.div_mul by lia. apply w32_small. lia.
    - eapply chain_frame; [| |exact H8]; auto. intros x Hx. apply fset_ne.
      intros E'. apply addr_inj in E'. congruence.
  Qed.

  (** ** All pools *)
  Inductive pools_ok (m : fmap Z) : list fmpool -> list Z -> Prop :=
  | po_nil : pools_ok m [] []
  | po_cons p l E A B : fm_ok p m E A -> pools_ok m l B -> pools_ok m (p :: l) (map (addr p) A ++ B).

  Lemma pools_ok_frame m m' l B : pools_ok m l B ->
    (forall p a, In p l -> fm_data p <= a < fm_data p + obj * per -> m' a = m a) -> pools_ok m' l B.
  Proof.
    induction 1 as [|p l E A B Hp Hl' IH]; intros Hm; [constructor|].
    apply (po_cons m' p l E); [|apply IH; intros q a Hq; apply Hm; now right].
    eapply fm_ok_frame; [exact Hp|]. intros a. apply Hm. now left.
  Qed.

  Lemma pools_ok_app m l1 l2 B1 B2 : pools_ok m l1 B1 -> pools_ok m l2 B2 -> pools_ok m (l1 ++ l2) (B1 ++ B2).
  Proof.
    induction 1 as [|p l E A B Hp Hl' IH]; intros H2; cbn [app]; auto.
    rewrite <- app_assoc. apply (po_cons m p _ E); auto.
  Qed.

  Lemma pools_ok_rev m l B : pools_ok m l B -> exists B', Permutation B B' /\ pools_ok m (rev l) B'.
  Proof.
    induction 1 as [|p l E A B Hp Hl' IH]; [exists []; split; constructor|].
    destruct IH as (B' & HP & HB). exists (B' ++ map (addr p) A). split.
    - rewrite HP. apply Permutation_app_comm.
    - cbn [rev]. apply pools_ok_app; auto. rewrite <- (app_nil_r (map _ _)). apply (po_cons m p [] E); auto. constructor.
  Qed.

  Lemma pools_ok_in m l B b : pools_ok m l B -> In b B -> exists p i, In p l /\ 0 <= i < per /\ b = addr p i.
  Proof.
    induction 1 as [|p l E A B Hp Hl' IH]; [intros []|]. intros Hb. apply in_app_or in Hb as [Hb|Hb].
    - apply in_map_iff in Hb as (i & <- & Hi). exists p, i. split; [now left|]. split; auto.
      destruct Hp as (_ & H2 & _ & H4 & _). assert (In i (E ++ A)) as Hx by (apply in_or_app; auto). apply H4 in Hx. lia.
    - destruct (IH Hb) as (q & i & H1 & H2). exists q, i. split; [now right|auto].
  Qed.

  Lemma pools_ok_good m l B : pools_ok m l B -> good (map held l) -> good (map (fun b => (b, obj)) B).
  Proof.
    induction 1 as [|p l E A B Hp Hl' IH]; intros HG; [apply good_nil|].
    cbn [map] in HG. apply good_cons in HG as (G1 & G2 & G3). rewrite map_app. apply good_app.
    assert (Hin : forall i, In i A -> 0 <= i < per).
    { intros i Hi. destruct Hp as (_ & H2 & _ & H4 & _). assert (In i (E ++ A)) as Hx by (apply in_or_app; auto). apply H4 in Hx. lia. }
    unfold wf_region, held in G1. cbn [fst snd] in G1.
    split; [|split; [auto|]].
    - rewrite map_map. assert (HND : NoDup A).
      { destruct Hp as (_ & _ & H3 & _). clear -H3. induction E as [|x E IHE]; cbn in *; auto. inversion H3; auto. }
      clear -HND Hin G1 Hobj. induction A as [|a A IHA]; [apply good_nil|]. cbn [map]. inversion HND as [|? ? N1 N2]; subst.
      apply good_cons. split; [|split; [|apply IHA; auto; intros i Hi; apply Hin; now right]].
      + specialize (Hin a (or_introl eq_refl)). unfold wf_region, fm_addr. cbn [fst snd]. nia.
      + intros y Hy. apply in_map_iff in Hy as (b & <- & Hb). assert (a <> b) by congruence.
        unfold disj, fm_addr. cbn [fst snd]. nia.
    - intros x y Hx Hy. rewrite map_map in Hx. apply in_map_iff in Hx as (i & <- & Hi). apply Hin in Hi.
      apply in_map_iff in Hy as (b & <- & Hb). destruct (pools_ok_in _ _ _ _ Hl' Hb) as (q & j & Hq & Hj & ->).
      specialize (G2 _ (in_map held _ _ Hq)). unfold disj, held, fm_addr in *. cbn [fst snd] in *. nia.
  Qed.

  Lemma fm_try_ok l m B : pools_ok m l B -> good (map held l) ->
    (exists r, fm_try obj per l m = Ok r 0 /\ r = (l, m) /\ Z.of_nat (length B) = per * Z.of_nat (length l)) \/
    (exists l' m' p B', fm_try obj per l m = Ok (l', m') p /\ p <> 0 /\ map held l' = map held l /\ pools_ok m' l' B' /\ Permutation B' (p :: B) /\
       Z.of_nat (length B) < per * Z.of_nat (length l) /\
       (forall a, (forall q, In q l -> ~ (fm_data q <= a < fm_data q + obj * per)) -> m' a = m a)).
  Proof.
    assert (Hcount : forall l B, pools_ok m l B -> Z.of_nat (length B) <= per * Z.of_nat (length l)).
    { induction 1 as [|p l0 E A B0 Hp Hl' IH]; [cbn; lia|]. rewrite app_length, map_length. cbn [length].
      destruct Hp as (_ & H2 & _ & _ & H5 & _). nia. }
    intros H. induction H as [|p l E A B Hp Hl' IH]; intros HG; cbn [fm_try].
    - left. eexists. split; [reflexivity|]. split; auto. cbn. lia.
    - cbn [map] in HG. apply good_cons in HG as (G1 & G2 & G3).
      destruct (fm_alloc_in_pool_ok p m E A Hp) as [(E0 & ->)|(Hnz & p' & m' & e & E' & -> & Hd & He & Hok & Hfr)].
      + cbn [Z.eqb]. destruct (IH G3) as [(r & -> & -> & Hn)|(l2 & m2 & r & B2 & -> & Hr & Hh & HB & HPm & Hlt & Hfr)].
        * left. eexists. split; [reflexivity|]. split; auto. rewrite app_length, map_length. cbn [length].
          destruct Hp as (_ & H2 & _ & _ & H5 & H6 & _). nia.
        * right. exists (p :: l2), m2, r, (map (addr p) A ++ B2). split; auto. split; auto. split; [cbn [map]; now rewrite Hh|].
          split; [|split; [|split]].
          -- apply (po_cons m2 p l2 E); auto. eapply fm_ok_frame; [exact Hp|]. intros a Ha. apply Hfr.
             intros q Hq Hc. specialize (G2 _ (in_map held _ _ Hq)). unfold disj, held in G2. cbn [fst snd] in G2. lia.
          -- rewrite HPm. apply Permutation_sym, Permutation_middle.
          -- rewrite app_length, map_length. cbn [length]. destruct Hp as (_ & H2 & _ & _ & H5 & H6 & _). nia.
          -- intros a Ha. apply Hfr. intros q Hq. apply Ha. now right.
      + assert (Ez : (addr p e =? 0) = false) by (destruct Hp; unfold fm_addr; nia). rewrite Ez. right.
        exists (p' :: l), m', (addr p e), (map (addr p') (e :: A) ++ B). split; auto. split; [lia|].
        split; [cbn [map]; unfold held; now rewrite Hd|]. split; [|split; [|split]].
        * apply (po_cons m' p' l E'); auto. eapply pools_ok_frame; [exact Hl'|]. intros q a Hq Ha. apply Hfr.
          specialize (G2 _ (in_map held _ _ Hq)). unfold disj, held in G2. cbn [fst snd] in G2. lia.
        * unfold fm_addr. rewrite Hd. reflexivity.
        * rewrite app_length, map_length. cbn [length]. specialize (Hcount _ _ Hl').
          destruct Hp as (_ & H2 & _ & _ & H5 & H6 & _). nia.
        * intros a Ha. apply Hfr. apply Ha. now left.
  Qed.

  Lemma fm_free_in_ok ptr l m B : pools_ok m l B -> good (map held l) -> In ptr B ->
    exists l' m' B', fm_free_in obj per ptr l m = Some (l', m') /\ map held l' = map held l /\ pools_ok m' l' B' /\
      Permutation B (ptr :: B') /\ (forall a, a <> ptr -> m' a = m a).
  Proof.
    intros H. induction H as [|p l E A B Hp Hl' IH]; intros HG Hin; [destruct Hin|].
    cbn [map] in HG. apply good_cons in HG as (G1 & G2 & G3). cbn [fm_free_in].
    assert (Ed : w64 (obj * per) = obj * per) by (apply w64_small; nia).
    unfold wf_region, held in G1. cbn [fst snd] in G1.
    apply in_app_or in Hin as [Hin|Hin].
    - apply in_map_iff in Hin as (e & <- & He).
      assert (Hb : 0 <= e < per).
      { destruct Hp as (_ & H2 & _ & H4 & _). assert (In e (E ++ A)) as Hx by (apply in_or_app; auto). apply H4 in Hx. lia. }
      assert (Eo : fm_owns obj per p (addr p e) = true) by (unfold fm_owns, fm_addr; rewrite Ed; nia). rewrite Eo.
      apply in_split in He as (A1 & A2 & ->). cbv zeta.
      pose proof (fm_free_ok p m E A1 e A2 Hp ltac:(lia)) as Hok.
      eexists _, _, (map (addr p) (A1 ++ A2) ++ B). split; [reflexivity|]. split; [reflexivity|]. split; [|split].
      + refine (po_cons _ _ l (e :: E) (A1 ++ A2) B Hok _). eapply pools_ok_frame; [exact Hl'|]. intros q a Hq Ha. apply fset_ne. intros ->.
        specialize (G2 _ (in_map held _ _ Hq)). unfold disj, held, fm_addr in *. cbn [fst snd] in G2. nia.
      + rewrite !map_app. cbn [map]. rewrite <- !app_assoc. apply Permutation_sym, Permutation_middle.
      + intros a Ha. now apply fset_ne.
    - destruct (pools_ok_in _ _ _ _ Hl' Hin) as (q & j & Hq & Hj & Ej).
      assert (Eo : fm_owns obj per p ptr = false).
      { specialize (G2 _ (in_map held _ _ Hq)). unfold fm_owns. rewrite Ed. unfold disj, held, fm_addr in *. cbn [fst snd] in G2. nia. }
      rewrite Eo. destruct (IH G3 Hin) as (l' & m' & B' & -> & Hh & HB & HPm & Hfr).
      eexists _, _, (map (addr p) A ++ B'). split; [reflexivity|]. split; [cbn [map]; now rewrite Hh|]. split; [|split; auto].
      + apply (po_cons _ _ _ E); auto. eapply fm_ok_frame; [exact Hp|]. intros a Ha. apply Hfr. intros ->.
        specialize (G2 _ (in_map held _ _ Hq)). unfold disj, held, fm_addr in *. cbn [fst snd] in *. nia.
      + rewrite HPm. apply Permutation_sym, Permutation_middle.
  Qed.

  (** ** The pool *)
  Definition fm_rel (s : fmstate) (B : list Z) (L : list region) : Prop :=
    exists B', Permutation B B' /\ pools_ok (fm_mem s) (fm_pools s) B' /\ Permutation L (map held (fm_pools s)).

  Lemma new_fm_ok d : 0 < d -> forall m, fm_ok (mkFm d d 0 per) m [] [].
  Proof.
    intros Hd m. unfold fm_ok. cbn [fm_data fm_next fm_ninit fm_nfree app length hd chain].
    split; auto. split; [lia|]. split; [constructor|]. split; [intros i []|]. split; [lia|]. split; [lia|].
    split; [|exact I]. destruct (Z.eqb_spec per 0); [lia|]. unfold fm_addr. cbn [fm_data]. lia.
  Qed.

  (** What one allocation does: with a free slot the parent is not used, otherwise one block is
      added; it goes wrong only if [malloc] does. *)
  Lemma fm_allocate_ok f s w B L : fm_rel s B L -> Inv w L ->
    (Z.of_nat (length B) < per * fm_num_pools s /\
     exists s' p, fm_allocate obj per P (S (S f)) (s, w) = Ok (s', w) p /\ fm_num_pools s' = fm_num_pools s /\
       fm_rel s' (p :: B) L) \/
    (Z.of_nat (length B) = per * fm_num_pools s /\
     match p_alloc P (obj * per) w with
     | Ok w' d => exists s' p, fm_allocate obj per P (S (S f)) (s, w) = Ok (s', w') p /\ fm_num_pools s' = fm_num_pools s + 1 /\
         fm_rel s' (p :: B) ((d, obj * per) :: L)
     | Throw w' e => fm_allocate obj per P (S (S f)) (s, w) = UB
     | UB => False
     | Abort => fm_allocate obj per P (S (S f)) (s, w) = Abort
     | NoFuel => fm_allocate obj per P (S (S f)) (s, w) = NoFuel
     end).
  Proof.
    intros (B' & HB & HO & HL) HI. remember (S f) as f1 eqn:Ef. cbn [fm_allocate].
    destruct (pools_ok_rev _ _ _ HO) as (B2 & HB2 & HO2).
    assert (HG : good (map held (rev (fm_pools s)))).
    { rewrite map_rev. eapply good_perm; [apply Permutation_rev|]. eapply good_perm; [exact HL|]. eapply ps_good; eauto. }
    assert (Elen : length B2 = length B) by (apply Permutation_length; rewrite <- HB2; now symmetry).
    unfold fm_num_pools.
    destruct (fm_try_ok _ _ _ HO2 HG) as [(r & -> & -> & Hn)|(l' & m' & p & B3 & -> & Hp & Hh & HO3 & HP3 & Hlt & _)];
      rewrite Elen, rev_length in *.
    - right. split; [exact Hn|]. cbn [Z.eqb]. rewrite rev_involutive. unfold fm_new_pool.
      rewrite (w64_small (obj * per)) by nia.
      pose proof (ps_alloc _ _ _ PS w L (obj * per) HI ltac:(nia)) as Ha.
      destruct (p_alloc P (obj * per) w) as [w' d|w' e| | |]; cbn [post] in Ha; auto.
      + apply (ps_good _ _ _ PS) in Ha as Hg. pose proof Hg as Hg'. apply good_cons in Hg as ((Hd & _) & _). cbn [fst] in Hd.
        subst f1. cbn [fm_allocate fm_pools fm_mem].
        assert (HO4 : pools_ok (fm_mem s) (mkFm d d 0 per :: rev (fm_pools s)) B2).
        { apply (po_cons (fm_mem s) (mkFm d d 0 per) (rev (fm_pools s)) [] [] B2); auto. now apply new_fm_ok. }
        rewrite rev_app_distr. cbn [rev app].
        assert (HG4 : good (map held (mkFm d d 0 per :: rev (fm_pools s)))).
        { cbn [map]. unfold held at 1. cbn [fm_data]. eapply good_perm; [|exact Hg']. constructor.
          rewrite HL, map_rev. apply Permutation_rev. }
        destruct (fm_try_ok _ _ _ HO4 HG4) as [(r & -> & -> & Hn4)|(l' & m' & p & B3 & -> & Hp & Hh & HO3 & HP3 & Hlt & _)].
        * exfalso. cbn [length] in Hn4. rewrite rev_length in Hn4. nia.
        * destruct (Z.eqb_spec p 0); [contradiction|]. eexists _, p. split; [reflexivity|]. cbn [fm_pools].
          split.
          -- rewrite rev_length, <- (map_length held), Hh, map_length. cbn [length]. rewrite rev_length. lia.
          -- destruct (pools_ok_rev _ _ _ HO3) as (B4 & HB4 & HO5). exists B4. split; [|split; auto].
             ++ rewrite <- HB4, HP3. constructor. rewrite HB. exact HB2.
             ++ cbn [fm_pools]. rewrite map_rev, Hh. cbn [map rev]. unfold held at 2. cbn [fm_data].
                rewrite HL, map_rev, rev_involutive. apply Permutation_cons_append.
      + subst f1. cbn [fm_allocate fm_pools fm_mem]. rewrite rev_app_distr. cbn [rev app fm_try].
        unfold fm_alloc_in_pool. cbn [fm_ninit fm_data]. destruct (Z.ltb_spec 0 per); [|lia]. reflexivity.
    - left. split; [exact Hlt|]. destruct (Z.eqb_spec p 0); [contradiction|].
      eexists _, p. split; [reflexivity|]. cbn [fm_pools]. split.
      + rewrite rev_length, <- (map_length held), Hh, map_length, rev_length. reflexivity.
      + destruct (pools_ok_rev _ _ _ HO3) as (B4 & HB4 & HO5). exists B4. split; [|split; auto].
        * rewrite <- HB4, HP3. constructor. now rewrite HB.
        * cbn [fm_pools]. rewrite map_rev, Hh, map_rev, rev_involutive. exact HL.
  Qed.

  Lemma fm_deallocate_ok s w B p L : fm_rel s (p :: B) L -> Inv w L ->
    exists s', fm_deallocate obj per p (s, w) = Ok (s', w) tt /\ fm_num_pools s' = fm_num_pools s /\ fm_rel s' B L.
  Proof.
    intros (B' & HB & HO & HL) HI.
    assert (HG : good (map held (fm_pools s))) by (eapply good_perm; [exact HL|eapply ps_good; eauto]).
    assert (Hin : In p B') by (eapply Permutation_in; [exact HB|now left]).
    destruct (fm_free_in_ok p _ _ _ HO HG Hin) as (l' & m' & B2 & E & Hh & HO2 & HP2 & _).
    unfold fm_deallocate. rewrite E. eexists. split; [reflexivity|]. unfold fm_num_pools. cbn [fm_pools]. split.
    - rewrite <- (map_length held), Hh, map_length. reflexivity.
    - exists B2. cbn [fm_pools fm_mem]. split; [|split; auto].
      + apply (Permutation_cons_inv (a := p)). now rewrite <- HP2.
      + now rewrite Hh.
  Qed.

  Lemma fm_write_ok s B p v L : fm_rel s B L -> good L -> In p B -> fm_rel (fm_write p v s) B L.
  Proof.
    intros (B' & HB & HO & HL) HG Hin. exists B'. split; auto. split; auto. cbn [fm_write fm_mem fm_pools].
    apply (Permutation_in _ HB) in Hin. apply (good_perm _ _ HL) in HG. clear HB HL.
    revert HG Hin. generalize (fm_pools s) (fm_mem s) HO. clear HO. intros l m HO. induction HO as [|q l E A B1 Hq HO IH]; intros HG Hin; [constructor|].
    cbn [map] in HG. apply good_cons in HG as (G1 & G2 & G3).
    apply in_app_or in Hin as [Hin|Hin].
    - apply in_map_iff in Hin as (e & <- & He).
      assert (Hb : 0 <= e < per).
      { destruct Hq as (_ & H2 & _ & H4 & _). assert (In e (E ++ A)) as Hx by (apply in_or_app; auto). apply H4 in Hx. lia. }
      apply (po_cons _ q l E).
      + destruct Hq as (H1 & H2 & H3 & H4 & H5 & H6 & H7 & H8). unfold fm_ok.
        split; auto. split; auto. split; auto. split; auto. split; auto. split; auto. split; auto.
        eapply chain_frame; [reflexivity| |exact H8]. intros x Hx. apply fset_ne. intros Ex. apply addr_inj in Ex. subst x.
        clear -H3 Hx He. induction E as [|y E IHE]; [destruct Hx|]. cbn in H3. inversion H3 as [|? ? N1 N2]; subst.
        destruct Hx as [->|Hx]; [apply N1, in_or_app; auto|auto].
      + eapply pools_ok_frame; [exact HO|]. intros q' a Hq' Ha. apply fset_ne. intros ->.
        specialize (G2 _ (in_map held _ _ Hq')). unfold disj, held, fm_addr in *. cbn [fst snd] in G2. nia.
    - destruct (pools_ok_in _ _ _ _ HO Hin) as (q' & j & Hq' & Hj & Ej).
      apply (po_cons _ q l E); [|apply IH; auto]. eapply fm_ok_frame; [exact Hq|]. intros a Ha. apply fset_ne. intros ->.
      specialize (G2 _ (in_map held _ _ Hq')). unfold disj, held, fm_addr in *. cbn [fst snd] in *. nia.
  Qed.

  Notation Hist := (fmhist obj per P Inv).

  Lemma fm_hist_rel fuel A s w : Hist fuel A s w -> (2 <= fuel)%nat -> exists L, fm_rel s A L /\ Inv w L.
  Proof.
    intros H Hf. destruct fuel as [|[|f]]; try lia.
    induction H as [w w' s d Hi Ed E|A s w s' w' p H IH E|A1 A2 p s w s' w' H IH E|A s w p v H IH Hin|A s w w' H IH He].
    - unfold fm_init, fm_new_pool in E. rewrite (w64_small (obj * per)) in * by nia.
      pose proof (ps_alloc _ _ _ PS w [] (obj * per) Hi ltac:(nia)) as Ha.
      rewrite Ed in *. injection E as <-. cbn [post] in Ha.
      pose proof (ps_good _ _ _ PS _ _ Ha) as Hg. apply good_cons in Hg as ((Hd' & _) & _). cbn [fst] in Hd'.
      exists [(d, obj * per)]. split; [|exact Ha]. exists []. split; auto. split; [|reflexivity]. cbn [fm_mem fm_pools].
      apply (po_cons fempty (mkFm d d 0 per) [] [] [] []); [now apply new_fm_ok|constructor].
    - destruct IH as (L & HR & HI).
      destruct (fm_allocate_ok f s w A L HR HI) as [(_ & s1 & q & E1 & _ & HR1)|(_ & Hm)].
      + rewrite E in E1. injection E1 as -> -> ->. exists L. auto.
      + pose proof (ps_alloc _ _ _ PS w L (obj * per) HI ltac:(nia)) as Ha.
        destruct (p_alloc P (obj * per) w) as [w1 d|w1 e| | |]; try congruence; try contradiction.
        destruct Hm as (s1 & q & E1 & _ & HR1). rewrite E in E1. injection E1 as -> -> ->. cbn in Ha. eauto.
    - destruct IH as (L & HR & HI).
      assert (HR' : fm_rel s (p :: A1 ++ A2) L).
      { destruct HR as (B' & HB & HR). exists B'. split; auto. rewrite <- HB. apply Permutation_middle. }
      destruct (fm_deallocate_ok s w _ p L HR' HI) as (s1 & E1 & _ & HR1). rewrite E in E1. injection E1 as -> ->. eauto.
    - destruct IH as (L & HR & HI). exists L. split; auto. apply fm_write_ok; auto. eapply ps_good; eauto.
    - destruct IH as (L & HR & HI). exists L. auto.
  Qed.

  (** Live slots are pairwise disjoint and lie in blocks held from [malloc]. *)
  Lemma fm_exclusive fuel A s w : (2 <= fuel)%nat -> Hist fuel A s w ->
    good (map (fun p => (p, obj)) A) /\
    exists L, Inv w L /\ Z.of_nat (length L) = fm_num_pools s /\
      forall p, In p A -> exists b i, In (b, obj * per) L /\ 0 <= i < per /\ p = b + i * obj.
  Proof.
    intros Hf H. destruct (fm_hist_rel _ _ _ _ H Hf) as (L & (B & HB & HO & HL) & HI).
    assert (HG : good (map held (fm_pools s))) by (eapply good_perm; [exact HL|eapply ps_good; eauto]).
    split.
    - eapply good_perm; [apply Permutation_map, Permutation_sym, HB|]. eapply pools_ok_good; eauto.
    - exists L. split; auto. split; [unfold fm_num_pools; now rewrite (Permutation_length HL), map_length|].
      intros p Hp. apply (Permutation_in _ HB) in Hp. destruct (pools_ok_in _ _ _ _ HO Hp) as (q & i & Hq & Hi & ->).
      exists (fm_data q), i. split; [|auto]. eapply Permutation_in; [apply Permutation_sym, HL|]. apply (in_map held _ _ Hq).
  Qed.

  (** A pool with a free slot serves a request from what it has. *)
  Lemma fm_reuse fuel A s w : (2 <= fuel)%nat -> Hist fuel A s w ->
    Z.of_nat (length A) < per * fm_num_pools s ->
    exists s' p, fm_allocate obj per P fuel (s, w) = Ok (s', w) p /\ ~ In p A /\ fm_num_pools s' = fm_num_pools s.
  Proof.
    intros Hf H Hn. destruct (fm_hist_rel _ _ _ _ H Hf) as (L & HR & HI).
    destruct fuel as [|[|f]]; try lia.
    destruct (fm_allocate_ok f s w A L HR HI) as [(_ & s1 & q & E1 & En & HR1)|(Hc & _)]; [|lia].
    exists s1, q. split; auto. split; auto. intros Hq.
    assert (HG : good (map (fun p => (p, obj)) (q :: A))) by (eapply (fm_exclusive (S (S f))); [lia|econstructor; eauto]).
    cbn [map] in HG. apply good_cons in HG as (G1 & G2 & _).
    specialize (G2 _ (in_map (fun p => (p, obj)) _ _ Hq)). unfold disj in G2. cbn [fst snd] in G2. lia.
  Qed.

  (** A full pool obtains exactly one block. *)
  Lemma fm_grow fuel A s w : (2 <= fuel)%nat -> Hist fuel A s w ->
    Z.of_nat (length A) = per * fm_num_pools s ->
    match p_alloc P (obj * per) w with
    | Ok w' d => exists s' p, fm_allocate obj per P fuel (s, w) = Ok (s', w') p /\ ~ In p A /\ fm_num_pools s' = fm_num_pools s + 1
    | Throw w' e => fm_allocate obj per P fuel (s, w) = UB
    | _ => True
    end.
  Proof.
    intros Hf H Hn. destruct (fm_hist_rel _ _ _ _ H Hf) as (L & HR & HI).
    destruct fuel as [|[|f]]; try lia.
    destruct (fm_allocate_ok f s w A L HR HI) as [(Hc & _)|(_ & Hm)]; [lia|].
    destruct (p_alloc P (obj * per) w) as [w' d|w' e| | |]; auto.
    destruct Hm as (s1 & q & E1 & En & HR1). exists s1, q. split; auto. split; auto. intros Hq.
    assert (HG : good (map (fun p => (p, obj)) (q :: A))) by (eapply (fm_exclusive (S (S f))); [lia|econstructor; eauto]).
    cbn [map] in HG. apply good_cons in HG as (G1 & G2 & _).
    specialize (G2 _ (in_map (fun p => (p, obj)) _ _ Hq)). unfold disj in G2. cbn [fst snd] in G2. lia.
  Qed.

  Lemma fm_count fuel A s w : (2 <= fuel)%nat -> Hist fuel A s w -> Z.of_nat (length A) <= per * fm_num_pools s.
  Proof.
    intros Hf H. destruct (fm_hist_rel _ _ _ _ H Hf) as (L & HR & HI).
    destruct (fm_allocate_ok 0 s w A L HR HI) as [(Hc & _)|(Hc & _)]; lia.
  Qed.

  Lemma fm_free_live fuel A s w p : (2 <= fuel)%nat -> Hist fuel A s w -> In p A ->
    exists s', fm_deallocate obj per p (s, w) = Ok (s', w) tt /\ fm_num_pools s' = fm_num_pools s.
  Proof.
    intros Hf H Hp. destruct (fm_hist_rel _ _ _ _ H Hf) as (L & HR & HI).
    apply in_split in Hp as (A1 & A2 & ->).
    assert (HR' : fm_rel s (p :: A1 ++ A2) L).
    { destruct HR as (B' & HB & HR). exists B'. split; auto. rewrite <- HB. apply Permutation_middle. }
    destruct (fm_deallocate_ok s w _ p L HR' HI) as (s1 & E1 & En & _). eauto.
  Qed.

  Lemma fm_free_foreign fuel A s w p : (2 <= fuel)%nat -> Hist fuel A s w ->
    (forall L b n, Inv w L -> In (b, n) L -> ~ (b <= p < b + n)) ->
    fm_deallocate obj per p (s, w) = Throw (s, w) RuntimeError.
  Proof.
    intros Hf H Hp. destruct (fm_hist_rel _ _ _ _ H Hf) as (L & (B & _ & _ & HL) & HI).
    unfold fm_deallocate. assert (Hn : forall q, In q (fm_pools s) -> ~ (fm_data q <= p < fm_data q + obj * per)).
    { intros q Hq. eapply Hp; [exact HI|]. eapply Permutation_in; [apply Permutation_sym, HL|]. apply (in_map held _ _ Hq). }
    assert (E : fm_free_in obj per p (fm_pools s) (fm_mem s) = None).
    { clear -Hn Hobj Hper Hl HM. induction (fm_pools s) as [|q l IH]; cbn [fm_free_in]; auto.
      assert (Eo : fm_owns obj per q p = false).
      { specialize (Hn q (or_introl eq_refl)). unfold fm_owns. rewrite (w64_small (obj * per)) by nia. lia. }
      rewrite Eo, IH; auto. intros q' Hq'. apply Hn. now right. }
    now rewrite E.
  Qed.
End FixedMallocPoolFacts.
