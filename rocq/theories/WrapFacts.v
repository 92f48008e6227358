(** The small strategies are correct clients and parents. *)
From Verif Require Import Base BaseFacts AlignedModel AlignedFacts StratModel StratFacts WrapModel.

(** ** SizeLimiter, pass-through: what clients hold is what is held from the parent *)
Definition same_rel {S : Type} (_ : S) (U L : list region) : Prop := Permutation U L.

Lemma same_rel_perm (S : Type) (s : S) U U' L L' :
  Permutation U U' -> Permutation L L' -> same_rel s U L -> same_rel s U' L'.
Proof. unfold same_rel. intros H1 H2 H. now rewrite <- H1, <- H2. Qed.

Lemma same_rel_inside (S : Type) (s : S) U L : same_rel s U L -> good L -> good U /\ covered U L.
Proof.
  intros H HG. split; [eapply good_perm; [apply Permutation_sym, H|auto]|].
  eapply covered_perm; [apply Permutation_refl|exact H|apply covered_refl].
Qed.

Lemma SizeLimiter_ok limit limP : StratOk (SizeLimiter limit) same_rel limP limP.
Proof.
  constructor; cbn [st_ty SizeLimiter st_make st_alloc st_dealloc st_release st_coalesce].
  - intros; eapply same_rel_perm; eauto.
  - intros; eapply same_rel_inside; eauto.
  - intros W P Inv w HP HI. cbn. exists []. split; auto. constructor.
  - intros W P Inv s w U L n HP HR HI Hn. unfold sl_allocate.
    destruct (limit <? w64 (s + n)); [cbn; eauto|].
    apply post_omap. eapply post_impl; [| |apply (ps_alloc _ _ _ HP w L n HI Hn)]; cbn [fst snd].
    + intros w' p Hw. exists ((p, n) :: L). split; auto. now apply perm_skip.
    + intros w' ? Hw. eauto.
  - intros W P Inv s w U L p n cur HP HR HI. unfold sl_deallocate. apply post_omap.
    eapply post_impl; [| |apply (ps_dealloc _ _ _ HP w U p n)]; auto.
    + intros w' ? Hw. exists U. split; auto. apply Permutation_refl.
    + apply (ps_perm _ _ _ HP w L); [now apply Permutation_sym|exact HI].
  - intros. now apply (no_release_ok _ _ same_rel) with (L := L).
  - intros. now apply (no_coalesce_ok _ _ same_rel) with (L := L).
Qed.

Lemma PassThrough_ok limP : StratOk PassThrough same_rel limP limP.
Proof.
  constructor; cbn [st_ty PassThrough st_make st_alloc st_dealloc st_release st_coalesce].
  - intros; eapply same_rel_perm; eauto.
  - intros; eapply same_rel_inside; eauto.
  - intros W P Inv w HP HI. cbn. exists []. split; auto. constructor.
  - intros W P Inv s w U L n HP HR HI Hn. unfold pt_allocate.
    apply post_omap. eapply post_impl; [| |apply (ps_alloc _ _ _ HP w L n HI Hn)]; cbn [fst snd].
    + intros w' p Hw. exists ((p, n) :: L). split; auto. now apply perm_skip.
    + intros w' ? Hw. eauto.
  - intros W P Inv s w U L p n cur HP HR HI. unfold pt_deallocate. apply post_omap.
    eapply post_impl; [| |apply (ps_dealloc _ _ _ HP w U p n)]; auto.
    + intros w' ? Hw. exists U. split; auto. apply Permutation_refl.
    + apply (ps_perm _ _ _ HP w L); [now apply Permutation_sym|exact HI].
  - intros. now apply (no_release_ok _ _ same_rel) with (L := L).
  - intros. now apply (no_coalesce_ok _ _ same_rel) with (L := L).
Qed.

(** ** Strategies with a failing operation: some parent memory may be lost *)
Definition lossy_rel (fails : nat -> Z -> Z -> bool) (_ : nat) (U L : list region) : Prop :=
  exists lost, Permutation L (U ++ lost) /\ ((forall k p n, fails k p n = false) -> lost = []).

Lemma Advised_ok fails limP : StratOk (Advised fails) (lossy_rel fails) limP limP.
Proof.
  constructor; cbn [st_ty Advised st_make st_alloc st_dealloc st_release st_coalesce].
  - intros s U U' L L' H1 H2 (X & HX & HF). exists X. split; [now rewrite <- H1, <- H2|exact HF].
  - intros s U L (X & HX & _) HG. split.
    + apply (good_perm _ _ HX), good_app in HG. tauto.
    + intros u Hu. exists u. split; [|apply inside_refl].
      eapply Permutation_in; [apply Permutation_sym, HX|]. apply in_or_app; auto.
  - intros W P Inv w HP HI. cbn. exists []. split; auto. exists []. auto.
  - intros W P Inv s w U L n HP (X & HX & HF) HI Hn. unfold ad_allocate.
    pose proof (ps_alloc _ _ _ HP w L n HI Hn) as Ha.
    destruct (p_alloc P n w) as [w' p|w' e| | |]; cbn [post] in Ha |- *; auto; try contradiction.
    + destruct (fails s p n) eqn:Ef; cbn [post fst snd].
      * exists ((p, n) :: L). split; auto. exists ((p, n) :: X). split; [rewrite HX; apply Permutation_middle|].
        intros H. rewrite H in Ef. discriminate.
      * exists ((p, n) :: L). split; auto. exists X. split; [now rewrite HX|exact HF].
    + exists L. split; auto. exists X; auto.
  - intros W P Inv s w U L p n cur HP (X & HX & HF) HI. unfold ad_deallocate. apply post_omap.
    eapply post_impl; [| |apply (ps_dealloc _ _ _ HP w (U ++ X) p n)]; auto; cbn [fst snd].
    + intros w' ? Hw. exists (U ++ X). split; auto. exists X. split; [apply Permutation_refl|exact HF].
    + apply (ps_perm _ _ _ HP w L); auto.
  - intros W P Inv s w U L HP HR HI. now apply (no_release_ok _ _ (lossy_rel fails)) with (L := L).
  - intros W P Inv s w U L cur HP HR HI. now apply (no_coalesce_ok _ _ (lossy_rel fails)) with (L := L).
Qed.

(** ** AlignedAllocator *)
Section AlignedAllocator.
  Context (A : Z) (HA : pow2_align A).
  Let ov := al_overhead A.

  (** One live allocation: returned pointer, requested size, parent's pointer. *)
  Record al_item : Type := mkItem { ai_ptr : Z; ai_n : Z; ai_base : Z }.
  Definition ai_user (i : al_item) : region := (ai_ptr i, ai_n i).
  Definition ai_held (i : al_item) : region := (ai_base i, ai_n i + ov).
  Definition ai_ok (i : al_item) : Prop :=
    0 < ai_n i /\ ai_ptr i mod A = 0 /\ ai_base i + 8 <= ai_ptr i <= ai_base i + ov.

  Definition al_rel (hdr : fmap Z) (U L : list region) : Prop :=
    exists I, (forall i, In i I -> ai_ok i /\ hdr (ai_ptr i) = Some (ai_base i)) /\
              Permutation U (map ai_user I) /\ Permutation L (map ai_held I).

  Lemma al_user_in i : ai_ok i -> inside (ai_user i) (ai_held i).
  Proof. unfold ai_ok, inside, ai_user, ai_held, ov, al_overhead. cbn. lia. Qed.

  (** The 8 header bytes below the returned pointer belong to the parent's allocation. *)
  Definition ai_header (i : al_item) : region := (ai_ptr i - 8, 8).
  Lemma al_header_in i : ai_ok i -> inside (ai_header i) (ai_held i) /\ disj (ai_header i) (ai_user i).
  Proof. pose proof (pow2_align_pos A HA).
    unfold ai_ok, inside, disj, ai_user, ai_held, ai_header, ov, al_overhead. cbn. lia. Qed.

  Lemma al_good I : (forall i, In i I -> ai_ok i) -> good (map ai_held I) -> good (map ai_user I).
  Proof.
    pose proof (pow2_align_pos A HA) as HAp.
    induction I as [|i I IH]; intros HI HG; [apply good_nil|].
    cbn [map] in *. apply good_cons in HG as (W1 & D1 & G1). apply good_cons.
    assert (Hi : ai_ok i) by (apply HI; simpl; auto). pose proof (al_user_in i Hi) as Ii.
    split; [|split].
    - unfold wf_region, ai_ok, inside, ai_user, ai_held in *. cbn in *. lia.
    - intros y Hy. apply in_map_iff in Hy as (j & <- & Hj).
      pose proof (al_user_in j (HI j (or_intror Hj))) as Ij.
      specialize (D1 _ (in_map ai_held _ _ Hj)). unfold disj, inside in *. lia.
    - apply IH; auto. intros j Hj. apply HI; simpl; auto.
  Qed.

  (** No client region and no other header touches a live header word: the simplification of
      keeping headers apart from memory contents is sound. *)
  Lemma al_header_safe I i j :
    (forall i, In i I -> ai_ok i) -> good (map ai_held I) -> In i I -> In j I ->
    disj (ai_header i) (ai_user j) /\ (i = j \/ disj (ai_header i) (ai_header j)).
  Proof.
    intros HI HG Hi Hj. destruct (al_header_in i (HI i Hi)) as [H1 H2].
    destruct (al_header_in j (HI j Hj)) as [J1 J2]. pose proof (al_user_in j (HI j Hj)) as J3.
    assert (D : i = j \/ disj (ai_held i) (ai_held j)).
    { destruct HG as [_ HG]. rewrite pairwise_map in HG.
      apply (pairwise_in (fun x y => disj (ai_held x) (ai_held y))) with (l := I); auto.
      intros x y. apply disj_sym. }
    destruct D as [->|D]; [auto|]. unfold disj, inside in *. split; [lia|right; lia].
  Qed.

  Lemma al_ptr_inj I i j :
    (forall i, In i I -> ai_ok i) -> good (map ai_held I) -> In i I -> In j I -> ai_ptr i = ai_ptr j -> i = j.
  Proof.
    intros HI HG Hi Hj E.
    destruct HG as [HW HG]. rewrite pairwise_map in HG.
    destruct (pairwise_in (fun x y => disj (ai_held x) (ai_held y)) (fun x y => disj_sym _ _) I i j HG Hi Hj) as [->|D]; auto.
    exfalso. pose proof (al_user_in i (HI i Hi)) as I1. pose proof (al_user_in j (HI j Hj)) as J1.
    pose proof (HI i Hi) as I2. pose proof (HI j Hj) as J2.
    unfold disj, inside, ai_user, ai_held, ai_ok in *. cbn [fst snd] in *. lia.
  Qed.

  Lemma al_ptr_spec base :
    0 < base -> base + ov < ASP ->
    let buf := Z.land (w64 (base + ov)) (align_mask A) in
    base + 8 <= buf <= base + ov /\ buf mod A = 0.
  Proof.
    intros Hb Hl. cbv zeta. pose proof (pow2_align_pos A HA) as HAp.
    unfold ov, al_overhead in *.
    replace (base + (8 + A - 1)) with ((base + 8) + (A - 1)) by lia.
    change (Z.land (w64 (base + 8 + (A - 1))) (align_mask A)) with (align_up A (base + 8)).
    pose proof (align_up_spec A (base + 8) HA) as H. cbv zeta in H.
    unfold M64, ASP in *. destruct H; lia.
  Qed.

  Lemma AlignedAllocator_ok limP : limP < M64 -> StratOk (AlignedAllocator A) al_rel limP (limP - ov).
  Proof.
    intros HlimM. pose proof (pow2_align_pos A HA) as HAp.
    constructor; cbn [st_ty AlignedAllocator st_make st_alloc st_dealloc st_release st_coalesce].
    - intros s U U' L L' H1 H2 (I & HI & HU & HL). exists I. split; auto. now rewrite <- H1, <- H2.
    - intros s U L (I & HI & HU & HL) HG.
      assert (HI' : forall i, In i I -> ai_ok i) by (intros i Hi; apply HI, Hi).
      split.
      + eapply good_perm; [apply Permutation_sym, HU|]. apply al_good; auto. eapply good_perm; eauto.
      + eapply covered_perm; [apply Permutation_sym, HU|apply Permutation_sym, HL|].
        intros u Hu. apply in_map_iff in Hu as (i & <- & Hi). exists (ai_held i).
        split; [now apply in_map|apply al_user_in; auto].
    - intros W P Inv w HP HI. cbn. exists []. split; auto. exists []. split; [intros i []|]. split; constructor.
    - intros W P Inv s w U L n HP (I & HI & HU & HL) HW Hn. unfold al_allocate. cbv zeta.
      fold ov. assert (Eov : ov = 8 + A - 1) by reflexivity.
      rewrite (w64_small (n + ov)) by lia.
      pose proof (ps_alloc _ _ _ HP w L (n + ov) HW ltac:(lia)) as Ha.
      destruct (p_alloc P (n + ov) w) as [w' p|w' e| | |]; cbn [post] in Ha |- *; auto; try contradiction.
      + pose proof (ps_good _ _ _ HP _ _ Ha) as HG. pose proof HG as HG0.
        apply good_cons in HG as ((W1 & W2 & W3) & D1 & G1).
        cbn [fst snd] in *. pose proof (al_ptr_spec p ltac:(lia) ltac:(lia)) as Hs. cbv zeta in Hs.
        set (buf := Z.land (w64 (p + ov)) (align_mask A)) in *.
        exists ((p, n + ov) :: L). split; auto.
        set (i0 := mkItem buf n p).
        assert (Hok0 : ai_ok i0) by (unfold ai_ok, i0; cbn; lia).
        exists (i0 :: I). split; [|split].
        * intros i [<-|Hi].
          -- split; auto. unfold i0. cbn. apply fset_eq.
          -- destruct (HI i Hi) as [H1 H2]. split; auto. rewrite fset_ne; auto.
             intros E. assert (Hi0 : i = i0).
             { apply (al_ptr_inj (i0 :: I)); simpl; auto.
               - intros j [<-|Hj]; auto. apply HI, Hj.
               - eapply good_perm; [|exact HG0]. apply perm_skip. exact HL. }
             subst i. specialize (D1 (ai_held i0)). rewrite HL in D1. specialize (D1 (in_map _ _ _ Hi)).
             unfold disj, ai_held, i0 in D1. cbn in D1. lia.
        * cbn [map]. now apply perm_skip.
        * cbn [map]. now apply perm_skip.
      + exists L. split; auto. exists I; auto.
    - intros W P Inv s w U L p n cur HP (I & HI & HU & HL) HW. unfold al_deallocate.
      assert (Hin : In (p, n) (map ai_user I)) by (eapply Permutation_in; [exact HU|simpl; auto]).
      apply in_map_iff in Hin as (i & Ei & Hi). unfold ai_user in Ei.
      assert (E1 : ai_ptr i = p) by congruence. assert (E2 : ai_n i = n) by congruence.
      destruct (HI i Hi) as [Hok Hh]. rewrite E1 in Hh. rewrite Hh. fold ov.
      destruct (in_split _ _ Hi) as (I1 & I2 & EI).
      assert (HPI : Permutation I (i :: I1 ++ I2)) by (rewrite EI; apply Permutation_sym, Permutation_middle).
      assert (HL' : Permutation L ((ai_base i, n + ov) :: map ai_held (I1 ++ I2))).
      { rewrite HL, HPI. cbn [map]. unfold ai_held at 1. rewrite E2. reflexivity. }
      assert (HGI : good (map ai_held I)) by (eapply good_perm; [exact HL|eapply ps_good; eauto]).
      assert (Hw : wf_region (ai_base i, n + ov)).
      { eapply ps_good in HW; eauto. apply HW. eapply Permutation_in; [apply Permutation_sym, HL'|simpl; auto]. }
      rewrite (w64_small (n + ov)).
      2:{ unfold wf_region in Hw. cbn in Hw. unfold M64, ASP in *. lia. }
      apply post_omap.
      eapply post_impl; [| |apply (ps_dealloc _ _ _ HP w (map ai_held (I1 ++ I2)) (ai_base i) (n + ov))]; auto; cbn [fst snd].
      + intros w' ? Hw'. exists (map ai_held (I1 ++ I2)). split; auto. exists (I1 ++ I2). split; [|split].
        * intros j Hj. assert (HjI : In j I) by (rewrite EI; apply in_app_iff in Hj; apply in_app_iff; simpl; tauto).
          destruct (HI j HjI) as [Hj1 Hj2]. split; auto. rewrite fdel_ne; auto.
          intros E. assert (j = i).
          { apply (al_ptr_inj I); auto. - intros x Hx; apply HI, Hx. - congruence. }
          subst j.
          assert (ND : NoDup (map ai_held I)) by (apply good_NoDup; auto).
          apply NoDup_map_inv in ND. rewrite EI in ND. apply NoDup_remove_2 in ND. contradiction.
        * apply (Permutation_cons_inv (a := (p, n))). rewrite HU, HPI. cbn [map]. unfold ai_user at 1.
          rewrite E1, E2. reflexivity.
        * reflexivity.
      + apply (ps_perm _ _ _ HP w L); auto.
    - intros W P Inv s w U L HP HR HI. now apply (no_release_ok _ _ al_rel) with (L := L).
    - intros W P Inv s w U L cur HP HR HI. now apply (no_coalesce_ok _ _ al_rel) with (L := L).
  Qed.
End AlignedAllocator.
