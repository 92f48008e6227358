(** What the calls on one allocator can and cannot do to the statistics of the others. *)
From Verif Require Import Base BaseFacts HeapModel HeapFacts StratModel StratFacts GlobalModel GlobalSpec GlobalFacts.

Lemma GInv_weaken (R R' : nat -> stats -> Prop) C : (forall j st, (j <= length C)%nat -> R j st -> R' j st) ->
  forall w X, GInv R C w X -> GInv R' C w X.
Proof.
  induction C as [|c C IH]; intros H w X HG.
  - destruct HG. split; auto.
  - destruct HG as (L & HR & HS & HG). exists L. split; [exact HR|]. split; [apply H; auto|].
    apply IH; auto. intros j st Hj. apply H. cbn [length]. auto.
Qed.

Lemma GInv_intro (R : nat -> stats -> Prop) C : forall w X, (forall j, (j <= length C)%nat -> R j (gstats C j w)) ->
  GI C w X -> GInv R C w X.
Proof.
  induction C as [|c C IH]; intros w X H HG.
  - destruct HG. split; auto. apply (H 0%nat). auto.
  - destruct HG as (L & HR & _ & HG). exists L. split; [exact HR|]. split.
    + specialize (H (S (length C)) (le_n _)). cbn [gstats] in H. now rewrite Nat.eqb_refl in H.
    + apply IH; auto. intros j Hj. specialize (H j ltac:(cbn [length]; lia)). cbn [gstats] in H.
      destruct (Nat.eqb_spec j (S (length C))); [lia|exact H].
Qed.

Lemma GInv_GI R C w X : GInv R C w X -> GI C w X.
Proof. apply GInv_weaken. auto. Qed.

Lemma gstats_gupd C i j f : (i <= length C)%nat -> (j <= length C)%nat ->
  forall w, gstats C j (gupd C i f w) = if Nat.eqb j i then f (gstats C i w) else gstats C j w.
Proof.
  induction C as [|c C IH]; intros Hi Hj w; cbn [gstats gupd length] in *.
  - assert (i = 0%nat) as -> by lia. assert (j = 0%nat) as -> by lia. reflexivity.
  - destruct (Nat.eqb_spec i (S (length C))) as [->|Ni].
    + cbn [fst snd]. destruct (Nat.eqb_spec j (S (length C))); reflexivity.
    + cbn [fst snd]. destruct (Nat.eqb_spec j (S (length C))) as [->|Nj].
      * destruct (Nat.eqb_spec (S (length C)) i); [lia|reflexivity].
      * apply IH; lia.
Qed.

(** Some strategy was created on top of [j]. *)
Definition has_child (C : list nodecfg) (j : nat) : Prop := exists c, In c C /\ nc_parent c = j.

(** After a call on [C] the statistics of every allocator satisfy [Q j before after], provided [Q]
    is reflexive and follows the changes made to parents. *)
Section Frame.
  Context (Q : nat -> stats -> stats -> Prop) (C : list nodecfg).
  Hypothesis Qrefl : forall j s, Q j s s.
  Hypothesis Qstep : forall j n s s', has_child C j -> Q j s s' -> Q j s (stats_add n s') /\ Q j s (stats_sub n s').

  Definition steps (w w' : gworld C) : Prop := forall j, (j <= length C)%nat -> Q j (gstats C j w) (gstats C j w').
  Definition RQ (w : gworld C) (j : nat) (st : stats) : Prop := Q j (gstats C j w) st.

  Lemma RQ_cl w : forall i n s, has_child C i -> RQ w i s -> RQ w i (stats_add n s) /\ RQ w i (stats_sub n s).
  Proof. intros i n s Hc HR. unfold RQ in *. apply Qstep; auto. Qed.

  Lemma RQ_parents : parents_cl (has_child C) C.
  Proof. intros c Hc. exists c. auto. Qed.

  Lemma RQ_start w X : GI C w X -> GInv (RQ w) C w X.
  Proof. apply GInv_intro. intros j Hj. apply Qrefl. Qed.

  Lemma RQ_done w w' X : GInv (RQ w) C w' X -> GI C w' X /\ steps w w'.
  Proof. intros H. split; [eapply GInv_GI; eauto|]. intros j Hj. exact (GInv_stats _ _ _ _ H j Hj). Qed.

  Hypothesis HC : config_ok C.

  Lemma graw_alloc_steps i n w X : GI C w X -> user_guard C i n w ->
    (i <= length C)%nat /\
    post (p_alloc (graw C i) n w)
      (fun w' p => GI C w' (if p =? 0 then X else hold X i ((p, n) :: X i)) /\ steps w w')
      (fun w' _ => GI C w' X /\ steps w w').
  Proof.
    intros HG Hu. destruct (graw_alloc_ok _ _ (RQ_cl w) C HC RQ_parents i n X w (RQ_start w X HG) Hu) as [Hi H].
    split; auto. eapply post_imp; [exact H| |]; intros w' u; apply RQ_done.
  Qed.

  Lemma graw_free_steps i p n l w X : GI C w X -> (i <= length C)%nat -> Permutation (X i) ((p, n) :: l) ->
    post (p_dealloc (graw C i) p n w) (fun w' _ => GI C w' (hold X i l) /\ steps w w')
      (fun w' _ => coalescing (kind_at C i) /\ GI C w' (hold X i l) /\ steps w w').
  Proof.
    intros HG Hi HX. pose proof (graw_free_ok _ _ (RQ_cl w) C HC RQ_parents i p n l X w (RQ_start w X HG) Hi HX) as H.
    eapply post_imp; [exact H| |].
    - intros w' u. apply RQ_done.
    - intros w' u [Hl Hw]. split; [exact Hl|]. now apply RQ_done.
  Qed.

  Lemma grelease_steps i w X : GI C w X ->
    post (grelease C i w) (fun w' _ => GI C w' X /\ steps w w') (fun w' _ => GI C w' X /\ steps w w').
  Proof.
    intros HG. pose proof (grelease_ok _ _ (RQ_cl w) C HC RQ_parents i X w (RQ_start w X HG)) as H.
    eapply post_imp; [exact H| |]; intros w' u; apply RQ_done.
  Qed.

  Lemma gcoalesce_steps i w X : GI C w X ->
    post (gcoalesce C i w) (fun w' _ => GI C w' X /\ steps w w') (fun w' _ => GI C w' X /\ steps w w').
  Proof.
    intros HG. pose proof (gcoalesce_ok _ _ (RQ_cl w) C HC RQ_parents i X w (RQ_start w X HG)) as H.
    eapply post_imp; [exact H| |]; intros w' u; apply RQ_done.
  Qed.
End Frame.

(** Creation: the new allocator may be the first child of its parent. *)
Lemma gcreate_steps (Q : nat -> stats -> stats -> Prop) C c :
  (forall j s, Q j s s) ->
  (forall j n s s', has_child (c :: C) j -> Q j s s' -> Q j s (stats_add n s') /\ Q j s (stats_sub n s')) ->
  config_ok (c :: C) -> forall w X, GI C w X -> X (S (length C)) = [] ->
  post (gcreate C c w)
    (fun _ v => GI (c :: C) v X /\ gstats (c :: C) (S (length C)) v = stats0 /\
       forall j, (j <= length C)%nat -> Q j (gstats C j w) (gstats (c :: C) j v))
    (fun w' _ => GI C w' X /\ forall j, (j <= length C)%nat -> Q j (gstats C j w) (gstats C j w')).
Proof.
  intros Qr Qs HC w X HG HX.
  set (R := fun j st => (j <= length C)%nat -> Q j (gstats C j w) st).
  assert (HCl : forall i n s, has_child (c :: C) i -> R i s -> R i (stats_add n s) /\ R i (stats_sub n s)).
  { intros i n s Hc HR. unfold R in *. split; intros Hi; now apply Qs; auto. }
  assert (HP : parents_cl (has_child (c :: C)) (c :: C)) by (intros d Hd; exists d; auto).
  assert (H0 : R (S (length C)) stats0) by (intros Hi; lia).
  assert (HG' : GInv R C w X) by (apply GInv_intro; auto; intros j Hj Hj'; apply Qr).
  pose proof (gcreate_ok R _ HCl C c HC HP H0 X w HG' HX) as H.
  destruct (gcreate C c w) as [w' v|w' e| | |] eqn:E; cbn [post] in *; auto.
  - split; [eapply GInv_GI; eauto|]. split.
    + unfold gcreate in E. destruct (st_make _ _ _ _) as [w1 s| | | |]; try discriminate. injection E as _ <-.
      cbn [gstats]. now rewrite Nat.eqb_refl.
    + intros j Hj. apply (GInv_stats _ _ _ _ H j ltac:(cbn [length]; lia)). exact Hj.
  - split; [eapply GInv_GI; eauto|]. intros j Hj. apply (GInv_stats _ _ _ _ H j Hj). exact Hj.
Qed.
