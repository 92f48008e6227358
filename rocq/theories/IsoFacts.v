(** A call on an allocator touches, and depends on, only the allocators of its chain. *)
From Verif Require Import Base HeapModel StratModel QuickPoolModel FixedPoolModel GlobalModel MapModel SystemModel IsoSpec ParamFacts.

(** Two states that are the same on the allocators in [T] and, elsewhere, are [a] and [b]. *)
Fixpoint twin (C : list nodecfg) (T : nat -> Prop) : gworld C -> gworld C -> gworld C -> gworld C -> Prop :=
  match C return gworld C -> gworld C -> gworld C -> gworld C -> Prop with
  | [] => fun _ _ w1 w2 => w1 = w2
  | c :: C' => fun a b w1 w2 =>
      (T (S (length C')) -> fst w1 = fst w2) /\
      (~ T (S (length C')) -> fst a = fst w1 /\ fst b = fst w2) /\
      twin C' T (snd a) (snd b) (snd w1) (snd w2)
  end.

Lemma same_refl C j (w : gworld C) : same_at C j w w.
Proof. induction C as [|c C IH]; cbn [same_at]; [reflexivity|]. destruct (Nat.eqb _ _); auto. Qed.

Lemma same_trans C j (a b d : gworld C) : same_at C j a b -> same_at C j b d -> same_at C j a d.
Proof.
  induction C as [|c C IH]; cbn [same_at]; [congruence|]. destruct (Nat.eqb _ _); [congruence|]. apply IH.
Qed.

Lemma twin_intro C (T : nat -> Prop) (w1 w2 : gworld C) : T 0%nat -> (forall j, (j <= length C)%nat -> T j -> same_at C j w1 w2) -> twin C T w1 w2 w1 w2.
Proof.
  intros H0. induction C as [|c C IH]; cbn [twin same_at length]; intros H.
  - apply (H 0%nat); [lia|auto].
  - split; [|split; [auto|]].
    + intros HT. specialize (H (S (length C)) ltac:(lia) HT). now rewrite Nat.eqb_refl in H.
    + apply IH. intros j Hj HT. specialize (H j ltac:(lia) HT). destruct (Nat.eqb_spec j (S (length C))); [lia|auto].
Qed.

Lemma twin_same C (T : nat -> Prop) a b (w1 w2 : gworld C) j : twin C T a b w1 w2 -> T j -> (j <= length C)%nat -> same_at C j w1 w2.
Proof.
  induction C as [|c C IH]; cbn [twin same_at length]; [auto|]. intros (H1 & _ & H3) HT Hj.
  destruct (Nat.eqb_spec j (S (length C))); [subst; auto|]. apply (IH _ _ _ _ H3 HT). lia.
Qed.

Lemma twin_left C (T : nat -> Prop) a b (w1 w2 : gworld C) j : twin C T a b w1 w2 -> ~ T j -> T 0%nat -> (j <= length C)%nat -> same_at C j a w1.
Proof.
  induction C as [|c C IH]; cbn [twin same_at length]; intros H HT H0 Hj.
  - assert (j = 0%nat) by lia. subst. tauto.
  - destruct H as (_ & H2 & H3). destruct (Nat.eqb_spec j (S (length C))); [subst; apply H2, HT|].
    apply (IH _ _ _ _ H3 HT H0). lia.
Qed.

Lemma chain_zero C i : In 0%nat (chain C i).
Proof.
  revert i. induction C as [|c C IH]; intros i; cbn [chain]; [left; reflexivity|]. destruct (Nat.eqb _ _); [right|]; auto.
Qed.

Lemma chain_self C i : (i <= length C)%nat -> In i (chain C i).
Proof.
  induction C as [|c C IH]; cbn [chain length]; intros H; [left; lia|].
  destruct (Nat.eqb_spec i (S (length C))); [left; auto|]. apply IH. lia.
Qed.

Lemma alike_eq W A (o : outcome W A) : alike eq o o.
Proof. destruct o; cbn; auto. Qed.

Lemma alike_mono W1 W2 A (R Q : W1 -> W2 -> Prop) (o1 : outcome W1 A) (o2 : outcome W2 A) :
  alike R o1 o2 -> (forall w1 w2, R w1 w2 -> Q w1 w2) -> alike Q o1 o2.
Proof. destruct o1, o2; cbn [alike]; try tauto; intros [H E] K; auto. Qed.

Section Twin.
  Context (T : nat -> Prop).

  Lemma lift_rel (A W : Type) (R : W -> W -> Prop) (N : A -> A -> Prop) (P : Parent W) :
    prel R P P -> prel (fun x y => N (fst x) (fst y) /\ R (snd x) (snd y)) (@lift_parent A W P) (lift_parent P).
  Proof.
    intros H. split.
    - intros n [x w1] [y w2] [HN HR]. cbn [lift_parent p_alloc fst snd] in *. eapply alike_omap; [apply H, HR|]. auto.
    - intros p n [x w1] [y w2] [HN HR]. cbn [lift_parent p_dealloc fst snd] in *. eapply alike_omap; [apply H, HR|]. auto.
  Qed.

  Lemma host_internal_rel : prel eq host_internal host_internal.
  Proof. split; intros; subst; apply alike_eq. Qed.

  Lemma gparent_rel C : forall i, (forall j, In j (chain C i) -> T j) -> forall a b, prel (twin C T a b) (gparent C i) (gparent C i).
  Proof.
    induction C as [|c C IH]; intros i HT a b.
    - cbn [gparent twin]. apply host_internal_rel.
    - cbn [gparent chain] in *. destruct (Nat.eqb_spec i (S (length C))) as [Ei|Hi]; [subst i|].
      + assert (HS : T (S (length C))) by (apply HT; left; reflexivity).
        assert (HP : prel (twin C T (snd a) (snd b)) (gparent C (nc_parent c)) (gparent C (nc_parent c))).
        { apply IH. intros; apply HT; right; auto. }
        pose proof (rel_strat _ _ _ HP (nc_kind c)) as SR.
        split.
        * intros n [[st s] w1] [[st' s'] w2] (E & _ & R). specialize (E HS). cbn [fst snd] in E, R. inversion E; subst.
          cbn [internal p_alloc]. unfold allocate_internal. eapply alike_omap; [apply (sr_alloc _ _ _ _ SR), R|].
          intros [x v1] [y v2] [Exy Rv]; cbn [fst snd] in *; subst. cbn [twin fst snd]. split; [auto|]. split; [tauto|auto].
        * intros p n [[st s] w1] [[st' s'] w2] (E & _ & R). specialize (E HS). cbn [fst snd] in E, R. inversion E; subst.
          cbn [internal p_dealloc]. unfold deallocate_internal. eapply alike_omap; [apply (sr_dealloc _ _ _ _ SR), R|].
          intros [x v1] [y v2] [Exy Rv]; cbn [fst snd] in *; subst. cbn [twin fst snd]. split; [auto|]. split; [tauto|auto].
      + cbn [twin]. specialize (IH i HT (snd a) (snd b)).
        pose proof (lift_rel _ _ _ (fun x y => (T (S (length C)) -> x = y) /\ (~ T (S (length C)) -> fst a = x /\ fst b = y)) _ IH) as L.
        destruct L as [La Ld]. split.
        * intros n w1 w2 (H1 & H2 & H3). specialize (La n w1 w2 (conj (conj H1 H2) H3)).
          refine (alike_mono _ _ _ _ _ _ _ La _). cbn beta. tauto.
        * intros p n w1 w2 (H1 & H2 & H3). specialize (Ld p n w1 w2 (conj (conj H1 H2) H3)).
          refine (alike_mono _ _ _ _ _ _ _ Ld _). cbn beta. tauto.
  Qed.

  Lemma graw_rel C : forall i, (forall j, In j (chain C i) -> T j) -> forall a b, prel (twin C T a b) (graw C i) (graw C i).
  Proof.
    induction C as [|c C IH]; intros i HT a b.
    - cbn [graw twin]. split; intros; subst; apply alike_eq.
    - cbn [graw chain] in *. destruct (Nat.eqb_spec i (S (length C))) as [Ei|Hi]; [subst i|].
      + assert (HS : T (S (length C))) by (apply HT; left; reflexivity).
        assert (HP : prel (twin C T (snd a) (snd b)) (gparent C (nc_parent c)) (gparent C (nc_parent c))).
        { apply gparent_rel. intros; apply HT; right; auto. }
        pose proof (rel_strat _ _ _ HP (nc_kind c)) as SR.
        split.
        * intros n [[st s] w1] [[st' s'] w2] (E & _ & R). specialize (E HS). cbn [fst snd] in E, R. inversion E; subst.
          cbn [p_alloc fst snd]. eapply alike_omap; [apply (sr_alloc _ _ _ _ SR), R|].
          intros [x v1] [y v2] [Exy Rv]; cbn [fst snd] in *; subst. cbn [twin fst snd]. split; [auto|]. split; [tauto|auto].
        * intros p n [[st s] w1] [[st' s'] w2] (E & _ & R). specialize (E HS). cbn [fst snd] in E, R. inversion E; subst.
          cbn [p_dealloc fst snd]. eapply alike_omap; [apply (sr_dealloc _ _ _ _ SR), R|].
          intros [x v1] [y v2] [Exy Rv]; cbn [fst snd] in *; subst. cbn [twin fst snd]. split; [auto|]. split; [tauto|auto].
      + cbn [twin]. specialize (IH i HT (snd a) (snd b)).
        pose proof (lift_rel _ _ _ (fun x y => (T (S (length C)) -> x = y) /\ (~ T (S (length C)) -> fst a = x /\ fst b = y)) _ IH) as L.
        destruct L as [La Ld]. split.
        * intros n w1 w2 (H1 & H2 & H3). specialize (La n w1 w2 (conj (conj H1 H2) H3)).
          refine (alike_mono _ _ _ _ _ _ _ La _). cbn beta. tauto.
        * intros p n w1 w2 (H1 & H2 & H3). specialize (Ld p n w1 w2 (conj (conj H1 H2) H3)).
          refine (alike_mono _ _ _ _ _ _ _ Ld _). cbn beta. tauto.
  Qed.

  Lemma grelease_rel C : forall i, (forall j, In j (chain C i) -> T j) -> forall a b w1 w2, twin C T a b w1 w2 ->
    alike (twin C T a b) (grelease C i w1) (grelease C i w2).
  Proof.
    induction C as [|c C IH]; intros i HT a b w1 w2 HR.
    - cbn in *. auto.
    - cbn [grelease chain] in *. destruct (Nat.eqb_spec i (S (length C))) as [Ei|Hi]; [subst i|].
      + assert (HS : T (S (length C))) by (apply HT; left; reflexivity).
        assert (HP : prel (twin C T (snd a) (snd b)) (gparent C (nc_parent c)) (gparent C (nc_parent c))).
        { apply gparent_rel. intros; apply HT; right; auto. }
        pose proof (rel_strat _ _ _ HP (nc_kind c)) as SR.
        destruct w1 as [[st s] w1], w2 as [[st' s'] w2], HR as (E & _ & R). specialize (E HS). cbn [fst snd] in *. inversion E; subst.
        eapply alike_omap; [apply (sr_release _ _ _ _ SR), R|].
        intros [x v1] [y v2] [Exy Rv]; cbn [fst snd] in *; subst. cbn [twin fst snd]. split; [auto|]. split; [tauto|auto].
      + destruct HR as (H1 & H2 & H3). eapply alike_omap; [apply (IH i HT _ _ _ _ H3)|]. intros; cbn [twin fst snd]; auto.
  Qed.

  Lemma gcoalesce_rel C : forall i, (forall j, In j (chain C i) -> T j) -> forall a b w1 w2, twin C T a b w1 w2 ->
    alike (twin C T a b) (gcoalesce C i w1) (gcoalesce C i w2).
  Proof.
    induction C as [|c C IH]; intros i HT a b w1 w2 HR.
    - cbn in *. auto.
    - cbn [gcoalesce chain] in *. destruct (Nat.eqb_spec i (S (length C))) as [Ei|Hi]; [subst i|].
      + assert (HS : T (S (length C))) by (apply HT; left; reflexivity).
        assert (HP : prel (twin C T (snd a) (snd b)) (gparent C (nc_parent c)) (gparent C (nc_parent c))).
        { apply gparent_rel. intros; apply HT; right; auto. }
        pose proof (rel_strat _ _ _ HP (nc_kind c)) as SR.
        destruct w1 as [[st s] w1], w2 as [[st' s'] w2], HR as (E & _ & R). specialize (E HS). cbn [fst snd] in *. inversion E; subst.
        eapply alike_omap; [apply (sr_coalesce _ _ _ _ SR), R|].
        intros [x v1] [y v2] [Exy Rv]; cbn [fst snd] in *; subst. cbn [twin fst snd]. split; [auto|]. split; [tauto|auto].
      + destruct HR as (H1 & H2 & H3). eapply alike_omap; [apply (IH i HT _ _ _ _ H3)|]. intros; cbn [twin fst snd]; auto.
  Qed.

  Lemma gupd_rel C f : forall i, (forall j, In j (chain C i) -> T j) -> forall a b w1 w2, twin C T a b w1 w2 ->
    twin C T a b (gupd C i f w1) (gupd C i f w2).
  Proof.
    induction C as [|c C IH]; intros i HT a b w1 w2 HR.
    - cbn in *. congruence.
    - cbn [gupd chain] in *. destruct HR as (H1 & H2 & H3). destruct (Nat.eqb_spec i (S (length C))) as [Ei|Hi]; [subst i|]; cbn [twin fst snd].
      + assert (HS : T (S (length C))) by (apply HT; left; reflexivity). rewrite (H1 HS). split; [auto|]. split; [tauto|auto].
      + auto.
  Qed.

  Lemma gnode_rel C : forall i, T i -> forall a b w1 w2, twin C T a b w1 w2 -> gnode C i w1 = gnode C i w2.
  Proof.
    induction C as [|c C IH]; intros i HT a b w1 w2 HR; cbn [gnode]; [reflexivity|].
    destruct HR as (H1 & _ & H3). destruct (Nat.eqb_spec i (S (length C))) as [Ei|Hi]; [subst i|]; [now rewrite (H1 HT)|]. exact (IH i HT _ _ _ _ H3).
  Qed.
End Twin.

Lemma gnode_upd C f i j (w : gworld C) : gnode C j (gupd C i f w) = gnode C j w.
Proof.
  induction C as [|c C IH]; cbn [gnode gupd]; [reflexivity|].
  destruct (Nat.eqb j (S (length C))) eqn:E; destruct (Nat.eqb i (S (length C))) eqn:E'; cbn [fst snd]; auto.
Qed.

(** ** The whole system *)
Section Sys.
  Context (J : Judy (list arec)) (C : list nodecfg).

  Definition srun (T : nat -> Prop) (a b : gworld C) (s1 s2 : sworld J C) : Prop := twin C T a b (fst s1) (fst s2) /\ snd s1 = snd s2.

  Lemma alike_refl_map A T a b w1 w2 (o : outcome (amap J) A) : twin C T a b w1 w2 ->
    alike (srun T a b) (omap (pair w1) (fun r => r) o) (omap (pair w2) (fun r => r) o).
  Proof. intros H. eapply alike_omap; [apply alike_eq|]. intros ? ? ->. split; auto. Qed.

  Lemma register_rel T a b p r s1 s2 : srun T a b s1 s2 -> alike (srun T a b) (sys_register J C p r s1) (sys_register J C p r s2).
  Proof.
    intros [H E]. unfold sys_register. rewrite <- E. destruct (p =? 0); [cbn; split; [split|]; auto|]. now apply alike_refl_map.
  Qed.

  Lemma allocate_rel (T : nat -> Prop) i n nm a b s1 s2 :
    (forall j, In j (chain C i) -> T j) -> (n = 0 -> forall j, In j (chain C zero_id) -> T j) -> srun T a b s1 s2 ->
    alike (srun T a b) (sys_allocate J C i n nm s1) (sys_allocate J C i n nm s2).
  Proof.
    intros Hi Hz [H E]. unfold sys_allocate. eapply alike_bind.
    - eapply alike_omap with (R := twin C T a b).
      + destruct (n =? 0) eqn:En; [apply graw_rel; [apply Hz; lia|auto]|apply graw_rel; auto].
      + intros; split; auto.
    - intros [v1 m1] [v2 m2] p [Hv Em]; cbn [fst snd] in *. eapply alike_bind.
      + unfold sys_track. cbn [fst snd]. apply register_rel. split; [cbn [fst]; now apply gupd_rel|auto].
      + intros; cbn; auto.
  Qed.

  Lemma zero_owns_rel (T : nat -> Prop) a b p w1 w2 : T zero_id -> twin C T a b w1 w2 -> zero_owns C p w1 = zero_owns C p w2.
  Proof. intros HT H. unfold zero_owns. now rewrite (gnode_rel T C zero_id HT _ _ _ _ H). Qed.

  Lemma zero_owns_upd p f i w : zero_owns C p (gupd C i f w) = zero_owns C p w.
  Proof. unfold zero_owns. now rewrite gnode_upd. Qed.

  Lemma untrack_rel (T : nat -> Prop) i p a b s1 s2 : (forall j, In j (chain C i) -> T j) -> srun T a b s1 s2 ->
    alike (srun T a b) (sys_untrack J C i p s1) (sys_untrack J C i p s2).
  Proof.
    intros Hi [H E]. unfold sys_untrack. rewrite <- E. eapply alike_bind; [now apply alike_refl_map|].
    intros [v1 m1] [v2 m2] r [Hv Em]; cbn [fst snd] in *. destruct (r_strat r =? Z.of_nat i).
    - cbn [alike]. split; [|auto]. split; [cbn [fst]; now apply gupd_rel|auto].
    - eapply alike_bind; [apply register_rel; split; auto|]. intros; cbn; auto.
  Qed.

  Lemma deallocate_rel (T : nat -> Prop) i p a b s1 s2 :
    (forall j, In j (chain C i) -> T j) -> (forall j, In j (chain C zero_id) -> T j) -> T zero_id -> srun T a b s1 s2 ->
    alike (srun T a b) (sys_deallocate J C i p s1) (sys_deallocate J C i p s2).
  Proof.
    intros Hi Hz HT H. unfold sys_deallocate. destruct (p =? 0); [cbn; auto|].
    eapply alike_bind; [now apply untrack_rel|].
    intros [v1 m1] [v2 m2] r [Hv Em]; cbn [fst snd] in *. subst. rewrite (zero_owns_rel _ _ _ p _ _ HT Hv).
    eapply alike_omap with (R := twin C T a b).
    - destruct (zero_owns C p v2); apply graw_rel; auto.
    - intros; split; auto.
  Qed.

  (** Untouched: what a call that does not look at the zero-byte pool leaves alone. *)
  Lemma untrack_gnode i p s : match sys_untrack J C i p s with
    | Ok s' r => forall j, gnode C j (fst s') = gnode C j (fst s) | _ => True end.
  Proof.
    unfold sys_untrack. destruct (am_remove J p (snd s)) as [m r|m e| | |]; cbn [omap bind]; auto.
    destruct (r_strat r =? Z.of_nat i); cbn [fst snd]; [intros; apply gnode_upd|].
    unfold sys_register. destruct (p =? 0); cbn [bind]; auto. destruct (am_insert _ _ _ _); cbn [omap bind]; auto.
  Qed.

  Lemma deallocate_left (T : nat -> Prop) i p a s :
    (forall j, In j (chain C i) -> T j) -> (zero_owns C p (fst s) = true -> forall j, In j (chain C zero_id) -> T j) ->
    twin C T a a (fst s) (fst s) -> ends (fun s' => twin C T a a (fst s') (fst s')) (sys_deallocate J C i p s).
  Proof.
    intros Hi Hz H. unfold sys_deallocate. destruct (p =? 0); [exact H|].
    pose proof (untrack_rel T i p a a s s Hi (conj H eq_refl)) as U. pose proof (untrack_gnode i p s) as G.
    destruct (sys_untrack J C i p s) as [s1 r|s1 e| | |]; cbn [bind alike ends] in *; try exact I.
    - destruct U as [[U _] _].
      assert (Z : zero_owns C p (fst s1) = zero_owns C p (fst s)) by (unfold zero_owns; now rewrite G).
      assert (K : alike (twin C T a a) (if zero_owns C p (fst s1) then p_dealloc (graw C zero_id) p 1 (fst s1) else p_dealloc (graw C i) p (r_size r) (fst s1))
                  (if zero_owns C p (fst s1) then p_dealloc (graw C zero_id) p 1 (fst s1) else p_dealloc (graw C i) p (r_size r) (fst s1))).
      { rewrite Z. destruct (zero_owns C p (fst s)) eqn:Ez; apply graw_rel; auto. }
      destruct (if zero_owns C p (fst s1) then _ else _); cbn [omap ends alike fst] in *; tauto.
    - destruct U as [[U _] _]; exact U.
  Qed.
End Sys.

(** ** In terms of the chain *)
Section Thms.
  Context (J : Judy (list arec)) (C : list nodecfg).

  Lemma alike_self A (T : nat -> Prop) a (o : outcome (sworld J C) A) : alike (srun J C T a a) o o ->
    T 0%nat -> ends (fun s' => forall j, (j <= length C)%nat -> ~ T j -> same_at C j a (fst s')) o.
  Proof.
    intros H H0. destruct o; cbn [alike ends] in *; auto; destruct H as [[H _] _]; intros j Hj HT; exact (twin_left _ _ _ _ _ _ _ H HT H0 Hj).
  Qed.

  Lemma alike_left A (T : nat -> Prop) a (o : outcome (gworld C) A) : alike (twin C T a a) o o ->
    T 0%nat -> ends (fun w' => forall j, (j <= length C)%nat -> ~ T j -> same_at C j a w') o.
  Proof.
    intros H H0. destruct o; cbn [alike ends] in *; auto; destruct H as [H _]; intros j Hj HT; exact (twin_left _ _ _ _ _ _ _ H HT H0 Hj).
  Qed.

  Notation used := (used C).
  Notation agree := (agree C).

  Lemma used_zero i z : In 0%nat (used i z).
  Proof. apply in_or_app. left. apply chain_zero. Qed.

  Lemma twin_self (T : nat -> Prop) (w : gworld C) : T 0%nat -> twin C T w w w w.
  Proof. intros H. apply twin_intro; auto. intros; apply same_refl. Qed.

  Lemma allocate_frame i n nm w m :
    ends (fun s' => forall j, (j <= length C)%nat -> ~ In j (used i (n =? 0)) -> same_at C j w (fst s')) (sys_allocate J C i n nm (w, m)).
  Proof.
    apply (alike_self _ (fun j => In j (used i (n =? 0)))).
    - apply allocate_rel.
      + intros; apply in_or_app; auto.
      + intros -> j Hj. apply in_or_app; right. exact Hj.
      + split; [apply twin_self, used_zero|reflexivity].
    - apply used_zero.
  Qed.

  Lemma deallocate_frame i p w m :
    ends (fun s' => forall j, (j <= length C)%nat -> ~ In j (used i (zero_owns C p w)) -> same_at C j w (fst s')) (sys_deallocate J C i p (w, m)).
  Proof.
    set (T := fun j => In j (used i (zero_owns C p w))).
    assert (K : ends (fun s' => twin C T w w (fst s') (fst s')) (sys_deallocate J C i p (w, m))).
    { apply deallocate_left.
      - intros; apply in_or_app; auto.
      - cbn [fst]. intros E j Hj. unfold T, used. rewrite E. apply in_or_app; auto.
      - apply twin_self, used_zero. }
    destruct (sys_deallocate J C i p (w, m)); cbn [ends] in *; auto;
      intros j Hj HT; exact (twin_left _ _ _ _ _ _ _ K HT (used_zero _ _) Hj).
  Qed.

  Lemma release_frame i w : ends (fun w' => forall j, (j <= length C)%nat -> ~ In j (chain C i) -> same_at C j w w') (grelease C i w).
  Proof.
    apply (alike_left _ (fun j => In j (chain C i))); [|apply chain_zero]. apply grelease_rel; auto. apply twin_self, chain_zero.
  Qed.

  Lemma coalesce_frame i w : ends (fun w' => forall j, (j <= length C)%nat -> ~ In j (chain C i) -> same_at C j w w') (gcoalesce C i w).
  Proof.
    apply (alike_left _ (fun j => In j (chain C i))); [|apply chain_zero]. apply gcoalesce_rel; auto. apply twin_self, chain_zero.
  Qed.

  Lemma create_frame c w : ends (fun w' => forall j, (j <= length C)%nat -> ~ In j (chain C (nc_parent c)) -> same_at C j w w') (gcreate C c w).
  Proof.
    assert (K : alike (twin C (fun j => In j (chain C (nc_parent c))) w w)
                  (st_make (nc_strat c) _ (gparent C (nc_parent c)) w) (st_make (nc_strat c) _ (gparent C (nc_parent c)) w)).
    { eapply sr_make; [|apply twin_self, chain_zero]. apply rel_strat, gparent_rel; auto. }
    apply alike_left in K; [|apply chain_zero]. unfold gcreate. destruct (st_make _ _ _ _); cbn [ends] in *; auto.
  Qed.

  (** Dependence. *)
  Lemma srun_agree A L a b (o1 o2 : outcome (sworld J C) A) : alike (srun J C (fun j => In j L) a b) o1 o2 ->
    alike (fun s1 s2 => agree L (fst s1) (fst s2) /\ snd s1 = snd s2) o1 o2.
  Proof.
    destruct o1, o2; cbn [alike]; try tauto; intros [[H E] F]; repeat split; auto;
      intros j Hj Hl; exact (twin_same _ _ _ _ _ _ _ H Hj Hl).
  Qed.

  Lemma twin_agree A L a b (o1 o2 : outcome (gworld C) A) : alike (twin C (fun j => In j L) a b) o1 o2 -> alike (agree L) o1 o2.
  Proof.
    destruct o1, o2; cbn [alike]; try tauto; intros [H F]; split; auto;
      intros j Hj Hl; exact (twin_same _ _ _ _ _ _ _ H Hj Hl).
  Qed.

  Lemma allocate_same i n nm w1 w2 m : agree (used i (n =? 0)) w1 w2 ->
    alike (fun s1 s2 => agree (used i (n =? 0)) (fst s1) (fst s2) /\ snd s1 = snd s2)
      (sys_allocate J C i n nm (w1, m)) (sys_allocate J C i n nm (w2, m)).
  Proof.
    intros H. apply srun_agree with (a := w1) (b := w2). apply allocate_rel.
    - intros; apply in_or_app; auto.
    - intros -> j Hj. apply in_or_app; right. exact Hj.
    - split; [|reflexivity]. apply twin_intro; [apply used_zero|]. intros; apply H; auto.
  Qed.

  Lemma deallocate_same i p w1 w2 m : agree (used i true) w1 w2 -> (zero_id <= length C)%nat ->
    alike (fun s1 s2 => agree (used i true) (fst s1) (fst s2) /\ snd s1 = snd s2)
      (sys_deallocate J C i p (w1, m)) (sys_deallocate J C i p (w2, m)).
  Proof.
    intros H Hz. apply srun_agree with (a := w1) (b := w2). apply deallocate_rel.
    - intros; apply in_or_app; auto.
    - intros j Hj. apply in_or_app; auto.
    - apply in_or_app; right. now apply chain_self.
    - split; [|reflexivity]. apply twin_intro; [apply used_zero|]. intros; apply H; auto.
  Qed.

  Lemma release_same i w1 w2 : agree (chain C i) w1 w2 -> alike (agree (chain C i)) (grelease C i w1) (grelease C i w2).
  Proof.
    intros H. apply twin_agree with (a := w1) (b := w2). apply grelease_rel; auto. apply twin_intro; [apply chain_zero|]. intros; apply H; auto.
  Qed.
  Lemma coalesce_same i w1 w2 : agree (chain C i) w1 w2 -> alike (agree (chain C i)) (gcoalesce C i w1) (gcoalesce C i w2).
  Proof.
    intros H. apply twin_agree with (a := w1) (b := w2). apply gcoalesce_rel; auto. apply twin_intro; [apply chain_zero|]. intros; apply H; auto.
  Qed.

  Lemma ends_leaves A (P : sworld J C -> Prop) (o : outcome (sworld J C) A) s : ends P o -> leaves J C o s -> P s.
  Proof. destruct o; cbn; intros H <- || intros H []; exact H. Qed.

  Lemma calls_frame s0 L s : calls J C s0 L s -> forall j, (j <= length C)%nat -> ~ In j L -> same_at C j (fst s0) (fst s).
  Proof.
    induction 1 as [|L s i n nm s' H IH E|L s i p s' H IH E|L s i m p s' H IH F E|L s i s' H IH E|L s i s' H IH E|L s p s' H IH E];
      intros j Hj HL; [apply same_refl|..];
      try (assert (HL' : ~ In j L) by (intros Hc; apply HL, in_or_app; auto); specialize (IH j Hj HL'));
      try (apply (same_trans _ _ _ _ _ IH)).
    - destruct s as [w m]. apply (ends_leaves _ _ _ _ (allocate_frame i n nm w m) E); [exact Hj|]. intros Hc; apply HL, in_or_app; auto.
    - destruct s as [w m]. apply (ends_leaves _ _ _ _ (deallocate_frame i p w m) E); [exact Hj|]. intros Hc; apply HL, in_or_app; auto.
    - unfold rm_deallocate in E. rewrite F in E. cbn [bind] in E. destruct s as [w m0]. cbn [fst] in *.
      apply (ends_leaves _ _ _ _ (deallocate_frame i p w m) E); [exact Hj|]. intros Hc; apply HL, in_or_app; auto.
    - destruct s as [w m]. unfold sys_release in E. cbn [fst snd] in *. pose proof (release_frame i w) as K.
      destruct (grelease C i w) as [w' u|w' e| | |]; cbn [omap leaves ends] in *; try contradiction; subst; cbn [fst];
        (apply K; [exact Hj|]; intros Hc; apply HL, in_or_app; auto).
    - destruct s as [w m]. unfold sys_coalesce in E. cbn [fst snd] in *. pose proof (coalesce_frame i w) as K.
      destruct (gcoalesce C i w) as [w' u|w' e| | |]; cbn [omap leaves ends] in *; try contradiction; subst; cbn [fst];
        (apply K; [exact Hj|]; intros Hc; apply HL, in_or_app; auto).
    - specialize (IH j Hj HL). unfold rm_get_size in E. destruct (am_find J p (snd s)); cbn [omap leaves] in E; try contradiction; subst; exact IH.
  Qed.
End Thms.
