(** The HOST resource meets the contract of a parent. *)
From Verif Require Import Base BaseFacts HeapModel.

(** The client holds [L]; others hold [O]. *)
Definition heap_inv (h : heap) (L : list region) : Prop :=
  exists O, Permutation (h_live h) (L ++ O) /\ good (h_live h).

(** The client is the only one, and malloc answers by [orc]. *)
Definition heap_only (orc : nat -> list region -> Z -> answer) (h : heap) (L : list region) : Prop :=
  Permutation (h_live h) L /\ good (h_live h) /\ h_oracle h = orc.

(** The client is the only one. *)
Definition heap_own (h : heap) (L : list region) : Prop :=
  Permutation (h_live h) L /\ good (h_live h).

Lemma take_block_some p l n t : take_block p l = Some (n, t) -> Permutation l ((p, n) :: t).
Proof.
  revert n t. induction l as [|[q m] l IH]; cbn; intros n t; [discriminate|].
  destruct (Z.eqb_spec q p) as [->|Hne].
  - intros E. inversion E; subst. reflexivity.
  - destruct (take_block p l) as [[m' t']|]; [|discriminate]. intros E. inversion E; subst.
    rewrite (IH _ _ eq_refl). apply perm_swap.
Qed.

Lemma take_block_in p l : In p (map fst l) -> exists n t, take_block p l = Some (n, t).
Proof.
  induction l as [|[q m] l IH]; cbn; [tauto|]. intros H.
  destruct (Z.eqb_spec q p) as [->|Hne]; [eauto|]. destruct H as [H|H]; [congruence|].
  destruct (IH H) as (n & t & ->). eauto.
Qed.

Lemma legal_good live a n : legal live a n = true -> 0 < n -> good live -> good ((a, n) :: live).
Proof.
  unfold legal. rewrite !andb_true_iff. intros [[[H1 H2] H3] H4] Hn Hg.
  apply good_cons. split; [|split; auto].
  - unfold wf_region; cbn [fst snd]. lia.
  - intros r Hr. rewrite forallb_forall in H4. specialize (H4 r Hr). unfold disj. cbn [fst snd]. lia.
Qed.

Lemma malloc_cases n h : 0 <= n -> good (h_live h) ->
  (exists a, malloc n h = Ok (mkHeap (h_oracle h) (S (h_step h)) ((a, at_least_1 n) :: h_live h) (h_refused h)) a /\
     good ((a, at_least_1 n) :: h_live h) /\ a mod 16 = 0) \/
  (exists e, malloc n h = Throw (mkHeap (h_oracle h) (S (h_step h)) (h_live h) (n :: h_refused h)) e).
Proof.
  intros Hn Hg. unfold malloc. destruct (h_oracle h (h_step h) (h_live h) n) as [a|b]; [|eauto].
  destruct (legal (h_live h) a (at_least_1 n)) eqn:E; [left|eauto].
  exists a. split; auto. split; [apply legal_good; auto; unfold at_least_1; destruct (Z.ltb_spec n 1); lia|].
  unfold legal in E. rewrite !andb_true_iff in E. destruct E as [[[_ E] _] _]. now apply Z.eqb_eq.
Qed.

Lemma free_live p n h L : good (h_live h) -> Permutation (h_live h) ((p, n) :: L) ->
  exists t, free p h = Ok (mkHeap (h_oracle h) (h_step h) t (h_refused h)) tt /\ Permutation t L /\ good t.
Proof.
  intros Hg HP. unfold free.
  assert (Hin : In (p, n) (h_live h)) by (eapply Permutation_in; [apply Permutation_sym, HP|simpl; auto]).
  assert (0 < p) by (destruct (proj1 Hg _ Hin) as (? & _); auto).
  destruct (Z.eqb_spec p 0); [lia|].
  destruct (take_block_in p (h_live h) (in_map fst _ _ Hin)) as (m & t & E). rewrite E. exists t.
  split; auto. apply take_block_some in E.
  assert (m = n).
  { eapply good_fst_inj; [exact Hg| |exact Hin]. eapply Permutation_in; [apply Permutation_sym, E|simpl; auto]. }
  subst m. split; [eapply Permutation_cons_inv; rewrite <- E; exact HP|].
  apply (good_perm _ _ E) in Hg. now apply good_cons in Hg.
Qed.

Lemma host_spec : ParentSpec host (M64 - 1) heap_inv.
Proof.
  constructor.
  - intros h L L' HP (O & H1 & H2). exists O. split; auto. rewrite H1. now apply Permutation_app_tail.
  - intros h L (O & H1 & H2). apply (good_perm _ _ H1) in H2. now apply good_app in H2.
  - intros h L n (O & H1 & H2) Hn. cbn [host p_alloc]. unfold host_allocate.
    destruct (malloc_cases n h ltac:(lia) H2) as [(a & -> & Hg & _)|(e & ->)]; cbn [post].
    + exists O. cbn [h_live]. replace (at_least_1 n) with n in * by (unfold at_least_1; destruct (Z.ltb_spec n 1); lia).
      split; auto. cbn [app]. now constructor.
    + exists O. auto.
  - intros h L p n (O & H1 & H2). cbn [host p_dealloc]. unfold host_deallocate.
    destruct (free_live p n h (L ++ O) H2 H1) as (t & -> & Ht & Hg). cbn [post]. exists O. auto.
Qed.

Lemma host_own_spec : ParentSpec host (M64 - 1) heap_own.
Proof.
  constructor.
  - intros h L L' HP (H1 & H2). split; [|auto]. now rewrite H1.
  - intros h L (H1 & H2). now apply (good_perm _ _ H1) in H2.
  - intros h L n (H1 & H2) Hn. cbn [host p_alloc]. unfold host_allocate.
    destruct (malloc_cases n h ltac:(lia) H2) as [(a & -> & Hg & _)|(e & ->)]; cbn [post].
    + replace (at_least_1 n) with n in * by (unfold at_least_1; destruct (Z.ltb_spec n 1); lia).
      split; [cbn [h_live]; now constructor|]. auto.
    + split; auto.
  - intros h L p n (H1 & H2). cbn [host p_dealloc]. unfold host_deallocate.
    destruct (free_live p n h L H2 H1) as (t & -> & Ht & Hg). cbn [post]. split; auto.
Qed.

Lemma host_only_spec orc : ParentSpec host (M64 - 1) (heap_only orc).
Proof.
  constructor.
  - intros h L L' HP (H1 & H2 & H3). split; [|auto]. now rewrite H1.
  - intros h L (H1 & H2 & H3). now apply (good_perm _ _ H1) in H2.
  - intros h L n (H1 & H2 & H3) Hn. cbn [host p_alloc]. unfold host_allocate.
    destruct (malloc_cases n h ltac:(lia) H2) as [(a & -> & Hg & _)|(e & ->)]; cbn [post].
    + replace (at_least_1 n) with n in * by (unfold at_least_1; destruct (Z.ltb_spec n 1); lia).
      split; [cbn [h_live]; now constructor|]. auto.
    + split; auto.
  - intros h L p n (H1 & H2 & H3). cbn [host p_dealloc]. unfold host_deallocate.
    destruct (free_live p n h L H2 H1) as (t & -> & Ht & Hg). cbn [post]. split; auto.
Qed.

Lemma host_total : forall n h, host_allocate n h <> NoFuel.
Proof.
  intros n h. unfold host_allocate, malloc. destruct (h_oracle h _ _ _); [destruct (legal _ _ _)|]; discriminate.
Qed.
Lemma host_free_total : forall p n h, host_deallocate p n h <> NoFuel /\ host_deallocate p n h <> Abort.
Proof.
  intros p n h. unfold host_deallocate, free. destruct (p =? 0); [split; discriminate|].
  destruct (take_block p (h_live h)) as [[? ?]|]; split; discriminate.
Qed.
