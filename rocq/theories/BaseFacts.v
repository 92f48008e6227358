(** Lemmas about the vocabulary of [Base.v]. *)
From Verif Require Import Base.

Ltac inv H := inversion H; subst; clear H.

Lemma M64_pos : 0 < M64. Proof. unfold M64; lia. Qed.
Lemma M32_pos : 0 < M32. Proof. unfold M32; lia. Qed.

Lemma w64_small x : 0 <= x < M64 -> w64 x = x.
Proof. intros H. unfold w64. apply Z.mod_small; lia. Qed.

Lemma w64_range x : 0 <= w64 x < M64.
Proof. unfold w64. apply Z.mod_pos_bound, M64_pos. Qed.

Lemma w32_small x : 0 <= x < M32 -> w32 x = x.
Proof. intros H. unfold w32. apply Z.mod_small; lia. Qed.

Lemma w32_range x : 0 <= w32 x < M32.
Proof. unfold w32. apply Z.mod_pos_bound, M32_pos. Qed.

Lemma disj_sym a b : disj a b -> disj b a.
Proof. unfold disj; lia. Qed.

Lemma disj_inside a b c : inside a b -> disj b c -> disj a c.
Proof. unfold inside, disj; lia. Qed.

Lemma inside_refl a : inside a a.
Proof. unfold inside; lia. Qed.

Lemma inside_trans a b c : inside a b -> inside b c -> inside a c.
Proof. unfold inside; lia. Qed.

Section Pairwise.
  Context {A : Type} (R : A -> A -> Prop).
  Hypothesis Rsym : forall x y, R x y -> R y x.

  Lemma pairwise_app l1 l2 :
    pairwise R (l1 ++ l2) <->
    pairwise R l1 /\ pairwise R l2 /\ (forall x y, In x l1 -> In y l2 -> R x y).
  Proof.
    clear Rsym.
    induction l1 as [|a l1 IH]; simpl.
    - intuition.
    - rewrite IH. split.
      + intros [H1 (H2 & H3 & H4)]. repeat split; auto.
        * intros y Hy. apply H1, in_or_app; auto.
        * intros x y [->|Hx] Hy; [apply H1, in_or_app; auto | auto].
      + intros ([H1 H2] & H3 & H4). repeat split; auto.
        intros y Hy. apply in_app_or in Hy as [Hy|Hy]; auto.
  Qed.

  Lemma pairwise_perm l l' : Permutation l l' -> pairwise R l -> pairwise R l'.
  Proof.
    induction 1 as [|x l l' HP IH|x y l|l l' l'' H1 IH1 H2 IH2]; simpl; auto.
    - intros [Ha Hb]. split; auto. intros z Hz. apply Ha.
      eapply Permutation_in; [apply Permutation_sym; exact HP|exact Hz].
    - intros [Ha [Hb Hc]]. repeat split; auto.
      intros z [<-|Hz]; auto.
  Qed.

  Lemma pairwise_in l x y :
    pairwise R l -> In x l -> In y l -> x = y \/ R x y.
  Proof.
    induction l as [|a l IH]; simpl; [tauto|].
    intros [Ha Hl] [<-|Hx] [<-|Hy]; auto.
  Qed.

  Lemma pairwise_cons x l :
    pairwise R (x :: l) <-> (forall y, In y l -> R x y) /\ pairwise R l.
  Proof. clear Rsym. simpl. tauto. Qed.
End Pairwise.

Lemma pairwise_impl {A} (R R' : A -> A -> Prop) l :
  (forall x y, In x l -> In y l -> R x y -> R' x y) ->
  pairwise R l -> pairwise R' l.
Proof.
  induction l as [|a l IH]; simpl; auto.
  intros H [Ha Hl]. split; auto.
Qed.

Lemma pairwise_map {A B} (f : A -> B) (R : B -> B -> Prop) l :
  pairwise R (map f l) <-> pairwise (fun x y => R (f x) (f y)) l.
Proof.
  induction l as [|a l IH]; simpl; [tauto|].
  rewrite IH. split; intros [H1 H2]; split; auto.
  - intros y Hy. apply H1, in_map, Hy.
  - intros y Hy. apply in_map_iff in Hy as (z & <- & Hz). auto.
Qed.

Lemma pairwise_NoDup {A} (R : A -> A -> Prop) l :
  (forall x, In x l -> ~ R x x) -> pairwise R l -> NoDup l.
Proof.
  induction l as [|a l IH]; simpl; [constructor|].
  intros Hirr [Ha Hl]. constructor.
  - intros Hin. apply (Hirr a); auto.
  - apply IH; auto.
Qed.

Lemma good_perm L L' : Permutation L L' -> good L -> good L'.
Proof.
  intros HP [H1 H2]. split.
  - intros r Hr. apply H1. eapply Permutation_in; [apply Permutation_sym; exact HP|exact Hr].
  - eapply pairwise_perm; eauto using disj_sym.
Qed.

Lemma good_nil : good [].
Proof. split; simpl; tauto. Qed.

Lemma good_cons r L :
  good (r :: L) <-> wf_region r /\ (forall y, In y L -> disj r y) /\ good L.
Proof.
  unfold good; simpl. split.
  - intros [H1 [H2 H3]]. split; [apply H1; auto|]. split; [exact H2|]. split; auto.
  - intros (H1 & H2 & H3 & H4). split; [|tauto]. intros x [<-|Hx]; auto.
Qed.

Lemma good_app L1 L2 :
  good (L1 ++ L2) <->
  good L1 /\ good L2 /\ (forall x y, In x L1 -> In y L2 -> disj x y).
Proof.
  unfold good. rewrite pairwise_app. split.
  - intros (H1 & H2 & H3 & H4). split; [split; [|exact H2]|split; [split; [|exact H3]|exact H4]].
    + intros r Hr. apply H1, in_or_app; auto.
    + intros r Hr. apply H1, in_or_app; auto.
  - intros ((H1 & H2) & (H3 & H4) & H5). split; [|tauto].
    intros r Hr. apply in_app_or in Hr as [Hr|Hr]; auto.
Qed.

Lemma wf_not_self_disj r : wf_region r -> ~ disj r r.
Proof. unfold wf_region, disj; lia. Qed.

Lemma good_NoDup L : good L -> NoDup L.
Proof.
  intros [H1 H2]. apply (pairwise_NoDup disj); auto.
  intros x Hx. apply wf_not_self_disj, H1, Hx.
Qed.

(** Distinct live regions have distinct base addresses. *)
Lemma good_fst_inj L p n m : good L -> In (p, n) L -> In (p, m) L -> n = m.
Proof.
  intros [H1 H2] Ha Hb.
  destruct (pairwise_in disj disj_sym L _ _ H2 Ha Hb) as [E|D]; [congruence|].
  exfalso. pose proof (H1 _ Ha) as Wa. pose proof (H1 _ Hb) as Wb.
  unfold disj, wf_region in *; simpl in *; lia.
Qed.

Lemma good_NoDup_fst L : good L -> NoDup (map fst L).
Proof.
  induction L as [|[p n] L IH]; simpl; [constructor|].
  intros HG. pose proof HG as HG'. apply good_cons in HG' as (W & D & G).
  constructor; auto. intros Hin. apply in_map_iff in Hin as ([p' m] & E & Hin). simpl in E; subst p'.
  specialize (D _ Hin). pose proof (proj1 G _ Hin) as W'.
  unfold disj, wf_region in *; simpl in *; lia.
Qed.

(** Finite maps *)
Lemma fset_eq {A} (m : fmap A) k v : fset m k v k = Some v.
Proof. unfold fset. now rewrite Z.eqb_refl. Qed.
Lemma fset_ne {A} (m : fmap A) k v x : x <> k -> fset m k v x = m x.
Proof. unfold fset. intros H. destruct (Z.eqb_spec x k); congruence. Qed.
Lemma fdel_eq {A} (m : fmap A) k : fdel m k k = None.
Proof. unfold fdel. now rewrite Z.eqb_refl. Qed.
Lemma fdel_ne {A} (m : fmap A) k x : x <> k -> fdel m k x = m x.
Proof. unfold fdel. intros H. destruct (Z.eqb_spec x k); congruence. Qed.

Lemma post_impl {W A} (o : outcome W A) (ok ok' : W -> A -> Prop) (thr thr' : W -> exn -> Prop) :
  (forall w a, ok w a -> ok' w a) -> (forall w e, thr w e -> thr' w e) ->
  post o ok thr -> post o ok' thr'.
Proof. intros H1 H2. destruct o; simpl; auto. Qed.

Lemma post_bind {W A B} (o : outcome W A) (f : W -> A -> outcome W B) (ok : W -> B -> Prop) (thr : W -> exn -> Prop) :
  post o (fun w a => post (f w a) ok thr) thr -> post (bind o f) ok thr.
Proof. destruct o; simpl; auto. Qed.

(** ** Sums *)
Fixpoint sumZ (l : list Z) : Z :=
  match l with [] => 0 | x :: t => x + sumZ t end.

Lemma sumZ_app l1 l2 : sumZ (l1 ++ l2) = sumZ l1 + sumZ l2.
Proof. induction l1; simpl; lia. Qed.

Lemma sumZ_perm l l' : Permutation l l' -> sumZ l = sumZ l'.
Proof. induction 1; simpl; lia. Qed.

Lemma sumZ_nonneg l : (forall x, In x l -> 0 <= x) -> 0 <= sumZ l.
Proof.
  induction l as [|a l IH]; simpl; intros H; [lia|].
  pose proof (H a (or_introl eq_refl)). pose proof (IH (fun x Hx => H x (or_intror Hx))). lia.
Qed.

Lemma sumZ_filter_split {A} (f : A -> bool) (g : A -> Z) l :
  sumZ (map g l) = sumZ (map g (filter f l)) + sumZ (map g (filter (fun r => negb (f r)) l)).
Proof.
  induction l as [|a l IH]; simpl; [lia|].
  destruct (f a) eqn:E; simpl; lia.
Qed.

(** Disjoint regions inside an interval have total length at most that of the
    interval. *)
Lemma sum_within : forall (len : nat) L lo hi,
  (length L <= len)%nat -> lo <= hi ->
  (forall r, In r L -> 0 < snd r /\ lo <= fst r /\ fst r + snd r <= hi) ->
  pairwise disj L -> sumZ (map snd L) <= hi - lo.
Proof.
  induction len as [|len IH]; intros L lo hi Hlen Hlh HL HP.
  - destruct L; simpl in *; lia.
  - destruct L as [|[p n] L]; [simpl; lia|].
    simpl in HP. destruct HP as [Hd HP].
    destruct (HL (p, n) (or_introl eq_refl)) as (Hn & Hlo & Hhi). simpl in Hn, Hlo, Hhi.
    set (f := fun r : region => fst r <? p).
    assert (Hsum : sumZ (map snd L) =
            sumZ (map snd (filter f L)) + sumZ (map snd (filter (fun r => negb (f r)) L))).
    { apply sumZ_filter_split. }
    assert (Hflen : forall g : region -> bool, (length (filter g L) <= length L)%nat).
    { intros g. clear. induction L as [|a L IH]; simpl; [lia|]. destruct (g a); simpl; lia. }
    assert (HPf : forall g : region -> bool, pairwise disj (filter g L)).
    { intros g. clear - HP. induction L as [|a L IH]; simpl in *; auto.
      destruct HP as [Ha HP]. destruct (g a); simpl; auto. split; auto.
      intros y Hy. apply filter_In in Hy as [Hy _]. auto. }
    assert (H1 : sumZ (map snd (filter f L)) <= p - lo).
    { apply IH; auto.
      - simpl in Hlen. specialize (Hflen f). unfold region in *. lia.
      - intros r Hr. apply filter_In in Hr as [Hr Hf].
        destruct (HL r (or_intror Hr)) as (Ha & Hb & Hc). specialize (Hd r Hr).
        unfold disj, f in *; simpl in *. lia. }
    assert (H2 : sumZ (map snd (filter (fun r => negb (f r)) L)) <= hi - (p + n)).
    { apply IH; auto.
      - simpl in Hlen. specialize (Hflen (fun r => negb (f r))). unfold region in *. lia.
      - intros r Hr. apply filter_In in Hr as [Hr Hf].
        destruct (HL r (or_intror Hr)) as (Ha & Hb & Hc). specialize (Hd r Hr).
        unfold disj, f in *; simpl in *. lia. }
    simpl. lia.
Qed.

Lemma good_sum L : good L -> sumZ (map snd L) < ASP.
Proof.
  intros [H1 H2].
  assert (sumZ (map snd L) <= ASP - 1); [|lia].
  apply (sum_within (length L)); auto.
  - unfold ASP; lia.
  - intros r Hr. destruct (H1 r Hr) as (Ha & Hb & Hc). lia.
Qed.

(** ** Permutation helpers *)
Lemma Permutation_filter {A} (f : A -> bool) l l' :
  Permutation l l' -> Permutation (filter f l) (filter f l').
Proof.
  induction 1; simpl; auto.
  - destruct (f x); auto.
  - destruct (f x), (f y); auto. constructor.
  - etransitivity; eauto.
Qed.

Lemma Permutation_flat_map {A B} (f : A -> list B) l l' :
  Permutation l l' -> Permutation (flat_map f l) (flat_map f l').
Proof.
  induction 1; simpl; auto.
  - apply Permutation_app_head; auto.
  - rewrite !app_assoc. apply Permutation_app_tail, Permutation_app_comm.
  - etransitivity; eauto.
Qed.

Lemma in_perm_head {A} (x : A) l :
  In x l -> exists l', Permutation l (x :: l').
Proof.
  intros H. apply in_split in H as (l1 & l2 & ->).
  exists (l1 ++ l2). apply Permutation_sym, Permutation_middle.
Qed.

Lemma NoDup_perm {A} (l l' : list A) : Permutation l l' -> NoDup l -> NoDup l'.
Proof. apply Permutation_NoDup. Qed.
