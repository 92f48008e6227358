(** Facts about ConcModel.v: calls that take the same mutex are linearizable. *)
From Verif Require Import Base BaseFacts HeapModel StratModel GlobalModel GlobalSpec MapModel MapSpec SystemModel SystemSpec ConcModel ConcSpec.

Lemma precedes_cons {A : Type} (x y z : A) l : precedes x y (z :: l) <-> (y = z /\ In x l) \/ precedes x y l.
Proof.
  unfold precedes. split.
  - intros (a & b & E & Hi). destruct a as [|w a]; cbn [app] in E; injection E as -> ->; [left; auto|right; exists a, b; auto].
  - intros [[-> Hi]|(a & b & -> & Hi)]; [exists [], l; auto|exists (z :: a), b; auto].
Qed.

(** [runs p0 s1 p s]: [p0], begun in [s1], is now in [s] with [p] left to do. *)
Inductive runs {S R : Type} (p0 : prog S R) (s1 : S) : prog S R -> S -> Prop :=
| rn_begin : runs p0 s1 p0 s1
| rn_step f s s' p : runs p0 s1 (Do f) s -> f s = Some (s', p) -> runs p0 s1 p s'.
Lemma runs_alone {S R : Type} (p0 : prog S R) s1 p s : runs p0 s1 p s -> forall s' r, alone p s s' r -> alone p0 s1 s' r.
Proof. intros H. induction H as [|f s s2 p H IH E]; intros s' r Ha; [exact Ha|]. apply IH. econstructor; eauto. Qed.
Lemma runs_defined {S R : Type} (p0 : prog S R) s1 p s : runs p0 s1 p s -> defined p0 s1 -> defined p s.
Proof.
  intros H. induction H as [|f s s2 p H IH E]; intros Hd; [exact Hd|]. specialize (IH Hd). inversion IH as [|f' s' s3 p3 E' Hd']; subst. rewrite E in E'. now injection E' as -> ->.
Qed.

Section Mutex.
  Context {S C R : Type} (body : C -> prog S R) (mutex : C -> Z) (m : Z) (Hm : forall c, mutex c = m).
  Context (big : C -> S -> S -> R -> Prop) (Hbig : forall c s s' r, alone (body c) s s' r -> big c s s' r) (s0 : S).
  Notation cfg := (config S C R).

  Definition busy (x : place S C R) (k : nat) (c : C) : Prop := x = Want k c \/ exists p, x = Inside k c p.
  Definition pending (x : place S C R) (k : nat) : Prop := (exists c, busy x k c) \/ exists c r, x = Leave k c r.

  Record cinv (g : cfg) (L : list (nat * C * R)) (s : S) : Prop := mkCinv {
    ci_lin : linear big s0 (c_hist g) L s;
    ci_free : c_owner g m = None -> s = c_state g /\ forall t k c p, c_place g t <> Inside k c p;
    ci_owned : forall t, c_owner g m = Some t -> exists k c p, c_place g t = Inside k c p /\ runs (body c) s p (c_state g) /\
                 forall u k' c' p', c_place g u = Inside k' c' p' -> u = t;
    ci_busy : forall t k c, busy (c_place g t) k c -> In (Inv k t c) (c_hist g) /\ ~ In k (map id_of L);
    ci_leave : forall t k c r, c_place g t = Leave k c r -> In (k, c, r) L;
    ci_apart : forall t u k, pending (c_place g t) k -> pending (c_place g u) k -> t = u;
    ci_calls : forall k t c, In (Inv k t c) (c_hist g) -> (k < c_calls g)%nat;
    ci_pend : forall t k, pending (c_place g t) k -> (k < c_calls g)%nat
  }.

  Lemma put_eq f t (x : place S C R) : put f t x t = x.
  Proof. unfold put. now rewrite Z.eqb_refl. Qed.
  Lemma put_neq f t (x : place S C R) u : u <> t -> put f t x u = f u.
  Proof. unfold put. intros H. destruct (u =? t) eqn:E; [lia|reflexivity]. Qed.
  Lemma busy_pending x k c : busy x k c -> pending x k.
  Proof. intros H. left. eauto. Qed.

  Lemma cinv_init : cinv (c_init s0) [] s0.
  Proof.
    constructor; cbn.
    - constructor; cbn; try constructor; try (intros; contradiction). 
    - intros _. split; [reflexivity|]. intros t k c p. discriminate.
    - intros t H. discriminate.
    - intros t k c [H|[p H]]; discriminate.
    - intros t k c r H. discriminate.
    - intros t u k [[c [H|[p H]]]|(c & r & H)]; discriminate.
    - intros k t c [].
    - intros t k [[c [H|[p H]]]|(c & r & H)]; discriminate.
  Qed.

  (** The places change for one thread only, which keeps its call or has none. *)
  Lemma apart_put (f : Z -> place S C R) t x :
    (forall t u k, pending (f t) k -> pending (f u) k -> t = u) -> (forall k u, pending x k -> u <> t -> ~ pending (f u) k) ->
    forall u v k, pending (put f t x u) k -> pending (put f t x v) k -> u = v.
  Proof.
    intros H Hx u v k Hu Hv. destruct (Z.eq_dec u t) as [->|Nu], (Z.eq_dec v t) as [->|Nv]; auto.
    - rewrite put_eq in Hu. rewrite put_neq in Hv by exact Nv. elim (Hx k v Hu Nv Hv).
    - rewrite put_eq in Hv. rewrite put_neq in Hu by exact Nu. elim (Hx k u Hv Nu Hu).
    - rewrite put_neq in Hu by exact Nu. rewrite put_neq in Hv by exact Nv. exact (H u v k Hu Hv).
  Qed.

  Lemma linear_more (H : list (event C R)) L s : linear big s0 H L s -> forall k t c, (forall c' r, ~ In (k, c', r) L) -> linear big s0 (Inv k t c :: H) L s.
  Proof.
    intros [A1 A2 A3 A4 A5] k t c Hf. constructor; auto.
    - intros k1 c1 r1 Hi. destruct (A3 k1 c1 r1 Hi) as (t1 & Ht). exists t1. now right.
    - intros k1 r1 [E|Hi]; [discriminate|]. exact (A4 k1 r1 Hi).
    - intros k1 r1 k2 t2 c2 r2 Hp Hi. apply precedes_cons in Hp as [[E _]|Hp]; [injection E as -> _ ->; elim (Hf c r2 Hi)|]. eapply A5; eauto.
  Qed.
  Lemma linear_return (H : list (event C R)) L s k c r : linear big s0 H L s -> In (k, c, r) L -> linear big s0 (Res k r :: H) L s.
  Proof.
    intros [A1 A2 A3 A4 A5] Hi. constructor; auto.
    - intros k1 c1 r1 Hi1. destruct (A3 k1 c1 r1 Hi1) as (t1 & Ht). exists t1. now right.
    - intros k1 r1 [E|Hi1]; [injection E as <- <-; eauto|]. exact (A4 k1 r1 Hi1).
    - intros k1 r1 k2 t2 c2 r2 Hp Hi2. apply precedes_cons in Hp as [[E _]|Hp]; [discriminate|]. eapply A5; eauto.
  Qed.
  Lemma linear_effect (H : list (event C R)) L s k t c r s' : linear big s0 H L s -> In (Inv k t c) H -> ~ In k (map id_of L) -> big c s s' r ->
    linear big s0 H ((k, c, r) :: L) s'.
  Proof.
    intros [A1 A2 A3 A4 A5] Hi Hk Hb. constructor.
    - econstructor; eauto.
    - cbn [map id_of fst]. constructor; auto.
    - intros k1 c1 r1 [E|Hi1]; [injection E as <- <- _; eauto|]. exact (A3 k1 c1 r1 Hi1).
    - intros k1 r1 Hi1. destruct (A4 k1 r1 Hi1) as (c1 & Hc). exists c1. now right.
    - intros k1 r1 k2 t2 c2 r2 Hp Hi2. destruct Hi2 as [E|Hi2].
      + injection E as <- <- <-. assert (Hr : In (Res k1 r1) H) by (destruct Hp as (a & b & -> & Hb2); apply in_or_app; right; now right).
        destruct (A4 k1 r1 Hr) as (c1 & Hc). exists c1. apply precedes_cons. left. auto.
      + destruct (A5 k1 r1 k2 t2 c2 r2 Hp Hi2) as (c1 & Hc). exists c1. apply precedes_cons. now right.
  Qed.

  Lemma cexec_inv a g g' L s : cinv g L s -> cexec body mutex a g = Some g' -> exists L' s', cinv g' L' s'.
  Proof.
    intros H E. destruct H as [B1 B2 B3 B4 B5 B6 B7 B8]. destruct a as [t c|t|t|t|t]; cbn [cexec] in E.
    - (* invoke *) destruct (c_place g t) as [| | |] eqn:Ep; try discriminate. injection E as <-. exists L, s.
      assert (Hnew : forall c' r, ~ In (c_calls g, c', r) L).
      { intros c' r Hi. destruct (ln_called _ _ _ _ _ B1 _ _ _ Hi) as (t1 & Ht). specialize (B7 _ _ _ Ht). lia. }
      assert (Hid : ~ In (c_calls g) (map id_of L)).
      { intros Hi. apply in_map_iff in Hi as ([[k c'] r] & Ek & Hi). cbn in Ek. subst k. elim (Hnew c' r Hi). }
      constructor; cbn [c_state c_owner c_place c_calls c_hist].
      + now apply linear_more.
      + intros Ho. destruct (B2 Ho) as [C1 C2]. split; [exact C1|]. intros u k c' p. destruct (Z.eq_dec u t) as [->|N]; [rewrite put_eq; discriminate|rewrite put_neq by exact N; apply C2].
      + intros u Ho. destruct (B3 u Ho) as (k & c' & p & C1 & C2 & C3). exists k, c', p. assert (N : u <> t) by congruence. rewrite put_neq by exact N. split; [exact C1|]. split; [exact C2|].
        intros v k' c2 p'. destruct (Z.eq_dec v t) as [->|Nv]; [rewrite put_eq; discriminate|rewrite put_neq by exact Nv; apply C3].
      + intros u k c' Hb. destruct (Z.eq_dec u t) as [->|N].
        * rewrite put_eq in Hb. destruct Hb as [Hb|[p Hb]]; [|discriminate]. injection Hb as <- <-. split; [now left|exact Hid].
        * rewrite put_neq in Hb by exact N. destruct (B4 u k c' Hb). split; [now right|auto].
      + intros u k c' r Hl. destruct (Z.eq_dec u t) as [->|N]; [rewrite put_eq in Hl; discriminate|rewrite put_neq in Hl by exact N; eauto].
      + apply apart_put; [exact B6|]. intros k u [[c' [Hb|[p Hb]]]|(c' & r & Hb)] _ Hu; try discriminate. injection Hb as <- _. specialize (B8 _ _ Hu). lia.
      + intros k u c' [Hi|Hi]; [injection Hi as <- _ _; lia|]. specialize (B7 _ _ _ Hi). lia.
      + intros u k Hu. destruct (Z.eq_dec u t) as [->|N]; [rewrite put_eq in Hu|rewrite put_neq in Hu by exact N; specialize (B8 _ _ Hu); lia].
        destruct Hu as [[c' [Hb|[p Hb]]]|(c' & r & Hb)]; try discriminate. injection Hb as <- _. lia.
    - (* lock *) destruct (c_place g t) as [|k c| |] eqn:Ep; try discriminate. rewrite Hm in E. destruct (c_owner g m) eqn:Eo; [discriminate|]. injection E as <-. exists L, s.
      destruct (B2 eq_refl) as [C1 C2]. assert (Hb0 : busy (c_place g t) k c) by (left; exact Ep).
      constructor; cbn [c_state c_owner c_place c_calls c_hist]; auto.
      + unfold fset. rewrite Z.eqb_refl. discriminate.
      + intros u Ho. unfold fset in Ho. rewrite Z.eqb_refl in Ho. injection Ho as <-. exists k, c, (body c). rewrite put_eq. split; [reflexivity|]. split; [subst s; constructor|].
        intros v k' c' p' Hv. destruct (Z.eq_dec v t) as [->|Nv]; [reflexivity|]. rewrite put_neq in Hv by exact Nv. elim (C2 _ _ _ _ Hv).
      + intros u k' c' Hb. destruct (Z.eq_dec u t) as [->|N]; [|rewrite put_neq in Hb by exact N; now apply B4]. rewrite put_eq in Hb. destruct Hb as [Hb|[p Hb]]; [discriminate|]. injection Hb as <- <- <-. now apply B4.
      + intros u k' c' r Hl. destruct (Z.eq_dec u t) as [->|N]; [rewrite put_eq in Hl; discriminate|rewrite put_neq in Hl by exact N; eauto].
      + apply apart_put; [exact B6|]. intros k' u [[c' [Hb|[p Hb]]]|(c' & r & Hb)] N Hu; try discriminate. injection Hb as <- _ _. apply N, (B6 u t k Hu). now apply (busy_pending _ _ c).
      + intros u k' Hu. destruct (Z.eq_dec u t) as [->|N]; [rewrite put_eq in Hu|rewrite put_neq in Hu by exact N; now apply (B8 u)].
        destruct Hu as [[c' [Hb|[p Hb]]]|(c' & r & Hb)]; try discriminate. injection Hb as <- _ _. apply (B8 t). now apply (busy_pending _ _ c).
    - (* step *) destruct (c_place g t) as [| |k c [r|f]|] eqn:Ep; try discriminate. destruct (f (c_state g)) as [[s1 p1]|] eqn:Ef; [|discriminate]. injection E as <-. exists L, s.
      assert (Hb0 : busy (c_place g t) k c) by (right; eauto).
      assert (Ho : c_owner g m = Some t).
      { destruct (c_owner g m) as [u|]; [|destruct (B2 eq_refl) as [_ C2]; elim (C2 _ _ _ _ Ep)]. destruct (B3 u eq_refl) as (k' & c' & p' & _ & _ & C3). f_equal. symmetry. exact (C3 _ _ _ _ Ep). }
      destruct (B3 t Ho) as (k' & c' & p' & C1 & C2 & C3). rewrite Ep in C1. injection C1 as <- <- <-.
      constructor; cbn [c_state c_owner c_place c_calls c_hist]; auto.
      + intros Hn. congruence.
      + intros u Hu. rewrite Ho in Hu. injection Hu as <-. exists k, c, p1. rewrite put_eq. split; [reflexivity|]. split; [econstructor; eauto|].
        intros v k' c' p' Hv. destruct (Z.eq_dec v t) as [->|Nv]; [reflexivity|]. rewrite put_neq in Hv by exact Nv. exact (C3 _ _ _ _ Hv).
      + intros u k' c' Hb. destruct (Z.eq_dec u t) as [->|N]; [|rewrite put_neq in Hb by exact N; now apply B4]. rewrite put_eq in Hb. destruct Hb as [Hb|[p Hb]]; [discriminate|]. injection Hb as <- <- <-. now apply B4.
      + intros u k' c' r Hl. destruct (Z.eq_dec u t) as [->|N]; [rewrite put_eq in Hl; discriminate|rewrite put_neq in Hl by exact N; eauto].
      + apply apart_put; [exact B6|]. intros k' u [[c' [Hb|[p Hb]]]|(c' & r & Hb)] N Hu; try discriminate. injection Hb as <- _ _. apply N, (B6 u t k Hu). now apply (busy_pending _ _ c).
      + intros u k' Hu. destruct (Z.eq_dec u t) as [->|N]; [rewrite put_eq in Hu|rewrite put_neq in Hu by exact N; now apply (B8 u)].
        destruct Hu as [[c' [Hb|[p Hb]]]|(c' & r & Hb)]; try discriminate. injection Hb as <- _ _. apply (B8 t). now apply (busy_pending _ _ c).
    - (* unlock *) destruct (c_place g t) as [| |k c [r|f]|] eqn:Ep; try discriminate. rewrite Hm in E. injection E as <-. exists ((k, c, r) :: L), (c_state g).
      assert (Hb0 : busy (c_place g t) k c) by (right; eauto). destruct (B4 t k c Hb0) as [D1 D2].
      assert (Ho : c_owner g m = Some t).
      { destruct (c_owner g m) as [u|]; [|destruct (B2 eq_refl) as [_ C2]; elim (C2 _ _ _ _ Ep)]. destruct (B3 u eq_refl) as (k' & c' & p' & _ & _ & C3). f_equal. symmetry. exact (C3 _ _ _ _ Ep). }
      destruct (B3 t Ho) as (k' & c' & p' & C1 & C2 & C3). rewrite Ep in C1. injection C1 as <- <- <-.
      constructor; cbn [c_state c_owner c_place c_calls c_hist].
      + apply (linear_effect _ L s k t); auto. apply Hbig, (runs_alone _ _ _ _ C2). constructor.
      + intros _. split; [reflexivity|]. intros u k' c' p Hu. destruct (Z.eq_dec u t) as [->|N]; [rewrite put_eq in Hu; discriminate|]. rewrite put_neq in Hu by exact N. apply N. exact (C3 _ _ _ _ Hu).
      + intros u Hu. unfold fdel in Hu. rewrite Z.eqb_refl in Hu. discriminate.
      + intros u k' c' Hb. destruct (Z.eq_dec u t) as [->|N]; [rewrite put_eq in Hb; destruct Hb as [Hb|[p Hb]]; discriminate|]. rewrite put_neq in Hb by exact N. destruct (B4 u k' c' Hb) as [F1 F2].
        split; [exact F1|]. cbn [map id_of fst]. intros [Hi|Hi]; [|exact (F2 Hi)]. subst k'. apply N. apply (B6 u t k); [now apply (busy_pending _ _ c')|now apply (busy_pending _ _ c)].
      + intros u k' c' r' Hl. destruct (Z.eq_dec u t) as [->|N]; [rewrite put_eq in Hl; injection Hl as <- <- <-; now left|rewrite put_neq in Hl by exact N; right; eauto].
      + apply apart_put; [exact B6|]. intros k' u [[c' [Hb|[p Hb]]]|(c' & r' & Hb)] N Hu; try discriminate. injection Hb as <- _ _. apply N, (B6 u t k Hu). now apply (busy_pending _ _ c).
      + exact B7.
      + intros u k' Hu. destruct (Z.eq_dec u t) as [->|N]; [rewrite put_eq in Hu|rewrite put_neq in Hu by exact N; now apply (B8 u)].
        destruct Hu as [[c' [Hb|[p Hb]]]|(c' & r' & Hb)]; try discriminate. injection Hb as <- _ _. apply (B8 t). now apply (busy_pending _ _ c).
    - (* return *) destruct (c_place g t) as [| | |k c r] eqn:Ep; try discriminate. injection E as <-. exists L, s.
      constructor; cbn [c_state c_owner c_place c_calls c_hist].
      + apply (linear_return _ L s k c); eauto.
      + intros Ho. destruct (B2 Ho) as [C1 C2]. split; [exact C1|]. intros u k' c' p. destruct (Z.eq_dec u t) as [->|N]; [rewrite put_eq; discriminate|rewrite put_neq by exact N; apply C2].
      + intros u Ho. destruct (B3 u Ho) as (k' & c' & p & C1 & C2 & C3). exists k', c', p. assert (N : u <> t) by congruence. rewrite put_neq by exact N. split; [exact C1|]. split; [exact C2|].
        intros v k2 c2 p'. destruct (Z.eq_dec v t) as [->|Nv]; [rewrite put_eq; discriminate|rewrite put_neq by exact Nv; apply C3].
      + intros u k' c' Hb. destruct (Z.eq_dec u t) as [->|N]; [rewrite put_eq in Hb; destruct Hb as [Hb|[p Hb]]; discriminate|]. rewrite put_neq in Hb by exact N. destruct (B4 u k' c' Hb). split; [now right|auto].
      + intros u k' c' r' Hl. destruct (Z.eq_dec u t) as [->|N]; [rewrite put_eq in Hl; discriminate|rewrite put_neq in Hl by exact N; eauto].
      + apply apart_put; [exact B6|]. intros k' u [[c' [Hb|[p Hb]]]|(c' & r' & Hb)] _ _; discriminate.
      + intros k' u c' [Hi|Hi]; [discriminate|]. exact (B7 _ _ _ Hi).
      + intros u k' Hu. destruct (Z.eq_dec u t) as [->|N]; [rewrite put_eq in Hu|rewrite put_neq in Hu by exact N; now apply (B8 u)].
        destruct Hu as [[c' [Hb|[p Hb]]]|(c' & r' & Hb)]; discriminate.
  Qed.

  Lemma crun_inv l : forall g g' L s, cinv g L s -> crun body mutex l g = Some g' -> exists L' s', cinv g' L' s'.
  Proof.
    induction l as [|a l IH]; intros g g' L s H E; cbn [crun] in E; [injection E as <-; eauto|]. destruct (cexec body mutex a g) as [g1|] eqn:E1; [|discriminate].
    destruct (cexec_inv a g g1 L s H E1) as (L1 & s1 & H1). exact (IH g1 g' L1 s1 H1 E).
  Qed.

  Lemma conc_linear l g : crun body mutex l (c_init s0) = Some g ->
    exists L s, linear big s0 (c_hist g) L s /\ (c_owner g m = None -> s = c_state g).
  Proof.
    intros E. destruct (crun_inv l _ _ _ _ cinv_init E) as (L & s & H). exists L, s. split; [apply H|]. intros Ho. exact (proj1 (ci_free _ _ _ H Ho)).
  Qed.
  (** Never two threads inside. *)
  Lemma conc_exclusive l g t u k c p k' c' p' : crun body mutex l (c_init s0) = Some g ->
    c_place g t = Inside k c p -> c_place g u = Inside k' c' p' -> t = u.
  Proof.
    intros E Ht Hu. destruct (crun_inv l _ _ _ _ cinv_init E) as (L & s & H). destruct (c_owner g m) as [o|] eqn:Eo; [|destruct (ci_free _ _ _ H Eo) as [_ C0]; elim (C0 _ _ _ _ Ht)].
    destruct (ci_owned _ _ _ H o Eo) as (k1 & c1 & p1 & _ & _ & C1). rewrite (C1 _ _ _ _ Ht). symmetry. exact (C1 _ _ _ _ Hu).
  Qed.
  Lemma conc_inside l g t k c p : crun body mutex l (c_init s0) = Some g -> c_place g t = Inside k c p ->
    exists L s, linear big s0 (c_hist g) L s /\ In (Inv k t c) (c_hist g) /\ runs (body c) s p (c_state g).
  Proof.
    intros E Ht. destruct (crun_inv l _ _ _ _ cinv_init E) as (L & s & H). exists L, s. split; [apply H|].
    destruct (c_owner g m) as [o|] eqn:Eo; [|destruct (ci_free _ _ _ H Eo) as [_ C0]; elim (C0 _ _ _ _ Ht)].
    destruct (ci_owned _ _ _ H o Eo) as (k1 & c1 & p1 & C1 & C2 & C3). specialize (C3 _ _ _ _ Ht). subst o. rewrite Ht in C1. injection C1 as <- <- <-.
    split; [|exact C2]. apply (ci_busy _ _ _ H). right. eauto.
  Qed.
  (** No deadlock: if some call is pending then some thread can move, or one is inside. *)
  Lemma conc_progress l g t : crun body mutex l (c_init s0) = Some g -> c_place g t <> Idle ->
    (exists a g', cexec body mutex a g = Some g' /\ forall u c, a <> AInvoke u c) \/ exists u k c p, c_place g u = Inside k c p.
  Proof.
    intros E Ht. destruct (crun_inv l _ _ _ _ cinv_init E) as (L & s & H).
    destruct (c_place g t) as [|k c|k c p|k c r] eqn:Ep; [congruence| |eauto 6|].
    - destruct (c_owner g m) as [o|] eqn:Eo; [destruct (ci_owned _ _ _ H o Eo) as (k1 & c1 & p1 & C1 & _); eauto 6|].
      left. exists (ALock t). cbn [cexec]. rewrite Ep, Hm, Eo. eexists. split; [reflexivity|discriminate].
    - left. exists (AReturn t). cbn [cexec]. rewrite Ep. eexists. split; [reflexivity|discriminate].
  Qed.
End Mutex.

(** Calls on one allocator take one mutex. *)
Section Same.
  Context {S C R : Type} (body : C -> prog S R) (mutex : C -> Z) (m : Z).

  Lemma cexec_same (a : act C) (g : config S C R) : (forall t c, a = AInvoke t c -> mutex c = m) ->
    (forall t k c, busy (c_place g t) k c -> mutex c = m) ->
    cexec body mutex a g = cexec body (fun _ => m) a g /\
    forall g', cexec body mutex a g = Some g' -> forall t k c, busy (c_place g' t) k c -> mutex c = m.
  Proof.
    intros Ha Hg. assert (Hput : forall t x, (forall k c, busy x k c -> mutex c = m) -> forall u k c, busy (put (c_place g) t x u) k c -> mutex c = m).
    { intros t x Hx u k c Hb. unfold put in Hb. destruct (u =? t); eauto. }
    destruct a as [t c|t|t|t|t]; cbn [cexec].
    - split; [reflexivity|]. intros g' E. destruct (c_place g t); try discriminate. injection E as <-. cbn [c_place]. apply Hput. intros k c' [Hb|[p Hb]]; [|discriminate]. injection Hb as _ <-. eauto.
    - destruct (c_place g t) as [|k c| |] eqn:Ep; try (split; [reflexivity|discriminate]). rewrite (Hg t k c) by (left; exact Ep). split; [reflexivity|].
      intros g' E. destruct (c_owner g m); [discriminate|]. injection E as <-. cbn [c_place]. apply Hput. intros k' c' [Hb|[p Hb]]; [discriminate|]. injection Hb as _ <- _. apply (Hg t k). left. exact Ep.
    - split; [reflexivity|]. intros g' E. destruct (c_place g t) as [| |k c [r|f]|] eqn:Ep; try discriminate. destruct (f (c_state g)) as [[s p]|]; [|discriminate]. injection E as <-. cbn [c_place].
      apply Hput. intros k' c' [Hb|[p' Hb]]; [discriminate|]. injection Hb as _ <- _. apply (Hg t k). right. eauto.
    - destruct (c_place g t) as [| |k c [r|f]|] eqn:Ep; try (split; [reflexivity|discriminate]). rewrite (Hg t k c) by (right; eauto). split; [reflexivity|].
      intros g' E. injection E as <-. cbn [c_place]. apply Hput. intros k' c' [Hb|[p' Hb]]; discriminate.
    - split; [reflexivity|]. intros g' E. destruct (c_place g t); try discriminate. injection E as <-. cbn [c_place]. apply Hput. intros k' c' [Hb|[p' Hb]]; discriminate.
  Qed.
  Lemma crun_same (l : list (act C)) : forall g : config S C R, (forall t c, In (AInvoke t c) l -> mutex c = m) ->
    (forall t k c, busy (c_place g t) k c -> mutex c = m) -> crun body mutex l g = crun body (fun _ => m) l g /\
    forall g', crun body mutex l g = Some g' -> forall t k c, busy (c_place g' t) k c -> mutex c = m.
  Proof.
    induction l as [|a l IH]; intros g Hl Hg; cbn [crun].
    - split; [reflexivity|]. intros g' E. injection E as <-. exact Hg.
    - destruct (cexec_same a g) as [E1 E2]; [intros t c ->; apply (Hl t c); now left|exact Hg|]. rewrite <- E1. destruct (cexec body mutex a g) as [g1|]; [|split; [reflexivity|discriminate]].
      apply IH; [intros t c Hi; apply (Hl t c); now right|]. exact (E2 g1 eq_refl).
  Qed.
  Lemma init_same (s : S) : forall t k c, busy (c_place (c_init (C := C) (R := R) s) t) k c -> mutex c = m.
  Proof. intros t k c [H|[p H]]; discriminate. Qed.
  (** Only what was invoked is in the history. *)
  Lemma crun_invoked (l : list (act C)) : forall (g g' : config S C R), crun body mutex l g = Some g' -> forall k t c, In (Inv k t c) (c_hist g') -> In (Inv k t c) (c_hist g) \/ In (AInvoke t c) l.
  Proof.
    induction l as [|a l IH]; intros g g' E k t c Hi; cbn [crun] in E; [injection E as <-; now left|]. destruct (cexec body mutex a g) as [g1|] eqn:E1; [|discriminate].
    destruct (IH g1 g' E k t c Hi) as [H|H]; [|right; now right]. destruct a as [u c'|u|u|u|u]; cbn [cexec] in E1; destruct (c_place g u) as [|k1 c1|k1 c1 [r1|f1]|k1 c1 r1]; try discriminate.
    - injection E1 as <-. destruct H as [H|H]; [|now left]. injection H as _ -> ->. right. now left.
    - destruct (c_owner g (mutex c1)); [discriminate|]. injection E1 as <-. now left.
    - destruct (f1 (c_state g)) as [[s p]|]; [|discriminate]. injection E1 as <-. now left.
    - injection E1 as <-. now left.
    - injection E1 as <-. destruct H as [H|H]; [discriminate|now left].
  Qed.
End Same.
