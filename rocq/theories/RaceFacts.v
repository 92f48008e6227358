(** Every access of a call is one of its summary, with exactly those mutexes held; so a race needs two calls without a
    mutex in common. *)
From Verif Require Import Base StratModel GlobalModel SystemModel RaceModel IsoSpec IsoFacts RaceSpec.

Lemma mtx_eqb_spec x y : reflect (x = y) (mtx_eqb x y).
Proof.
  destruct x, y; cbn; try (constructor; congruence).
  destruct (Nat.eqb_spec i i0); constructor; congruence.
Qed.

(** ** Traces made of accesses and critical sections *)

(** The order in which mutexes are nested. *)
Definition rank (m : mtx) : nat := match m with MMap => 1 | _ => 0 end.
Definition inner (H : list mtx) (m : mtx) : Prop := forall m', In m' H -> (rank m' < rank m)%nat.
Lemma inner_not H m : inner H m -> ~ In m H.
Proof. intros I K. apply I in K. lia. Qed.

Section Cov.
  Context (F : bool -> loc -> list mtx -> Prop).

  Inductive cov : list mtx -> list step -> Prop :=
  | cov_nil H : cov H []
  | cov_acc H w l tr : F w l H -> cov H tr -> cov H (SAcc w l :: tr)
  | cov_sec H m tr1 tr2 : inner H m -> cov (m :: H) tr1 -> cov H tr2 -> cov H (SLock m :: tr1 ++ SUnlock m :: tr2).

  Lemma cov_app H a b : cov H a -> cov H b -> cov H (a ++ b).
  Proof.
    induction 1; cbn [app]; intros Hb; auto.
    - constructor; auto.
    - rewrite <- app_assoc. cbn [app]. constructor; auto.
  Qed.

  Lemma cov_section H m b : inner H m -> cov (m :: H) b -> cov H (SLock m :: b ++ [SUnlock m]).
  Proof. intros Hm Hb. apply cov_sec; auto. constructor. Qed.
End Cov.

Lemma cov_mono (F G : bool -> loc -> list mtx -> Prop) H tr : (forall w l K, F w l K -> G w l K) -> cov F H tr -> cov G H tr.
Proof. intros HFG. induction 1; constructor; auto. Qed.

(** The mutexes held after some steps. *)
Definition after1 (s : mtx -> bool) (x : step) : mtx -> bool :=
  match x with
  | SLock m => fun m' => if mtx_eqb m' m then true else s m'
  | SUnlock m => fun m' => if mtx_eqb m' m then false else s m'
  | SAcc _ _ => s
  end.
Definition held (s : mtx -> bool) (d : list step) : mtx -> bool := fold_left after1 d s.
Definition exactly (s : mtx -> bool) (H : list mtx) : Prop := forall m, s m = true <-> In m H.

Lemma held_app s a b : held s (a ++ b) = held (held s a) b.
Proof. unfold held. now rewrite fold_left_app. Qed.

Lemma exactly_lock s H m : exactly s H -> exactly (after1 s (SLock m)) (m :: H).
Proof.
  intros E m'. cbn [after1 In]. destruct (mtx_eqb_spec m' m) as [->|N]; [tauto|]. rewrite (E m'). intuition congruence.
Qed.
Lemma exactly_unlock s H m : ~ In m H -> exactly s (m :: H) -> exactly (after1 s (SUnlock m)) H.
Proof.
  intros N E m'. cbn [after1]. destruct (mtx_eqb_spec m' m) as [->|Nm]; [intuition congruence|]. rewrite (E m'). cbn [In]. intuition congruence.
Qed.

Lemma cov_end F H tr : cov F H tr -> forall s, exactly s H -> exactly (held s tr) H.
Proof.
  induction 1 as [H|H w l tr Hf Hc IH|H m tr1 tr2 Hm H1 IH1 H2 IH2]; intros s E.
  - exact E.
  - cbn [held fold_left]. apply (IH s E).
  - change (SLock m :: tr1 ++ SUnlock m :: tr2) with ([SLock m] ++ tr1 ++ [SUnlock m] ++ tr2).
    rewrite !held_app. apply IH2. cbn [held fold_left]. apply exactly_unlock; [exact (inner_not _ _ Hm)|]. apply IH1. now apply exactly_lock.
Qed.

Lemma app_cases {A} (d r x y : list A) (z : A) : d ++ z :: r = x ++ y ->
  (exists k, x = d ++ z :: k) \/ (exists d', d = x ++ d' /\ y = d' ++ z :: r).
Proof.
  revert d. induction x as [|a x IH]; intros d E; cbn [app] in E.
  - right. exists d. auto.
  - destruct d as [|b d]; cbn [app] in E; injection E as -> E.
    + left. exists x. reflexivity.
    + destruct (IH d E) as [[k ->]|(d' & -> & ->)]; [left; exists k; reflexivity|right; exists d'; auto].
Qed.

Lemma cov_at F H tr : cov F H tr -> forall s, exactly s H -> forall d w l r, tr = d ++ SAcc w l :: r ->
  exists K, F w l K /\ exactly (held s d) K.
Proof.
  induction 1 as [H|H w0 l0 tr Hf Hc IH|H m tr1 tr2 Hm H1 IH1 H2 IH2]; intros s E d w l r Et.
  - now destruct d.
  - destruct d as [|x d]; cbn [app] in Et; injection Et as <- Et.
    + subst. exists H. auto.
    + cbn [held fold_left after1]. apply (IH s E d w l r Et).
  - destruct d as [|x d]; cbn [app] in Et; [discriminate|]. injection Et as <- Et.
    change (held s (SLock m :: d)) with (held (after1 s (SLock m)) d).
    symmetry in Et. destruct (app_cases _ _ _ _ _ Et) as [[k Ek]|(d' & -> & Ek)].
    + apply (IH1 _ (exactly_lock _ _ m E) d w l k Ek).
    + destruct d' as [|y d']; cbn [app] in Ek; [discriminate|]. injection Ek as <- Ek.
      rewrite held_app. change (held (held (after1 s (SLock m)) tr1) (SUnlock m :: d')) with (held (after1 (held (after1 s (SLock m)) tr1) (SUnlock m)) d').
      apply (IH2 _ (exactly_unlock _ _ _ (inner_not _ _ Hm) (cov_end _ _ _ H1 _ (exactly_lock _ _ m E))) d' w l r Ek).
Qed.

(** A mutex is locked in the order of the ranks, and unlocked by the one who has it. *)
Definition legal (s : mtx -> bool) (x : step) : Prop :=
  match x with SLock m => forall m', s m' = true -> (rank m' < rank m)%nat | SUnlock m => s m = true | SAcc _ _ => True end.

Lemma cov_legal F H tr : cov F H tr -> forall s, exactly s H -> forall d x r, tr = d ++ x :: r -> legal (held s d) x.
Proof.
  induction 1 as [H|H w0 l0 tr Hf Hc IH|H m tr1 tr2 Hm H1 IH1 H2 IH2]; intros s E d x r Et.
  - now destruct d.
  - destruct d as [|y d]; cbn [app] in Et; injection Et as <- Et; [exact I|].
    cbn [held fold_left after1]. apply (IH s E d x r Et).
  - destruct d as [|y d]; cbn [app] in Et.
    + injection Et as <- _. cbn [legal held fold_left]. intros m' K. apply Hm. now apply E.
    + injection Et as <- Et. change (held s (SLock m :: d)) with (held (after1 s (SLock m)) d).
      symmetry in Et. destruct (app_cases _ _ _ _ _ Et) as [[k Ek]|(d' & -> & Ek)].
      * apply (IH1 _ (exactly_lock _ _ m E) d x k Ek).
      * pose proof (cov_end _ _ _ H1 _ (exactly_lock _ _ m E)) as E1.
        destruct d' as [|y d']; cbn [app] in Ek.
        -- injection Ek as <- _. rewrite app_nil_r. cbn [legal]. apply E1. now left.
        -- injection Ek as <- Ek. rewrite held_app.
           change (held (held (after1 s (SLock m)) tr1) (SUnlock m :: d')) with (held (after1 (held (after1 s (SLock m)) tr1) (SUnlock m)) d').
           apply (IH2 _ (exactly_unlock _ _ _ (inner_not _ _ Hm) E1) d' x r Ek).
Qed.

(** ** The calls *)
Lemma chain_node C : forall i c, grown C -> node_at C i = Some c -> chain C i = i :: chain C (nc_parent c).
Proof.
  induction C as [|x C IH]; intros i c G E; cbn [node_at chain] in *; [discriminate|].
  assert (L : forall D k y, node_at D k = Some y -> (1 <= k <= length D)%nat).
  { clear. induction D as [|d D IH]; intros k y E; cbn [node_at length] in *; [discriminate|].
    destruct (Nat.eqb_spec k (S (length D))); [lia|]. apply IH in E. lia. }
  assert (G' : grown C).
  { intros k y Ek. apply (G k y). cbn [node_at]. destruct (Nat.eqb_spec k (S (length C))) as [->|]; [|exact Ek]. apply L in Ek. lia. }
  destruct (Nat.eqb_spec i (S (length C))) as [Ei|Ni].
  - injection E as ->. assert (P : (nc_parent c < i)%nat) by (apply (G i c); cbn [node_at]; rewrite Ei, Nat.eqb_refl; reflexivity).
    destruct (Nat.eqb_spec (nc_parent c) (S (length C))); [lia|reflexivity].
  - assert (P : (nc_parent c < i)%nat) by (apply (G' i c E)). pose proof (L _ _ _ E) as B.
    destruct (Nat.eqb_spec (nc_parent c) (S (length C))); [lia|]. apply IH; auto.
Qed.

Lemma node_pos C i c : node_at C i = Some c -> i <> 0%nat.
Proof.
  induction C as [|x C IH]; cbn [node_at]; [discriminate|]. destruct (Nat.eqb_spec i (S (length C))); [lia|exact IH].
Qed.

Lemma node_le D : forall k y, node_at D k = Some y -> (k <= length D)%nat.
Proof.
  induction D as [|d D IH]; intros k y E; cbn [node_at length] in *; [discriminate|].
  destruct (Nat.eqb_spec k (S (length D))); [lia|]. apply IH in E. lia.
Qed.
Lemma node_some D : forall k, (1 <= k <= length D)%nat -> node_at D k <> None.
Proof.
  induction D as [|d D IH]; intros k B; cbn [node_at length] in *; [lia|].
  destruct (Nat.eqb_spec k (S (length D))); [discriminate|]. apply IH. lia.
Qed.

Lemma parent_in C i c : grown C -> node_at C i = Some c -> nc_parent c <> 0%nat -> In (nc_parent c) (chain C i).
Proof.
  intros G E Ep. rewrite (chain_node C i c G E). right. destruct (node_at C (nc_parent c)) as [d|] eqn:Ed.
  - rewrite (chain_node C _ d G Ed). now left.
  - exfalso. pose proof (G i c E). apply node_le in E. apply (node_some C (nc_parent c)); [lia|exact Ed].
Qed.

Section Calls.
  Context (C : list nodecfg) (ts : nat -> bool) (G : grown C).

  Lemma cov_accesses (F : bool -> loc -> list mtx -> Prop) H r ls tr : accesses r ls tr -> (forall w l, In l ls -> (r = true -> w = false) -> F w l H) -> cov F H tr.
  Proof.
    induction 1 as [|s tr (w & l & -> & Hl & Hr) _ IH]; intros K; [constructor|]. constructor; auto.
  Qed.

  Lemma cov_change (F : bool -> loc -> list mtx -> Prop) H l tr : (forall w, F w l H) -> cov F H tr -> cov F H (change l ++ tr).
  Proof. intros K Ht. unfold change. cbn [app]. repeat constructor; auto. Qed.

  Lemma cov_count_up (F : bool -> loc -> list mtx -> Prop) H i hw tr : (forall w f, F w (LStat i f) H) -> cov F H tr -> cov F H (count_up i hw ++ tr).
  Proof.
    intros K Ht. unfold count_up. rewrite <- !app_assoc. repeat (apply cov_change; [auto|]). cbn [app].
    constructor; [auto|]. constructor; [auto|]. destruct hw; cbn [app]; [|exact Ht]. repeat constructor; auto.
  Qed.
  Lemma cov_count_down (F : bool -> loc -> list mtx -> Prop) H i tr : (forall w f, F w (LStat i f) H) -> cov F H tr -> cov F H (count_down i ++ tr).
  Proof. intros K Ht. unfold count_down. rewrite <- !app_assoc. repeat (apply cov_change; [auto|]). exact Ht. Qed.

  (** What a strategy does stays in its chain. *)
  Lemma cov_work H i tr : work C i tr -> cov (fun w l K => deep C i l /\ K = H) H tr.
  Proof.
    induction 1 as [i|i c w tr E Es _ IH|i c tr E Ed _ IH|i c hw tr1 tr2 E Ep _ IH1 _ IH2|i c tr1 tr2 E Ep _ IH1 _ IH2].
    - constructor.
    - constructor; [|exact IH]. split; [|reflexivity]. exists i. rewrite (chain_node C i c G E). split; [now left|].
      split; [exact (node_pos _ _ _ E)|]. right. exists c. auto.
    - constructor; [|exact IH]. split; [|reflexivity]. exists i. rewrite (chain_node C i c G E). split; [now left|].
      split; [exact (node_pos _ _ _ E)|]. left. exists Cur. reflexivity.
    - pose proof (parent_in C i c G E Ep) as I.
      assert (S1 : forall f, deep C i (LStat (nc_parent c) f)) by (intros f; exists (nc_parent c); eauto 8).
      apply cov_count_up; [intros w f; split; auto|]. apply cov_app; [|exact IH2].
      eapply cov_mono; [|exact IH1]. cbn beta. intros w l K [(j & Hj & Hn & Hl) ->]. split; [|reflexivity].
      exists j. split; [|auto]. rewrite (chain_node C i c G E). now right.
    - pose proof (parent_in C i c G E Ep) as I.
      assert (S1 : forall f, deep C i (LStat (nc_parent c) f)) by (intros f; exists (nc_parent c); eauto 8).
      apply cov_count_down; [intros w f; split; auto|]. apply cov_app; [|exact IH2].
      eapply cov_mono; [|exact IH1]. cbn beta. intros w l K [(j & Hj & Hn & Hl) ->]. split; [|reflexivity].
      exists j. split; [|auto]. rewrite (chain_node C i c G E). now right.
  Qed.

  Lemma cov_builds H j tr : builds C j tr -> cov (fun w l K => (deep C j l \/ exists f, l = LStat j f) /\ K = H) H tr.
  Proof.
    induction 1 as [|hw tr1 tr2 W _ IH]; [constructor|].
    apply cov_count_up; [intros w f; split; eauto|]. apply cov_app; [|exact IH].
    eapply cov_mono; [|exact (cov_work H j tr1 W)]. cbn beta. tauto.
  Qed.

  Lemma cov_map (F : bool -> loc -> list mtx -> Prop) H a m : inner H MMap -> map_change a m -> (forall w, F w LMap (MMap :: H)) -> (forall w, F w (LRec a) (MMap :: H)) -> cov F H m.
  Proof.
    intros N (b & Hb & ->) K1 K2. apply cov_section; [exact N|]. apply (cov_accesses _ _ _ _ _ Hb).
    intros w l [<-|[<-|[]]] _; auto.
  Qed.

  Lemma cov_find (F : bool -> loc -> list mtx -> Prop) H a m : inner H MMap -> map_find a m -> (forall w, F w LMap (MMap :: H)) -> F false (LRec a) (MMap :: H) -> cov F H m.
  Proof.
    intros N (b1 & b2 & H1 & H2 & ->) K1 K2. apply cov_section; [exact N|]. apply cov_app.
    - apply (cov_accesses _ _ _ _ _ H1). intros w l [<-|[]] _; auto.
    - apply (cov_accesses _ _ _ _ _ H2). intros w l [<-|[]] Hw. rewrite (Hw eq_refl). exact K2.
  Qed.

  Lemma cov_allocs (F : bool -> loc -> list mtx -> Prop) H i k a b : inner H MMap -> allocs C i k a b ->
    (forall w l, deep C k l \/ (exists f, l = LStat i f) -> F w l H) -> (forall w l, l = LMap \/ l = LRec a -> F w l (MMap :: H)) -> cov F H b.
  Proof.
    intros N A K1 K2. inversion A as [tr hw m W M|tr W]; subst.
    - apply cov_app; [|apply cov_count_up; [intros w f; apply K1; eauto|apply (cov_map _ _ a); auto]].
      eapply cov_mono; [|exact (cov_work H k tr W)]. cbn beta. intros w l K [D ->]. auto.
    - eapply cov_mono; [|exact (cov_work H k b W)]. cbn beta. intros w l K [D ->]. auto.
  Qed.

  Lemma cov_frees (F : bool -> loc -> list mtx -> Prop) H i k a b : inner H MMap -> frees C i k a b ->
    (forall w l, deep C k l \/ (exists f, l = LStat i f) \/ l = LState zero_id /\ w = false -> F w l H) ->
    (forall w l, l = LMap \/ l = LRec a -> F w l (MMap :: H)) -> cov F H b.
  Proof.
    intros N A K1 K2. inversion A as [m tr M W|m m' M M'|m M|]; subst.
    - apply cov_app; [apply (cov_map _ _ a); auto|]. apply cov_count_down; [intros w f; apply K1; eauto|]. constructor; [apply K1; auto|].
      eapply cov_mono; [|exact (cov_work H k tr W)]. cbn beta. intros w l K [D ->]. auto.
    - apply cov_app; apply (cov_map _ _ a); auto.
    - apply (cov_map _ _ a); auto.
    - constructor.
  Qed.

  Lemma cov_locked (F : bool -> loc -> list mtx -> Prop) i b : cov F (mine ts i) b -> cov F [] (locked ts i b).
  Proof.
    unfold mine, locked. destruct (ts i); [|auto]. intros H. apply cov_section; [intros ? []|exact H].
  Qed.

  Lemma mine_map i : inner (mine ts i) MMap.
  Proof. unfold mine. destruct (ts i); intros m; cbn [In]; [intros [<-|[]]; cbn; lia|intros []]. Qed.

  Lemma cov_code c b : code C ts c b -> cov (touch C ts c) [] b.
  Proof.
    intros D. destruct D.
    - apply cov_locked. apply (cov_allocs _ _ i i a); [apply mine_map|assumption|cbn [touch]; auto|cbn [touch]; auto].
    - apply cov_locked. apply (cov_allocs _ _ i zero_id a); [apply mine_map|assumption|cbn [touch]; auto|cbn [touch]; auto].
    - apply cov_locked. apply (cov_frees _ _ i i a); [apply mine_map|assumption|cbn [touch]; auto|cbn [touch]; auto].
    - apply cov_locked. apply (cov_frees _ _ i zero_id a); [apply mine_map|assumption|cbn [touch]; auto|cbn [touch]; auto].
    - apply cov_app; [apply (cov_find _ _ a); [intros ? []|assumption|cbn [touch]; auto|cbn [touch]; auto 8]|].
      constructor; [cbn [touch]; auto 8|]. apply cov_locked. apply (cov_frees _ _ i i a); [apply mine_map|assumption|cbn [touch]; auto|cbn [touch]; auto].
    - destruct (releases (nc_kind c)) eqn:E.
      + eapply cov_mono; [|exact (cov_work [] i b (H0 eq_refl))]. cbn; tauto.
      + rewrite (H1 eq_refl). constructor.
    - destruct (releases (nc_kind c)) eqn:E.
      + eapply cov_mono; [|exact (cov_work [] i b (H0 eq_refl))]. cbn; tauto.
      + rewrite (H1 eq_refl). constructor.
    - apply (cov_accesses _ _ _ _ _ H). intros w l Hl Hw. cbn [touch]. split; [auto|]. split; [|reflexivity].
      destruct Hl as [<-|[<-|[<-|[<-|[]]]]]; eauto.
    - apply cov_app; [apply (cov_find _ _ a); [intros ? []|assumption|cbn [touch]; auto|cbn [touch]; auto 8]|].
      constructor; [cbn [touch]; auto 8|constructor].
    - destruct H as [ls H]. apply (cov_accesses _ _ _ _ _ H). intros w l Hl Hw. cbn [touch]. split; [auto|]. split; [|reflexivity].
      destruct Hl as [<-|Hl]; [auto|]. apply in_map_iff in Hl as (x & <- & _). eauto.
    - apply (cov_accesses _ _ _ _ _ H). intros w l [<-|[]] Hw. cbn [touch]. auto.
    - apply (cov_accesses _ _ _ _ _ H). intros w l [<-|[]] Hw. cbn [touch]. auto.
    - apply cov_section; [intros ? []|]. apply cov_app; [|apply cov_app].
      + apply (cov_accesses _ _ _ _ _ H). intros w l [<-|[]] Hw. cbn [touch]. auto.
      + eapply cov_mono; [|exact (cov_builds [MReg] j b2 H0)]. cbn beta. intros w l K [E ->]. cbn [touch]. tauto.
      + apply (cov_accesses _ _ _ _ _ H1). intros w l [<-|[]] Hw. cbn [touch]. auto.
    - apply (cov_accesses _ _ _ _ _ H). intros w l [<-|[]] Hw. cbn [touch]. auto.
    - apply (cov_accesses _ _ _ _ _ H). intros w l [<-|[]] Hw. cbn [touch]. auto.
    - apply cov_app; [|apply cov_app].
      + apply (cov_accesses _ _ _ _ _ H). intros w l [<-|[]] Hw. cbn [touch]. auto.
      + apply (cov_accesses _ _ _ _ _ H0). intros w l [<-|[]] Hw. cbn [touch]. auto.
      + repeat constructor; cbn [touch]; auto.
    - repeat constructor; cbn [touch]; auto.
  Qed.

  Lemma cov_spells p tr : spells C ts p tr -> cov (fun w l K => exists c, In c p /\ touch C ts c w l K) [] tr.
  Proof.
    induction 1 as [|c p b tr D _ IH]; [constructor|]. apply cov_app.
    - eapply cov_mono; [|exact (cov_code c b D)]. cbn beta. intros w l K T. exists c. split; [now left|exact T].
    - eapply cov_mono; [|exact IH]. cbn beta. intros w l K (x & Hx & T). exists x. split; [now right|exact T].
  Qed.
End Calls.

(** ** The threads *)
Lemma rrun_inv T acts : forall g, rrun acts (r_init T) = Some g ->
  exists D, (forall t, T t = D t ++ r_rem g t) /\ forall t m, held (fun _ => false) (D t) m = true <-> r_owner g m = Some t.
Proof.
  assert (K : forall acts g0 g, rrun acts g0 = Some g ->
    (exists D, (forall t, T t = D t ++ r_rem g0 t) /\ forall t m, held (fun _ => false) (D t) m = true <-> r_owner g0 m = Some t) ->
    exists D, (forall t, T t = D t ++ r_rem g t) /\ forall t m, held (fun _ => false) (D t) m = true <-> r_owner g m = Some t).
  { clear. induction acts as [|t acts IH]; intros g0 g E I; cbn [rrun] in E; [injection E as <-; exact I|].
    destruct (rstep t g0) as [g1|] eqn:Es; [|discriminate]. apply (IH g1 g E). clear IH E g. destruct I as (D & I1 & I2).
    unfold rstep in Es. destruct (r_rem g0 t) as [|x k] eqn:Er; [discriminate|].
    exists (fun u => if u =? t then D t ++ [x] else D u).
    assert (R : forall o, g1 = mkR (set_rem g0 t k) o -> forall u, T u = (if u =? t then D t ++ [x] else D u) ++ r_rem g1 u).
    { intros o -> u. cbn [r_rem]. unfold set_rem. destruct (Z.eqb_spec u t) as [->|]; [|apply I1]. rewrite (I1 t), Er, <- app_assoc. reflexivity. }
    destruct x as [m|m|w l].
    - destruct (r_owner g0 m) as [u|] eqn:Eo; [discriminate|]. injection Es as <-. split; [apply (R _ eq_refl)|].
      intros u m'. cbn [r_owner]. unfold set_owner. destruct (Z.eqb_spec u t) as [->|Nu].
      + rewrite held_app. cbn [held fold_left after1]. destruct (mtx_eqb_spec m' m) as [->|Nm]; [tauto|apply I2].
      + rewrite I2. destruct (mtx_eqb_spec m' m) as [->|Nm]; [|tauto]. rewrite Eo. intuition congruence.
    - destruct (r_owner g0 m) as [u|] eqn:Eo; [|discriminate]. destruct (Z.eqb_spec u t) as [->|]; [|discriminate]. injection Es as <-.
      split; [apply (R _ eq_refl)|]. intros u m'. cbn [r_owner]. unfold set_owner. destruct (Z.eqb_spec u t) as [->|Nu].
      + rewrite held_app. cbn [held fold_left after1]. destruct (mtx_eqb_spec m' m) as [->|Nm]; [intuition congruence|apply I2].
      + rewrite I2. destruct (mtx_eqb_spec m' m) as [->|Nm]; [|tauto]. rewrite Eo. intuition congruence.
    - injection Es as <-. split; [apply (R _ eq_refl)|]. intros u m'. cbn [r_owner]. destruct (Z.eqb_spec u t) as [->|Nu]; [|apply I2].
      rewrite held_app. cbn [held fold_left after1]. apply I2. }
  intros g E. apply (K acts _ _ E). exists (fun _ => []). split; [reflexivity|]. intros t m. cbn. intuition discriminate.
Qed.

Lemma race_locks C ts prog g l : grown C -> reaches C ts prog g -> race g l ->
  exists t u c c' w w' H H', t <> u /\ In c (prog t) /\ In c' (prog u) /\ touch C ts c w l H /\ touch C ts c' w' l H' /\
    (w = true \/ w' = true) /\ forall m, In m H -> In m H' -> False.
Proof.
  intros G (T & acts & HT & E) (t & u & w & w' & k & k' & Ntu & Et & Eu & W).
  destruct (rrun_inv T acts g E) as (D & I1 & I2).
  assert (S0 : exactly (fun _ => false) []) by (intros m; cbn; intuition discriminate).
  pose proof (I1 t) as Tt. rewrite Et in Tt. pose proof (I1 u) as Tu. rewrite Eu in Tu.
  destruct (cov_at _ _ _ (cov_spells C ts G _ _ (HT t)) _ S0 _ _ _ _ Tt) as (H & (c & Hc & X) & Hh).
  destruct (cov_at _ _ _ (cov_spells C ts G _ _ (HT u)) _ S0 _ _ _ _ Tu) as (H' & (c' & Hc' & X') & Hh').
  exists t, u, c, c', w, w', H, H'. repeat (split; [assumption|]). intros m Hm Hm'.
  apply Hh in Hm. apply Hh' in Hm'. apply I2 in Hm. apply I2 in Hm'. congruence.
Qed.

(** ** No deadlock *)
Lemma not_stuck C ts prog g t : grown C -> reaches C ts prog g -> r_rem g t <> [] -> exists u, rstep u g <> None.
Proof.
  intros G (T & acts & HT & E) Ht. destruct (rrun_inv T acts g E) as (D & I1 & I2).
  assert (S0 : exactly (fun _ => false) []) by (intros m; cbn; intuition discriminate).
  assert (L : forall u x k, r_rem g u = x :: k -> legal (held (fun _ => false) (D u)) x).
  { intros u x k Eu. pose proof (I1 u) as Tu. rewrite Eu in Tu. exact (cov_legal _ _ _ (cov_spells C ts G _ _ (HT u)) _ S0 _ _ _ Tu). }
  assert (Z0 : forall u m, r_rem g u = [] -> r_owner g m <> Some u).
  { intros u m Eu Eo. apply I2 in Eo. pose proof (I1 u) as Tu. rewrite Eu, app_nil_r in Tu. rewrite <- Tu in Eo.
    apply (cov_end _ _ _ (cov_spells C ts G _ _ (HT u)) _ S0) in Eo. destruct Eo. }
  (* a thread that cannot go on waits for a mutex; the owner of one of the highest rank goes on *)
  assert (B : forall u, r_rem g u <> [] -> rstep u g <> None \/ exists m k v, r_rem g u = SLock m :: k /\ r_owner g m = Some v).
  { intros u Hu. unfold rstep. destruct (r_rem g u) as [|[m|m|w l] k] eqn:Eu; [contradiction| | |left; discriminate].
    - destruct (r_owner g m) as [v|] eqn:Eo; [right; eauto|left; discriminate].
    - pose proof (L u _ _ Eu) as Lu. cbn [legal] in Lu. apply I2 in Lu. rewrite Lu, Z.eqb_refl. left; discriminate. }
  assert (O : forall n m v, (rank m + n >= 2)%nat -> r_owner g m = Some v -> exists u, rstep u g <> None).
  { induction n as [|n IH]; intros m v R Eo; [destruct m; cbn in R; lia|].
    destruct (r_rem g v) as [|x k] eqn:Ev; [exfalso; exact (Z0 v m Ev Eo)|].
    destruct (B v) as [Hs|(m' & k' & v' & Ev' & Eo')]; [rewrite Ev; discriminate|exists v; exact Hs|].
    pose proof (L v _ _ Ev') as Lv. cbn [legal] in Lv. specialize (Lv m). apply I2 in Eo. specialize (Lv Eo).
    apply (IH m' v'); [lia|exact Eo']. }
  destruct (B t Ht) as [Hs|(m & k & v & Ev & Eo)]; [exists t; exact Hs|]. apply (O 2%nat m v); [lia|exact Eo].
Qed.

(** ** What the summary says about some kinds of calls *)
Section Kinds.
  Context (C : list nodecfg) (ts : nat -> bool).

  Lemma deep_loc i l : deep C i l ->
    (exists k f, l = LStat k f /\ under C i k) \/ (exists k c, l = LState k /\ In k (chain C i) /\ k <> 0%nat /\ node_at C k = Some c /\ has_state (nc_kind c) = true).
  Proof.
    intros (k & Hk & H0 & [(f & ->)|(c & -> & Hc)]).
    - left. exists k, f. repeat split; auto. now right.
    - right. exists k, c. tauto.
  Qed.

  (** Three kinds of accesses: to the allocators, to the map, and to the records. *)
  Lemma touch_everyday c w l H : everyday C c -> touch C ts c w l H ->
    (exists i, through c = Some i /\ H = mine ts i /\ ~ In zero_id (i :: chain C i) /\
       ((exists k f, l = LStat k f /\ (k = i \/ under C i k)) \/
        (exists k d, l = LState k /\ In k (chain C i) /\ node_at C k = Some d /\ has_state (nc_kind d) = true) \/
        l = LState zero_id /\ w = false)) \/
    l = LMap /\ In MMap H \/
    (exists a, about c = Some a /\ l = LRec a /\ (In MMap H \/ peeks c = true)).
  Proof.
    assert (D : forall i, deep C i l ->
      (exists k f, l = LStat k f /\ (k = i \/ under C i k)) \/
      (exists k d, l = LState k /\ In k (chain C i) /\ node_at C k = Some d /\ has_state (nc_kind d) = true) \/ l = LState zero_id /\ w = false).
    { intros i Hd. destruct (deep_loc i l Hd) as [(k & f & E & U)|(k & d & E & I & _ & Hn & Hs)]; [left; eauto|right; left; eauto 8]. }
    destruct c; cbn [everyday touch through about peeks]; intros Ev T; try contradiction.
    - destruct T as [[[Hd|(f & ->)] ->]|[[-> | ->] ->]].
      + left. exists i. auto.
      + left. exists i. repeat (split; [auto|]). left. eauto.
      + right; left. cbn [In]. auto.
      + right; right. exists a. cbn [In]. auto.
    - destruct T as [[[Hd|[(f & ->)|[-> ->]]] ->]|[[-> | ->] ->]].
      + left. exists i. auto.
      + left. exists i. repeat (split; [auto|]). left. eauto.
      + left. exists i. repeat (split; [auto|]). right; right. auto.
      + right; left. cbn [In]. auto.
      + right; right. exists a. cbn [In]. auto.
    - destruct T as [[[Hd|[(f & ->)|[-> ->]]] ->]|[[[-> | ->] ->]|[[-> ->]|(-> & -> & _)]]].
      + left. exists i. auto.
      + left. exists i. repeat (split; [auto|]). left. eauto.
      + left. exists i. repeat (split; [auto|]). right; right. auto.
      + right; left. cbn [In]. auto.
      + right; right. exists a. cbn [In]. auto.
      + right; left. cbn [In]. auto.
      + right; right. exists a. auto.
    - destruct T as [[-> ->]|(-> & -> & _)]; [right; left; cbn [In]; auto|right; right; eauto].
  Qed.

  Lemma touch_through c w l H i : through c = Some i -> ts i = true -> touch C ts c w l H ->
    In (MAlloc i) H \/ l = LMap /\ In MMap H \/ exists a, l = LRec a /\ about c = Some a /\ peeks c = true.
  Proof.
    intros Ei Ht T. assert (M : mine ts i = [MAlloc i]) by (unfold mine; now rewrite Ht).
    destruct c; cbn [through] in Ei; try discriminate; injection Ei as ->; cbn [touch peeks about] in *; rewrite M in T.
    - left. destruct T as [[_ ->]|[_ ->]]; cbn [In]; auto.
    - left. destruct T as [[_ ->]|[_ ->]]; cbn [In]; auto.
    - left. destruct T as [[_ ->]|[_ ->]]; cbn [In]; auto.
    - left. destruct T as [[_ ->]|[_ ->]]; cbn [In]; auto.
    - destruct T as [[_ ->]|[[_ ->]|[[-> ->]|(-> & _)]]]; cbn [In]; eauto 8.
  Qed.

  (** What an access to the records of [a] is about. *)
  Lemma touch_rec c w a H i : through c = Some i -> touch C ts c w (LRec a) H -> about c = Some a.
  Proof.
    assert (D : forall i, ~ deep C i (LRec a)).
    { intros j (k & _ & _ & [(f & E)|(d & E & _)]); discriminate. }
    intros Ei T. destruct c; cbn [through] in Ei; try discriminate; cbn [touch about] in *.
    all: repeat match goal with
         | H : _ \/ _ |- _ => destruct H
         | H : _ /\ _ |- _ => destruct H
         | H : exists _, _ |- _ => destruct H
         | H : deep _ _ _ |- _ => apply D in H; contradiction
         | H : LRec _ = LRec _ |- _ => injection H as ->
         end; congruence.
  Qed.

  Lemma no_deep_map i : ~ deep C i LMap.
  Proof. intros (k & _ & _ & [(f & E)|(d & E & _)]); discriminate. Qed.
  Lemma no_deep_names i : ~ deep C i LNames.
  Proof. intros (k & _ & _ & [(f & E)|(d & E & _)]); discriminate. Qed.

  Ltac cases :=
    repeat match goal with
    | H : _ \/ _ |- _ => destruct H
    | H : _ /\ _ |- _ => destruct H
    | H : exists _, _ |- _ => destruct H
    | H : deep _ _ LMap |- _ => apply no_deep_map in H; contradiction
    | H : deep _ _ LNames |- _ => apply no_deep_names in H; contradiction
    end.

  Lemma touch_map c w H : c <> DRecords -> touch C ts c w LMap H -> In MMap H.
  Proof. intros N T. destruct c; cbn [touch] in T; cases; subst; cbn [In]; auto; congruence. Qed.

  Lemma touch_names c w H : ~ names_unlocked c -> touch C ts c w LNames H -> In MReg H.
  Proof. intros N T. destruct c; cbn [touch names_unlocked] in *; cases; subst; cbn [In]; auto; try congruence; tauto. Qed.

  Lemma touch_reads c w l H : reads_only c -> touch C ts c w l H -> w = false.
  Proof. intros N T. destruct c; cbn [touch reads_only] in *; cases; subst; auto; contradiction. Qed.
End Kinds.

(** ** The corollaries *)
Lemma one_safe C ts i prog g l : grown C -> ts i = true -> (forall t c, In c (prog t) -> through c = Some i) -> apart prog unpeeked ->
  reaches C ts prog g -> ~ race g l.
Proof.
  intros G Ht Hall Hap Hr Hx. destruct (race_locks _ _ _ _ _ G Hr Hx) as (t & u & c & c' & w & w' & H & H' & N & Hc & Hc' & T & T' & W & Hd).
  pose proof (Hall _ _ Hc) as E. pose proof (Hall _ _ Hc') as E'. pose proof (Hap t u c c' N Hc Hc') as U.
  assert (M : l = LMap -> False).
  { intros ->. apply (Hd MMap); [apply (touch_map C ts c w H)|apply (touch_map C ts c' w' H')]; auto; intros ->; discriminate. }
  assert (R : forall a, l = LRec a -> peeks c = false /\ peeks c' = false).
  { intros a ->. apply (U a); eapply touch_rec; eassumption. }
  destruct (touch_through C ts c w l H i E Ht T) as [K|[[El K]|(a & El & _ & P)]]; [|auto|destruct (R a El); congruence].
  destruct (touch_through C ts c' w' l H' i E' Ht T') as [K'|[[El K']|(a & El & _ & P)]]; [eauto|auto|destruct (R a El); congruence].
Qed.

Lemma memory_safe C ts prog g l : grown C -> (forall t c, In c (prog t) -> everyday C c) -> apart prog (careful C ts) ->
  reaches C ts prog g -> race g l ->
  exists t u c c' i j k f, t <> u /\ In c (prog t) /\ In c' (prog u) /\ through c = Some i /\ through c' = Some j /\ i <> j /\
    l = LStat k f /\ under C i k /\ under C j k.
Proof.
  intros G Hall Hap Hr Hx. destruct (race_locks _ _ _ _ _ G Hr Hx) as (t & u & c & c' & w & w' & H & H' & N & Hc & Hc' & T & T' & W & Hd).
  destruct (Hap t u c c' N Hc Hc') as [U1 U2].
  assert (X : forall i j, through c = Some i -> through c' = Some j -> H = mine ts i -> H' = mine ts j -> i <> j).
  { intros i j Ei Ej -> -> <-. destruct (U1 i i Ei Ej) as [Q _]. specialize (Q eq_refl). apply (Hd (MAlloc i)); unfold mine; rewrite Q; now left. }
  destruct (touch_everyday C ts c w l H (Hall _ _ Hc) T) as [(i & Ei & EH & Zi & K)|[[-> K]|(a & A & -> & K)]];
    destruct (touch_everyday C ts c' w' _ H' (Hall _ _ Hc') T') as [(j & Ej & EH' & Zj & K')|[[E2 K']|(a' & A' & E2 & K')]].
  - pose proof (X i j Ei Ej EH EH') as Nij.
    destruct K as [(k & f & -> & K)|[(k & d & -> & K & Kd & Ks)|[-> ->]]].
    + destruct K' as [(k' & f' & E & K')|[(k' & d' & E & _)|[E _]]]; try discriminate. injection E as <- <-.
      exists t, u, c, c', i, j, k, f. repeat (split; [assumption || reflexivity|]).
      assert (Hk0 : k <> 0%nat). { destruct K as [->|[K0 _]]; [|exact K0]. destruct K' as [->|[K0 _]]; [contradiction|exact K0]. }
      split; (split; [exact Hk0|]); [destruct K as [->|[_ K]]|destruct K' as [->|[_ K']]]; auto; now left.
    + exfalso. destruct K' as [(k' & f' & E & K')|[(k' & d' & E & K' & _)|[E _]]]; try discriminate.
      * injection E as <-. destruct (U1 i j Ei Ej) as [_ Q]. apply (Q Nij). exists k, d. auto.
      * injection E as ->. apply Zi. now right.
    + exfalso. destruct K' as [(k' & f' & E & K')|[(k' & d' & E & K' & _)|[_ ->]]]; try discriminate.
      * injection E as <-. apply Zj. now right.
      * destruct W; discriminate.
  - exfalso. subst l. destruct K as [(? & ? & E & _)|[(? & ? & E & _)|[E _]]]; discriminate.
  - exfalso. subst l. destruct K as [(? & ? & E & _)|[(? & ? & E & _)|[E _]]]; discriminate.
  - exfalso. destruct K' as [(? & ? & E & _)|[(? & ? & E & _)|[E _]]]; discriminate.
  - exfalso. eauto.
  - discriminate.
  - exfalso. destruct K' as [(? & ? & E & _)|[(? & ? & E & _)|[E _]]]; discriminate.
  - discriminate.
  - exfalso. injection E2 as <-. destruct (U2 a A A') as [Q Q'].
    destruct K as [K|K]; [|congruence]. destruct K' as [K'|K']; [eauto|congruence].
Qed.

Lemma apart_safe C ts prog g l : grown C -> (forall t c, In c (prog t) -> everyday C c) -> apart prog (careful C ts) ->
  apart prog (fun c c' => forall i j k, through c = Some i -> through c' = Some j -> i <> j -> under C i k -> under C j k -> False) ->
  reaches C ts prog g -> ~ race g l.
Proof.
  intros G Hall Hap Hd Hr Hx.
  destruct (memory_safe _ _ _ _ _ G Hall Hap Hr Hx) as (t & u & c & c' & i & j & k & f & N & Hc & Hc' & Ei & Ej & Nij & _ & U & U').
  exact (Hd t u c c' N Hc Hc' i j k Ei Ej Nij U U').
Qed.

Lemma map_safe C ts prog g : grown C -> (forall t, ~ In DRecords (prog t)) -> reaches C ts prog g -> ~ race g LMap.
Proof.
  intros G Hn Hr Hx. destruct (race_locks _ _ _ _ _ G Hr Hx) as (t & u & c & c' & w & w' & H & H' & N & Hc & Hc' & T & T' & W & Hd).
  apply (Hd MMap).
  - apply (touch_map C ts c w H); [intros ->; exact (Hn t Hc)|exact T].
  - apply (touch_map C ts c' w' H'); [intros ->; exact (Hn u Hc')|exact T'].
Qed.

Lemma names_safe C ts prog g : grown C -> (forall t c, In c (prog t) -> ~ names_unlocked c) -> reaches C ts prog g -> ~ race g LNames.
Proof.
  intros G Hn Hr Hx. destruct (race_locks _ _ _ _ _ G Hr Hx) as (t & u & c & c' & w & w' & H & H' & N & Hc & Hc' & T & T' & W & Hd).
  apply (Hd MReg).
  - apply (touch_names C ts c w H); [exact (Hn t c Hc)|exact T].
  - apply (touch_names C ts c' w' H'); [exact (Hn u c' Hc')|exact T'].
Qed.

Lemma readers_safe C ts prog g l : grown C -> (forall t c, In c (prog t) -> reads_only c) -> reaches C ts prog g -> ~ race g l.
Proof.
  intros G Hn Hr Hx. destruct (race_locks _ _ _ _ _ G Hr Hx) as (t & u & c & c' & w & w' & H & H' & N & Hc & Hc' & T & T' & W & Hd).
  pose proof (touch_reads C ts _ _ _ _ (Hn _ _ Hc) T). pose proof (touch_reads C ts _ _ _ _ (Hn _ _ Hc') T'). destruct W; congruence.
Qed.

(** ** Races that do happen *)
Definition duet (b b' : list step) : Z -> list step := fun t => if t =? 1 then b else if t =? 2 then b' else [].

Lemma two_reaches C ts c c' b b' acts g : code C ts c b -> code C ts c' b' -> rrun acts (r_init (duet b b')) = Some g ->
  reaches C ts (two c c') g.
Proof.
  intros H H' E. exists (duet b b'), acts. split; [|exact E]. intros t. unfold two, duet.
  destruct (t =? 1); [rewrite <- (app_nil_r b); apply sp_cons; [exact H|constructor]|].
  destruct (t =? 2); [rewrite <- (app_nil_r b'); apply sp_cons; [exact H'|constructor]|constructor].
Qed.
