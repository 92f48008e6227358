(** External registrations: the registry is that of the program's allocations with the external records added; all else is as without. *)
From Coq Require Import Permutation.
From Verif Require Import Base BaseFacts HeapModel StratModel StratFacts QuickPoolModel FixedPoolModel
  GlobalModel GlobalSpec GlobalFacts GlobalFrame MapModel MapSpec MapThms AllocMapThms JudyModel JudyFacts JudyUpdate MapMain
  SystemModel SystemSpec SystemFacts SystemMain SystemThms ExtModel ExtSpec.

(** ** Registries that no call can tell apart *)
Definition same (y z : registry) : Prop := Permutation y z /\ forall k, records_at k y = records_at k z.

Lemma same_cons k r y z : same y z -> same ((k, r) :: y) ((k, r) :: z).
Proof. intros [H1 H2]. split; [now constructor|]. intros j. rewrite !records_at_cons. now rewrite H2. Qed.

Lemma drop_perm k r rs g : records_at k g = r :: rs -> Permutation g ((k, r) :: drop_newest k g).
Proof.
  induction g as [|[y x] g IH]; [discriminate|]. rewrite records_at_cons. cbn [drop_newest fst].
  destruct (Z.eqb_spec y k) as [->|]; [now intros [= -> _]|]. intros E. rewrite perm_swap. constructor. auto.
Qed.

Lemma same_drop k y z : same y z -> same (drop_newest k y) (drop_newest k z).
Proof.
  intros [H1 H2]. split.
  - destruct (records_at k y) as [|r rs] eqn:E.
    + rewrite !drop_newest_absent; auto. now rewrite <- H2.
    + pose proof (drop_perm k r rs y E) as P1. rewrite H2 in E. pose proof (drop_perm k r rs z E) as P2.
      eapply Permutation_cons_inv. rewrite <- P1, <- P2. exact H1.
  - intros j. rewrite !records_at_drop. now rewrite !H2.
Qed.

Lemma same_registered y z k : same y z -> registered y k <-> registered z k.
Proof. intros [H _]. unfold registered. now rewrite (Permutation_map fst H). Qed.

Lemma records_at_app k y z : records_at k (y ++ z) = records_at k y ++ records_at k z.
Proof. unfold records_at. now rewrite filter_app, map_app. Qed.

Lemma records_absent k y : ~ registered y k -> records_at k y = [].
Proof.
  intros H. destruct (records_at k y) as [|r rs] eqn:E; auto. elim H. unfold registered. apply in_map_iff. exists (k, r). split; auto.
  apply records_at_In. rewrite E. now left.
Qed.

Lemma records_present k r rs y : records_at k y = r :: rs -> registered y k.
Proof. intros E. unfold registered. apply in_map_iff. exists (k, r). split; auto. apply records_at_In. rewrite E. now left. Qed.

Lemma registered_app y z k : registered (y ++ z) k <-> registered y k \/ registered z k.
Proof. unfold registered. now rewrite map_app, in_app_iff. Qed.

Lemma filed_keyed g k : registered (filed g) k <-> keyed g k.
Proof.
  unfold registered, filed, keyed. rewrite map_map. cbn [fst]. rewrite in_map_iff. split; intros (r & A & B); eauto.
Qed.

Lemma drop_registered k y j : registered (drop_newest k y) j -> registered y j.
Proof.
  unfold registered. induction y as [|[a b] y IH]; cbn [drop_newest map In fst]; auto. destruct (a =? k); cbn [map In fst]; intuition.
Qed.

Lemma records_filed k r g x : NoDup (map r_ptr g) -> In r g -> r_ptr r = k -> ~ registered x k -> records_at k (filed g ++ x) = [r].
Proof.
  intros Hn Hr Ep Hx. rewrite records_at_app, (records_absent k x Hx), app_nil_r.
  now apply (proj1 (records_perm (filed g) g k Hn (Permutation_refl _))).
Qed.

Lemma records_ext k g x : ~ keyed g k -> records_at k (filed g ++ x) = records_at k x.
Proof. intros H. rewrite records_at_app, (records_absent k (filed g)); auto. now rewrite filed_keyed. Qed.

Lemma drop_filed p g x : keyed g p -> drop_newest p (filed g ++ x) = filed (forget p g) ++ x.
Proof.
  intros (r & Hr & Ep). revert Hr. induction g as [|z g IH]; [intros []|]. intros Hr. cbn [filed map app drop_newest fst forget].
  destruct (Z.eqb_spec (r_ptr z) p) as [E|E]; [reflexivity|]. cbn [map app filed]. f_equal. apply IH. destruct Hr as [->|]; [contradiction|auto].
Qed.

Lemma drop_ext k g x : ~ keyed g k -> drop_newest k (filed g ++ x) = filed g ++ drop_newest k x.
Proof.
  intros H. induction g as [|z g IH]; [reflexivity|]. cbn [filed map app drop_newest fst].
  destruct (Z.eqb_spec (r_ptr z) k) as [E|E]; [elim H; exists z; split; auto; now left|]. f_equal. apply IH.
  intros (r & A & B). apply H. exists r. split; auto. now right.
Qed.

Lemma same_ext_cons k r y g x : same y (filed g ++ x) -> ~ keyed g k -> same ((k, r) :: y) (filed g ++ (k, r) :: x).
Proof.
  intros [H1 H2] Hk. split.
  - rewrite H1. apply Permutation_middle.
  - intros j. rewrite records_at_cons, H2, !records_at_app, records_at_cons. destruct (Z.eqb_spec k j) as [->|]; auto.
    rewrite (records_absent j (filed g)); auto. now rewrite filed_keyed.
Qed.

(** ** The calls, whatever the registry *)
Lemma insert_outcome k r (a : amap JR) : match am_insert JR k r a with Ok _ tt => True | UB => True | _ => False end.
Proof.
  unfold am_insert. destruct (mm_insert JR k [r] (am_map JR a)) as [[m [k' s]] b]. destruct b; auto. destruct s; auto.
Qed.

Section Calls.
  Context (C : list nodecfg).
  Notation BC := (C ++ boot).

  Definition raw_alloc (i : nat) (n : Z) (w : gworld BC) : outcome (gworld BC) Z :=
    if n =? 0 then p_alloc (graw BC zero_id) 1 w else p_alloc (graw BC i) n w.
  Definition raw_free (i : nat) (p n : Z) (w : gworld BC) : outcome (gworld BC) unit :=
    let w1 := gupd BC i (stats_sub n) w in
    if zero_owns BC p w1 then p_dealloc (graw BC zero_id) p 1 w1 else p_dealloc (graw BC i) p n w1.

  Lemma alloc_calls i n nm w (a : amap JR) : sys_allocate JR BC i n nm (w, a) =
    match raw_alloc i n w with
    | Ok w1 p => if p =? 0 then Throw (gupd BC i (stats_add n) w1, a) RuntimeError
                 else match am_insert JR p (mkRec p n (Z.of_nat i) nm) a with
                      | Ok a' _ => Ok (gupd BC i (stats_add n) w1, a') p
                      | Throw a' e => Throw (gupd BC i (stats_add n) w1, a') e
                      | UB => UB | Abort => Abort | NoFuel => NoFuel
                      end
    | Throw w1 e => Throw (w1, a) e
    | UB => UB | Abort => Abort | NoFuel => NoFuel
    end.
  Proof.
    unfold sys_allocate, raw_alloc. cbn [fst snd].
    destruct (if n =? 0 then p_alloc (graw BC zero_id) 1 w else p_alloc (graw BC i) n w) as [w1 p| | | |]; cbn [omap bind]; try reflexivity.
    unfold sys_track, sys_register. cbn [fst snd]. destruct (p =? 0); [reflexivity|].
    destruct (am_insert JR p _ a); reflexivity.
  Qed.

  Lemma free_own i p w (a a1 : amap JR) r : p <> 0 -> am_remove JR p a = Ok a1 r -> r_strat r = Z.of_nat i ->
    sys_deallocate JR BC i p (w, a) = omap (fun w' => (w', a1)) (fun u => u) (raw_free i p (r_size r) w).
  Proof.
    intros Hp E Es. unfold sys_deallocate, sys_untrack. destruct (Z.eqb_spec p 0); [contradiction|]. cbn [fst snd]. rewrite E. cbn [omap bind fst snd].
    rewrite Es, Z.eqb_refl. reflexivity.
  Qed.

  Lemma free_other i p w (a a1 : amap JR) r : p <> 0 -> am_remove JR p a = Ok a1 r -> r_strat r <> Z.of_nat i ->
    sys_deallocate JR BC i p (w, a) =
      match am_insert JR p (mkRec p (r_size r) (r_strat r) (r_name r)) a1 with
      | Ok a2 _ => Throw (w, a2) RuntimeError | Throw a2 e => Throw (w, a2) e | UB => UB | Abort => Abort | NoFuel => NoFuel
      end.
  Proof.
    intros Hp E Es. unfold sys_deallocate, sys_untrack. destruct (Z.eqb_spec p 0); [contradiction|]. cbn [fst snd]. rewrite E. cbn [omap bind fst snd].
    destruct (Z.eqb_spec (r_strat r) (Z.of_nat i)); [contradiction|]. unfold sys_register. destruct (Z.eqb_spec p 0); [contradiction|]. cbn [fst snd].
    destruct (am_insert JR p _ a1); reflexivity.
  Qed.

  Lemma free_absent i p w (a a1 : amap JR) e : p <> 0 -> am_remove JR p a = Throw a1 e ->
    sys_deallocate JR BC i p (w, a) = Throw (w, a1) e.
  Proof.
    intros Hp E. unfold sys_deallocate, sys_untrack. destruct (Z.eqb_spec p 0); [contradiction|]. cbn [fst snd]. rewrite E. reflexivity.
  Qed.
End Calls.

Section Inv.
  Context (ok : (Z -> Prop) -> Prop) (Hok : monotone ok).
  Notation inv_of := (shist_inv JR sparse56 jrel jloc jplain judy_array_ok ok Hok).

  Definition holds (a : amap JR) (g : list arec) (x : registry) : Prop :=
    exists y, ahist JR ok (y, a) /\ same y (filed g ++ x).

  Definition einv (C : list nodecfg) (w : gworld (C ++ boot)) (a : amap JR) (g : list arec) (x : registry) (q : list nat) (t : list snapshot) : Prop :=
    (exists a0, shist JR ok C (w, a0) g q t) /\ holds a g x /\ ok (registered (filed g ++ x)) /\
    (forall k, registered x k -> addr_ok k /\ k <> 0 /\ ~ keyed g k).

  Lemma ok_sub (P Q : Z -> Prop) : ok P -> (forall k, Q k -> P k) -> ok Q.
  Proof. destruct Hok as [_ H]. intros A B. now apply (H P). Qed.

  Lemma shist_sinv C w a g q t : shist JR ok C (w, a) g q t -> sinv JR ok C w a g.
  Proof. intros H. now destruct (inv_of C (w, a) g q t H) as (HS & _). Qed.

  Lemma live_ptr C w a g q t r : shist JR ok C (w, a) g q t -> In r g -> 0 < r_ptr r /\ addr_ok (r_ptr r).
  Proof. intros H Hr. pose proof (sinv_ptr _ _ _ _ _ _ r (shist_sinv _ _ _ _ _ _ H) Hr). tauto. Qed.

  Lemma einv_plain C w a g q t : shist JR ok C (w, a) g q t -> einv C w a g [] q t.
  Proof.
    intros H. pose proof (shist_sinv _ _ _ _ _ _ H) as HS. split; [eauto|]. pose proof (sinv_nodup _ _ _ _ _ _ HS) as Hn.
    assert (Ho : ok (registered (filed g ++ []))).
    { eapply ok_sub; [apply (si_ok _ _ _ _ _ _ HS)|]. intros k. now rewrite app_nil_r, filed_keyed. }
    split; [|split; [exact Ho|intros k []]]. destruct (si_reg _ _ _ _ _ _ HS) as (g2 & Hh & HP). exists g2. split; auto.
    rewrite app_nil_r. split; [exact HP|]. intros k. destruct (find_in k g) as [(r & Hr & Ep)|Hno].
    - rewrite (proj1 (records_perm g2 g k Hn HP) r Hr Ep). symmetry. now apply (proj1 (records_perm (filed g) g k Hn (Permutation_refl _))).
    - rewrite (proj2 (records_perm g2 g k Hn HP) Hno). symmetry. now apply (proj2 (records_perm (filed g) g k Hn (Permutation_refl _))).
  Qed.

  (** *** The registry *)
  Lemma holds_insert a g x k r z : holds a g x -> addr_ok k -> ok (registered z) ->
    (forall y, same y (filed g ++ x) -> same ((k, r) :: y) z) ->
    exists a', am_insert JR k r a = Ok a' tt /\ exists y, ahist JR ok (y, a') /\ same y z.
  Proof.
    intros (y & Hy & Hs) Hk Ho Hz. specialize (Hz y Hs).
    destruct (at_insert JR sparse56 jrel jloc jplain judy_array_ok ok y a k r Hy Hk) as (a' & E). exists a'. split; [exact E|].
    exists ((k, r) :: y). split; [|exact Hz]. eapply ah_step; [exact Hy|apply (as_insert JR k r); auto; rewrite E; reflexivity|]. cbn [fst].
    eapply ok_sub; [exact Ho|]. intros j. apply (same_registered _ _ j Hz).
  Qed.

  Lemma holds_remove a g x k : holds a g x -> addr_ok k -> ok (registered (filed g ++ x)) ->
    exists a', am_remove JR k a = match records_at k (filed g ++ x) with r :: _ => Ok a' r | [] => Throw a' RuntimeError end /\
      exists y, ahist JR ok (y, a') /\ same y (drop_newest k (filed g ++ x)).
  Proof.
    intros (y & Hy & Hs) Hk Ho.
    destruct (at_remove JR sparse56 jrel jloc jplain judy_array_ok ok y a k Hy Hk) as (a' & E). exists a'.
    rewrite (proj2 Hs) in E. split; [exact E|]. exists (drop_newest k y). split; [|now apply same_drop].
    eapply ah_step; [exact Hy|apply (as_remove JR k); auto; rewrite E; destruct (records_at k _); reflexivity|]. cbn [fst].
    eapply ok_sub; [exact Ho|]. intros j Hj. apply drop_registered in Hj. now apply (same_registered _ _ j Hs).
  Qed.

  Lemma holds_look a a' g x : holds a g x -> ok (registered (filed g ++ x)) -> looks JR a a' -> holds a' g x.
  Proof.
    intros (y & Hy & Hs) Ho Hl. exists y. split; auto.
    assert (Ho' : ok (registered y)) by (eapply ok_sub; [exact Ho|]; intros j; apply (same_registered _ _ j Hs)).
    destruct Hl as [(p & Hp & [Ha|Ha])|[(fuel & addr & Hn & Ha)|(fuel & addr & addr' & s & Hn & Hn' & Hd & Ha)]].
    - eapply ah_step; [exact Hy|now apply (as_find JR p)|exact Ho'].
    - eapply ah_step; [exact Hy|now apply (as_contains JR p)|exact Ho'].
    - eapply ah_step; [exact Hy|now apply (as_records JR fuel addr)|exact Ho'].
    - eapply ah_step; [exact Hy|now apply (as_records_of JR fuel addr addr' s)|exact Ho'].
  Qed.

  (** *** Single calls *)
  Lemma einv_world C w a g x q t w' q' t' : einv C w a g x q t ->
    (forall a0, shist JR ok C (w, a0) g q t -> exists a1, shist JR ok C (w', a1) g q' t') -> einv C w' a g x q' t'.
  Proof. intros ((a0 & H) & R) Hs. split; [eauto|exact R]. Qed.

  Lemma einv_register C w a g x q t events k r sw' : einv C w a g x q t -> addr_ok k -> ~ keyed g k ->
    ext_register JR (C ++ boot) events k r (w, a) = Ok sw' tt -> ok (registered (filed g ++ (k, r) :: x)) ->
    einv C (fst sw') (snd sw') g ((k, r) :: x) q t.
  Proof.
    intros ((a0 & H) & Hh & Ho & Hx) Hk Hg E Ho'. unfold ext_register in E. destruct (events && _); [discriminate|].
    unfold sys_register in E. destruct (Z.eqb_spec k 0) as [|H0]; [discriminate|]. cbn [fst snd] in E.
    destruct (holds_insert a g x k r (filed g ++ (k, r) :: x) Hh Hk Ho') as (a' & E' & Hh'); [intros; now apply same_ext_cons|].
    rewrite E' in E. cbn [omap] in E. injection E as <-. cbn [fst snd]. split; [eauto|]. split; [exact Hh'|]. split; [exact Ho'|].
    intros j [<-|Hj]; [cbn [fst]; auto|now apply Hx].
  Qed.

  Lemma einv_register_throw C w a g x q t events k r sw' e : einv C w a g x q t -> addr_ok k ->
    ext_register JR (C ++ boot) events k r (w, a) = Throw sw' e -> sw' = (w, a) /\ k = 0 /\ e = RuntimeError.
  Proof.
    intros _ Hk E. unfold ext_register in E. destruct (events && _); [discriminate|].
    unfold sys_register in E. destruct (Z.eqb_spec k 0) as [->|H0]; [injection E as <- <-; auto|]. cbn [fst snd] in E.
    pose proof (insert_outcome k r a) as Ho. destruct (am_insert JR k r a); try discriminate. contradiction.
  Qed.

  Lemma einv_deregister C w a g x q t k : einv C w a g x q t -> addr_ok k -> ~ keyed g k ->
    exists a', ext_deregister JR (C ++ boot) k (w, a) = match records_at k x with r :: _ => Ok (w, a') r | [] => Throw (w, a') RuntimeError end /\
      einv C w a' g (drop_newest k x) q t.
  Proof.
    intros (H & Hh & Ho & Hx) Hk Hg. destruct (holds_remove a g x k Hh Hk Ho) as (a' & E & Hy). rewrite (records_ext k g x Hg) in E.
    rewrite (drop_ext k g x Hg) in Hy. exists a'. split.
    - unfold ext_deregister. cbn [fst snd]. rewrite E. destruct (records_at k x); reflexivity.
    - split; [exact H|]. split; [exact Hy|]. split.
      + eapply ok_sub; [exact Ho|]. intros j. rewrite !registered_app. intros [A|A]; [auto|right; eapply drop_registered; eauto].
      + intros j Hj. apply Hx. eapply drop_registered; eauto.
  Qed.

  Lemma raw_addr C w a0 g q t i n nm w1 p : shist JR ok C (w, a0) g q t -> usable (C ++ boot) i -> n = 0 \/ user_guard (C ++ boot) i n w ->
    raw_alloc C i n w = Ok w1 p -> p <> 0 -> addr_ok p /\ exists a', am_insert JR p (mkRec p n (Z.of_nat i) nm) a0 = Ok a' tt.
  Proof.
    intros H Hu Hn Er Hp. destruct (inv_of C (w, a0) g q t H) as (HS & _ & _ & HQ). cbn [fst snd] in HS.
    pose proof (sys_allocate_ok JR sparse56 jrel jloc jplain judy_array_ok ok Hok q C w a0 g i n nm HQ HS Hu Hn) as Ha.
    rewrite (alloc_calls C i n nm w a0), Er in Ha. destruct (Z.eqb_spec p 0); [contradiction|].
    pose proof (insert_outcome p (mkRec p n (Z.of_nat i) nm) a0) as Hi.
    destruct (am_insert JR p _ a0) as [a' []| | | |]; cbn [post] in Ha; try contradiction. split; [tauto|eauto].
  Qed.

  Lemma einv_alloc C w a g x q t i n nm sw' p : einv C w a g x q t -> usable (C ++ boot) i -> n = 0 \/ user_guard (C ++ boot) i n w ->
    sys_allocate JR (C ++ boot) i n nm (w, a) = Ok sw' p -> ~ registered x p ->
    ok (registered (filed (mkRec p n (Z.of_nat i) nm :: g) ++ x)) ->
    einv C (fst sw') (snd sw') (mkRec p n (Z.of_nat i) nm :: g) x q (snap (C ++ boot) (fst sw') :: t).
  Proof.
    intros ((a0 & H) & Hh & Ho & Hx) Hu Hn E Hp Ho'. rewrite alloc_calls in E.
    destruct (raw_alloc C i n w) as [w1 p1| | | |] eqn:Er; try discriminate. destruct (Z.eqb_spec p1 0) as [|H0]; [discriminate|].
    destruct (raw_addr C w a0 g q t i n nm w1 p1 H Hu Hn Er H0) as (Hap & a01 & E0).
    destruct (am_insert JR p1 _ a) as [a1 u| | | |] eqn:E1; try discriminate. injection E as <- ->. cbn [fst snd].
    assert (Hg0 : sys_allocate JR (C ++ boot) i n nm (w, a0) = Ok (gupd (C ++ boot) i (stats_add n) w1, a01) p).
    { rewrite alloc_calls, Er. destruct (Z.eqb_spec p 0); [contradiction|]. now rewrite E0. }
    split.
    - exists a01. eapply (sh_alloc JR ok C (w, a0) g q t i n nm _ p H Hu Hn Hg0).
      eapply ok_sub; [exact Ho'|]. intros k Hk. apply registered_app. left. now apply filed_keyed.
    - destruct (holds_insert a g x p (mkRec p n (Z.of_nat i) nm) (filed (mkRec p n (Z.of_nat i) nm :: g) ++ x) Hh Hap Ho') as (a' & E' & Hh').
      { intros y Hy. apply (same_cons p (mkRec p n (Z.of_nat i) nm) y (filed g ++ x) Hy). }
      rewrite E' in E1. injection E1 as <- _. split; [exact Hh'|]. split; [exact Ho'|].
      intros k Hk. destruct (Hx k Hk) as (A & B & D). split; auto. split; auto. intros (r & [<-|Hr] & Er'); [cbn [r_ptr] in Er'; congruence|].
      apply D. exists r. auto.
  Qed.

  Lemma einv_alloc_throw C w a g x q t i n nm sw' e : einv C w a g x q t -> usable (C ++ boot) i -> n = 0 \/ user_guard (C ++ boot) i n w ->
    sys_allocate JR (C ++ boot) i n nm (w, a) = Throw sw' e ->
    einv C (fst sw') (snd sw') g x q (snap (C ++ boot) (fst sw') :: t).
  Proof.
    intros HE Hu Hn E. rewrite alloc_calls in E.
    assert (Ha : snd sw' = a /\ forall a0, sys_allocate JR (C ++ boot) i n nm (w, a0) = Throw (fst sw', a0) e).
    { setoid_rewrite alloc_calls. destruct (raw_alloc C i n w) as [w1 p1|w1 e1| | |] eqn:Er; try discriminate.
      - destruct (Z.eqb_spec p1 0) as [|H0]; [injection E as <- <-; auto|].
        pose proof (insert_outcome p1 (mkRec p1 n (Z.of_nat i) nm) a) as Hi. destruct (am_insert JR p1 _ a); try discriminate. contradiction.
      - injection E as <- <-. auto. }
    destruct Ha as [-> Ha]. apply (einv_world C w a g x q t); auto. intros a0 H.
    exists a0. apply (sh_alloc_throw JR ok C (w, a0) g q t i n nm _ e H Hu Hn (Ha a0)).
  Qed.

  (** A deallocation of an address that is not external. *)
  Lemma einv_free C w a g x q t i p sw' : einv C w a g x q t -> usable (C ++ boot) i -> addr_ok p -> ~ registered x p ->
    (sys_deallocate JR (C ++ boot) i p (w, a) = Ok sw' tt -> einv C (fst sw') (snd sw') (forget p g) x q (snap (C ++ boot) (fst sw') :: t)) /\
    (forall e, sys_deallocate JR (C ++ boot) i p (w, a) = Throw sw' e -> einv C (fst sw') (snd sw') (gone i p g) x q (snap (C ++ boot) (fst sw') :: t)).
  Proof.
    intros HE Hu Hp Hpx. pose proof HE as ((a0 & H) & Hh & Ho & Hx). pose proof (shist_sinv _ _ _ _ _ _ H) as HS.
    pose proof (sinv_nodup _ _ _ _ _ _ HS) as Hn.
    destruct (Z.eq_dec p 0) as [->|H0].
    { assert (Hno : forall r, In r g -> r_ptr r <> 0) by (intros r Hr; pose proof (live_ptr _ _ _ _ _ _ r H Hr); lia).
      split; [|intros e E; discriminate E]. intros E. injection E as <-. rewrite (forget_absent 0 g Hno). cbn [fst snd].
      apply (einv_world C w a g x q t); auto. intros a1 H1.
      exists a1. pose proof (sh_free JR ok C (w, a1) g q t i 0 (w, a1) H1 Hu Hp eq_refl) as H2. now rewrite (forget_absent 0 g Hno) in H2. }
    destruct (holds_remove a g x p Hh Hp Ho) as (a1 & E1 & Hy1).
    destruct (find_in p g) as [(r & Hr & Ep)|Hno].
    - rewrite (records_filed p r g x Hn Hr Ep Hpx) in E1. assert (Hkp : keyed g p) by (exists r; auto).
      rewrite (drop_filed p g x Hkp) in Hy1.
      destruct (remove_ok JR sparse56 jrel jloc jplain judy_array_ok ok Hok C w a0 g p HS Hp) as (a01 & Hin & _).
      destruct (Hin r Hr Ep) as (E0 & _ & a02 & E02 & _).
      assert (Hx' : forall k, registered x k -> addr_ok k /\ k <> 0 /\ ~ keyed (forget p g) k).
      { intros k Hk. destruct (Hx k Hk) as (A & B & D). split; auto. split; auto. intros (r' & A' & B'). apply D. exists r'. split; auto.
        eapply forget_in; eauto. }
      assert (Ho' : ok (registered (filed (forget p g) ++ x))).
      { eapply ok_sub; [exact Ho|]. intros k. rewrite !registered_app, !filed_keyed. intros [(r' & A' & B')|A]; [left|auto].
        exists r'. split; auto. eapply forget_in; eauto. }
      destruct (Z.eq_dec (r_strat r) (Z.of_nat i)) as [Es|Es].
      + rewrite (free_own C i p w a a1 r H0 E1 Es).
        pose proof (free_own C i p w a0 a01 r H0 E0 Es) as F0.
        destruct (raw_free C i p (r_size r) w) as [w' []|w' e'| | |] eqn:Ef; cbn [omap] in F0 |- *; split; try discriminate;
          [intros E; injection E as <-|intros e E; injection E as <- <-]; cbn [fst snd].
        * split; [|split; [exact Hy1|split; [exact Ho'|exact Hx']]]. exists a01. apply (sh_free JR ok C (w, a0) g q t i p (w', a01) H Hu Hp F0).
        * rewrite (gone_own i p g r Hn Hr Ep Es). split; [|split; [exact Hy1|split; [exact Ho'|exact Hx']]]. exists a01.
          rewrite <- (gone_own i p g r Hn Hr Ep Es). apply (sh_free_throw JR ok C (w, a0) g q t i p (w', a01) e' H Hu Hp F0).
      + rewrite (free_other C i p w a a1 r H0 E1 Es).
        assert (Er : mkRec p (r_size r) (r_strat r) (r_name r) = r) by (destruct r; cbn in *; now subst). rewrite Er.
        assert (Hno : forall r', In r' g -> r_ptr r' = p -> r_strat r' <> Z.of_nat i).
        { intros r' Hr' Ep'. assert (r' = r) as ->; [|exact Es].
          pose proof (proj1 (records_perm (filed g) g p Hn (Permutation_refl _)) r Hr Ep) as A.
          pose proof (proj1 (records_perm (filed g) g p Hn (Permutation_refl _)) r' Hr' Ep') as B. congruence. }
        assert (Hs2 : same ((p, r) :: filed (forget p g) ++ x) (filed g ++ x)).
        { split.
          - change ((p, r) :: filed (forget p g) ++ x) with (((p, r) :: filed (forget p g)) ++ x). apply Permutation_app_tail.
            rewrite <- Ep. symmetry. apply (reg_perm _ _ (forget_perm r g Hn Hr)).
          - intros k. rewrite records_at_cons, <- (drop_filed p g x Hkp), records_at_drop, (records_filed p r g x Hn Hr Ep Hpx). cbn [tl].
            destruct (Z.eqb_spec p k) as [<-|]; [rewrite Z.eqb_refl; symmetry; apply (records_filed p r g x Hn Hr Ep Hpx)|].
            destruct (Z.eqb_spec k p); [congruence|reflexivity]. }
        destruct (holds_insert a1 (forget p g) x p r (filed g ++ x) Hy1 Hp Ho) as (a2 & E2 & Hy2).
        { intros y Hy. pose proof (same_cons p r _ _ Hy) as [P1 P2]. destruct Hs2 as [Q1 Q2]. split; [now rewrite P1|intros k; now rewrite P2]. }
        rewrite E2. split; [discriminate|]. intros e E. injection E as <- <-. rewrite (gone_other i p g Hno). cbn [fst snd].
        destruct (sy_wrong ok Hok C (w, a0) g q t i p H Hu Hp H0 Hno) as (a03 & _ & H3 & _). cbn [fst] in H3.
        split; [eauto|]. split; [exact Hy2|]. split; [exact Ho|exact Hx].
    - assert (Hk : ~ keyed g p) by (intros (r & A & B); exact (Hno r A B)).
      rewrite (records_ext p g x Hk), (records_absent p x Hpx) in E1.
      rewrite (drop_newest_absent p (filed g ++ x)) in Hy1 by (rewrite (records_ext p g x Hk); now apply records_absent).
      rewrite (free_absent C i p w a a1 _ H0 E1). split; [discriminate|]. intros e E. injection E as <- <-. cbn [fst snd].
      assert (Hno' : forall r, In r g -> r_ptr r = p -> r_strat r <> Z.of_nat i) by (intros r Hr Ep; elim (Hno r Hr Ep)).
      rewrite (gone_other i p g Hno').
      destruct (sy_wrong ok Hok C (w, a0) g q t i p H Hu Hp H0 Hno') as (a03 & _ & H3 & _). cbn [fst] in H3.
      split; [eauto|]. split; [exact Hy1|]. split; [exact Ho|exact Hx].
  Qed.

  (** Deallocation through the resource manager. *)
  Lemma rm_find C w (a : amap JR) p :
    find_allocator JR (C ++ boot) p (w, a) =
      match am_find JR p a with
      | Ok a' r => if r_strat r =? no_strategy then Throw (w, a') RuntimeError else Ok (w, a') (Z.to_nat (r_strat r))
      | Throw a' e => Throw (w, a') e
      | UB => UB | Abort => Abort | NoFuel => NoFuel
      end.
  Proof. unfold find_allocator. cbn [fst snd]. destruct (am_find JR p a); reflexivity. Qed.

  Lemma rm_calls C w (a : amap JR) p sw' : left_by JR (rm_free JR (C ++ boot) p (w, a)) sw' ->
    exists a', MapSpec.after JR (am_find JR p a) a' /\
      (sw' = (w, a') /\ (forall a2 r, am_find JR p a = Ok a2 r -> r_strat r = no_strategy) \/
       exists r, am_find JR p a = Ok a' r /\ r_strat r <> no_strategy /\
         left_by JR (sys_deallocate JR (C ++ boot) (Z.to_nat (r_strat r)) p (w, a')) sw').
  Proof.
    unfold rm_free. rewrite rm_find. destruct (am_find JR p a) as [a' r|a' e| | |]; cbn [bind left_by]; try contradiction.
    - destruct (Z.eqb_spec (r_strat r) no_strategy) as [E|E]; cbn [bind left_by]; intros H.
      + exists a'. split; [reflexivity|]. left. split; auto. intros a2 r' E'. congruence.
      + exists a'. split; [reflexivity|]. right. exists r. auto.
    - intros H. exists a'. split; [reflexivity|]. left. split; auto. intros a2 r' E'. discriminate.
  Qed.

  Lemma find_own C w a g x q t r : einv C w a g x q t -> In r g -> exists a', am_find JR (r_ptr r) a = Ok a' r.
  Proof.
    intros ((a0 & H) & (y & Hy & Hs) & Ho & Hx) Hr. destruct (live_ptr _ _ _ _ _ _ r H Hr) as [_ Hp].
    assert (Hpx : ~ registered x (r_ptr r)) by (intros A; apply (proj2 (proj2 (Hx _ A))); exists r; auto).
    pose proof (records_filed (r_ptr r) r g x (sinv_nodup _ _ _ _ _ _ (shist_sinv _ _ _ _ _ _ H)) Hr eq_refl Hpx) as E.
    rewrite <- (proj2 Hs) in E.
    destruct (at_find_exact JR sparse56 jrel jloc jplain judy_array_ok ok y a (r_ptr r) r [] Hy Hp E eq_refl) as (a' & F).
    exists a'. unfold am_find. now rewrite F.
  Qed.

  Lemma find_ext C w a g x q t k r rs : einv C w a g x q t -> records_at k x = r :: rs -> r_ptr r = k -> exists a', am_find JR k a = Ok a' r.
  Proof.
    intros (_ & (y & Hy & Hs) & Ho & Hx) E Ep. destruct (Hx k (records_present _ _ _ _ E)) as (Hk & _ & Hg).
    rewrite <- (records_ext k g x Hg), <- (proj2 Hs) in E.
    destruct (at_find_exact JR sparse56 jrel jloc jplain judy_array_ok ok y a k r rs Hy Hk E Ep) as (a' & F).
    exists a'. unfold am_find. now rewrite F.
  Qed.

  Lemma einv_look C w a g x q t a' : einv C w a g x q t -> looks JR a a' -> einv C w a' g x q t.
  Proof. intros (H & Hh & Ho & Hx) Hl. split; auto. split; [eapply holds_look; eauto|auto]. Qed.

  Lemma free_changes C i p w (a : amap JR) sw' : p <> 0 -> left_by JR (sys_deallocate JR (C ++ boot) i p (w, a)) sw' ->
    (forall a1 e, am_remove JR p a = Throw a1 e -> sw' = (w, a1)).
  Proof. intros H0 H a1 e E. rewrite (free_absent C i p w a a1 e H0 E) in H. symmetry. exact H. Qed.

  Lemma einv_rm C w a g x q t p sw' : einv C w a g x q t -> addr_ok p -> ~ registered x p ->
    left_by JR (rm_free JR (C ++ boot) p (w, a)) sw' ->
    einv C (fst sw') (snd sw') (forget p g) x q (snap (C ++ boot) (fst sw') :: t).
  Proof.
    intros HE Hp Hpx Hl. pose proof HE as ((a0 & H) & _). pose proof (shist_sinv _ _ _ _ _ _ H) as HS. pose proof (sinv_nodup _ _ _ _ _ _ HS) as Hn.
    destruct (rm_calls C w a p sw' Hl) as (a' & Ha & Hc).
    assert (Hlk : looks JR a a') by (left; exists p; auto).
    pose proof (einv_look C w a g x q t a' HE Hlk) as HE'.
    destruct (find_in p g) as [(r & Hr & Ep)|Hno].
    - destruct (find_own C w a g x q t r HE Hr) as (a2 & E2). rewrite Ep in E2.
      destruct (si_strat _ _ _ _ _ _ HS r Hr) as (Hu & H0 & _).
      destruct Hc as [[-> Hc]|(r' & E' & Hs & Hf)].
      + specialize (Hc a2 r E2). unfold no_strategy in Hc. lia.
      + assert (r' = r) by congruence. subst r'.
        destruct (einv_free C w a' g x q t (Z.to_nat (r_strat r)) p sw' HE' Hu Hp Hpx) as [F1 F2].
        unfold left_by in Hf. destruct (sys_deallocate JR (C ++ boot) (Z.to_nat (r_strat r)) p (w, a')) as [s []|s e| | |]; try contradiction; subst s.
        * now apply F1.
        * rewrite <- (gone_own (Z.to_nat (r_strat r)) p g r Hn Hr Ep ltac:(lia)). now apply (F2 e).
    - rewrite (forget_absent p g Hno).
      assert (Hsame : fst sw' = w /\ holds (snd sw') g x).
      { destruct HE' as (_ & Hh' & Ho & Hx). destruct Hc as [[-> _]|(r' & _ & _ & Hf)]; [auto|].
        destruct (Z.eq_dec p 0) as [->|Hp0]; [cbn in Hf; subst sw'; auto|].
        assert (Hk : ~ keyed g p) by (intros (r & A & B); exact (Hno r A B)).
        destruct (holds_remove a' g x p Hh' Hp Ho) as (a1 & E1 & Hy1).
        rewrite (records_ext p g x Hk), (records_absent p x Hpx) in E1.
        rewrite (drop_newest_absent p (filed g ++ x)) in Hy1 by (rewrite (records_ext p g x Hk); now apply records_absent).
        rewrite (free_changes C _ p w a' sw' Hp0 Hf a1 _ E1). auto. }
      destruct Hsame as [-> Hh'].
      assert (Hu : usable (C ++ boot) host_id) by (now left).
      assert (HE2 : einv C w (snd sw') g x q t) by (destruct HE as (A & _ & B); split; auto).
      apply (einv_world C w (snd sw') g x q t); auto. intros a1 H1.
      destruct (Z.eq_dec p 0) as [->|Hp0].
      + exists a1. pose proof (sh_free JR ok C (w, a1) g q t host_id 0 (w, a1) H1 Hu Hp eq_refl) as H2. now rewrite (forget_absent 0 g Hno) in H2.
      + destruct (sy_wrong ok Hok C (w, a1) g q t host_id p H1 Hu Hp Hp0) as (a2 & _ & H3 & _); [|eauto].
        intros r Hr Ep. elim (Hno r Hr Ep).
  Qed.

  Lemma realloc_calls C p n w (a a1 : amap JR) r : am_remove JR p a = Ok a1 r ->
    sys_host_realloc JR (C ++ boot) p n (w, a) =
      match host_realloc (C ++ boot) p (r_size r) n w with
      | Ok w1 q => if q =? 0 then Throw (w1, a1) RuntimeError
                   else match am_insert JR q (mkRec q n (Z.of_nat host_id) 0) a1 with
                        | Ok a2 _ => Ok (w1, a2) q | Throw a2 e => Throw (w1, a2) e | UB => UB | Abort => Abort | NoFuel => NoFuel
                        end
      | Throw w1 e => Throw (w1, a1) e
      | UB => UB | Abort => Abort | NoFuel => NoFuel
      end.
  Proof.
    intros E. unfold sys_host_realloc. cbn [fst snd]. rewrite E. cbn [omap bind fst snd].
    destruct (host_realloc (C ++ boot) p (r_size r) n w) as [w1 q| | | |]; cbn [omap bind]; try reflexivity.
    unfold sys_register. cbn [fst snd]. destruct (q =? 0); [reflexivity|]. destruct (am_insert JR q _ a1); reflexivity.
  Qed.

  Lemma einv_realloc C w a g x q t r n sw' p : einv C w a g x q t -> In r g -> r_strat r = Z.of_nat host_id -> r_size r <> 0 -> 0 < n < M64 ->
    sys_host_realloc JR (C ++ boot) (r_ptr r) n (w, a) = Ok sw' p -> ~ registered x p ->
    ok (registered (filed (mkRec p n (Z.of_nat host_id) 0 :: forget (r_ptr r) g) ++ x)) ->
    einv C (fst sw') (snd sw') (mkRec p n (Z.of_nat host_id) 0 :: forget (r_ptr r) g) x (host_id :: q) (snap (C ++ boot) (fst sw') :: t).
  Proof.
    intros ((a0 & H) & Hh & Ho & Hx) Hr Es Hsz Hn E Hpx Ho'. pose proof (shist_sinv _ _ _ _ _ _ H) as HS. pose proof (sinv_nodup _ _ _ _ _ _ HS) as Hnd.
    destruct (live_ptr _ _ _ _ _ _ r H Hr) as [_ Hp]. assert (Hkp : keyed g (r_ptr r)) by (exists r; auto).
    assert (Hrx : ~ registered x (r_ptr r)) by (intros A; now apply (proj2 (proj2 (Hx _ A)))).
    destruct (holds_remove a g x (r_ptr r) Hh Hp Ho) as (a1 & E1 & Hy1).
    rewrite (records_filed (r_ptr r) r g x Hnd Hr eq_refl Hrx) in E1. rewrite (drop_filed _ g x Hkp) in Hy1.
    destruct (remove_ok JR sparse56 jrel jloc jplain judy_array_ok ok Hok C w a0 g (r_ptr r) HS Hp) as (a01 & Hin & _).
    destruct (Hin r Hr eq_refl) as (E0 & _).
    rewrite (realloc_calls C _ n w a a1 r E1) in E.
    destruct (inv_of C (w, a0) g q t H) as (_ & _ & _ & HQ).
    pose proof (sys_host_realloc_ok JR sparse56 jrel jloc jplain judy_array_ok ok Hok q C w a0 g r n HQ HS Hr Es Hsz Hn) as Ha.
    pose proof (realloc_calls C (r_ptr r) n w a0 a01 r E0) as E00. rewrite E00 in Ha.
    destruct (host_realloc (C ++ boot) (r_ptr r) (r_size r) n w) as [w1 p1| | | |]; try discriminate.
    destruct (Z.eqb_spec p1 0) as [|H0]; [discriminate|].
    pose proof (insert_outcome p1 (mkRec p1 n (Z.of_nat host_id) 0) a01) as Hi.
    destruct (am_insert JR p1 (mkRec p1 n (Z.of_nat host_id) 0) a01) as [a02 []| | | |] eqn:E02; cbn [post] in Ha; try contradiction.
    destruct Ha as (Hap & _).
    destruct (am_insert JR p1 (mkRec p1 n (Z.of_nat host_id) 0) a1) as [a2 u| | | |] eqn:E2; try discriminate. injection E as <- ->. cbn [fst snd].
    split.
    - exists a02. apply (sh_realloc JR ok C (w, a0) g q t r n (w1, a02) p H Hr Es Hsz Hn E00).
      eapply ok_sub; [exact Ho'|]. intros k Hk. apply registered_app. left. now apply filed_keyed.
    - set (r2 := mkRec p n (Z.of_nat host_id) 0) in *.
      destruct (holds_insert a1 (forget (r_ptr r) g) x p r2 (filed (r2 :: forget (r_ptr r) g) ++ x) Hy1 Hap Ho') as (a' & E' & Hh').
      { intros y Hy. apply (same_cons p r2 y (filed (forget (r_ptr r) g) ++ x) Hy). }
      rewrite E' in E2. injection E2 as <- _. split; [exact Hh'|]. split; [exact Ho'|].
      intros k Hk. destruct (Hx k Hk) as (A & B & D). split; auto. split; auto. intros (r' & [<-|Hr'] & Er'); [cbn [r_ptr r2] in Er'; unfold r2 in Er'; cbn [r_ptr] in Er'; congruence|].
      apply D. exists r'. split; auto. eapply forget_in; eauto.
  Qed.

  Lemma left_world C {A} (o : gworld (C ++ boot) -> outcome (gworld (C ++ boot)) A) w (a : amap JR) sw' :
    left_by JR (omap (fun w' => (w', a)) (fun u => u) (o w)) sw' ->
    snd sw' = a /\ forall a0 : amap JR, left_by JR (omap (fun w' => (w', a0)) (fun u => u) (o w)) (fst sw', a0).
  Proof. destruct (o w); cbn; intros H; try contradiction; subst sw'; auto. Qed.

  Theorem ehist_inv C sw g x q t : ehist JR ok C sw g x q t -> einv C (fst sw) (snd sw) g x q t.
  Proof.
    induction 1 as [C sw g q t H|C sw g x q t events k r sw' H IH Hk Hg E Ho|C sw g x q t events k r sw' e H IH Hk E|C sw g x q t k sw' H IH Hk Hg E
      |C w a g x q t c w' v H IH Hn Hu E|C w a g x q t c w' e H IH Hn Hu E
      |C sw g x q t i n nm sw' p H IH Hu Hg E Hp Ho|C sw g x q t i n nm sw' e H IH Hu Hg E
      |C sw g x q t i p sw' H IH Hu Hp Hx E|C sw g x q t i p sw' e H IH Hu Hp Hx E
      |C sw g x q t p sw' H IH Hp Hx E
      |C sw g x q t i sw' H IH Hu E|C sw g x q t i sw' H IH Hu E
      |C sw g x q t r n sw' p H IH Hr Es Hsz Hn E Hx Ho
      |C w a g x q t a' H IH Hl]; try (destruct sw as [w a]; cbn [fst snd] in * ).
    - now apply einv_plain.
    - eapply einv_register; eauto.
    - destruct (einv_register_throw C w a g x q t events k r sw' e IH Hk E) as (-> & _). exact IH.
    - destruct (einv_deregister C w a g x q t k IH Hk Hg) as (a' & E' & HE). rewrite E' in E.
      destruct (records_at k x); cbn [left_by] in E; subst sw'; exact HE.
    - cbn [fst snd] in *. destruct IH as ((a0 & H0) & R). split; [|exact R]. exists a0. eapply sh_create; eauto.
    - cbn [fst snd] in *. apply (einv_world C w a g x q t); auto. intros a0 H0. exists a0. eapply sh_create_throw; eauto.
    - eapply einv_alloc; eauto.
    - eapply einv_alloc_throw; eauto.
    - apply (proj1 (einv_free C w a g x q t i p sw' IH Hu Hp Hx) E).
    - apply (proj2 (einv_free C w a g x q t i p sw' IH Hu Hp Hx) e E).
    - eapply einv_rm; eauto.
    - destruct (left_world C (grelease (C ++ boot) i) w a sw' E) as [-> Hl].
      apply (einv_world C w a g x q t); auto. intros a0 H0. exists a0. apply (sh_release JR ok C (w, a0) g q t i (fst sw', a0) H0 Hu (Hl a0)).
    - destruct (left_world C (gcoalesce (C ++ boot) i) w a sw' E) as [-> Hl].
      apply (einv_world C w a g x q t); auto. intros a0 H0. exists a0. apply (sh_coalesce JR ok C (w, a0) g q t i (fst sw', a0) H0 Hu (Hl a0)).
    - eapply einv_realloc; eauto.
    - eapply einv_look; eauto.
  Qed.
End Inv.

(** ** The properties *)
Section Thms.
  Context (ok : (Z -> Prop) -> Prop) (Hok : monotone ok).

  Lemma ex_without C sw g x q t : ehist JR ok C sw g x q t -> exists a, shist JR ok C (fst sw, a) g q t.
  Proof. intros H. now destruct (ehist_inv ok Hok C sw g x q t H) as (H0 & _). Qed.

  Lemma ex_statistics C sw g x q t i : ehist JR ok C sw g x q t -> (i <= length (C ++ boot))%nat -> ~ In i q -> never_null (kind_at (C ++ boot) i) ->
    allocation_count (C ++ boot) i (fst sw) = Z.of_nat (length (mine i g)) /\
    (own_stats (kind_at (C ++ boot) i) -> current_size (C ++ boot) i (fst sw) = bytes (mine i g)).
  Proof.
    intros H Hi Hq Hn. destruct (ex_without _ _ _ _ _ _ H) as (a & H0). split.
    - apply (sy_count ok Hok C (fst sw, a) g q t i H0 Hi Hq Hn).
    - intros Ho. apply (sy_current_size ok Hok C (fst sw, a) g q t i H0 Hi Hq Hn Ho).
  Qed.

  Lemma ex_registry C sw g x q t : ehist JR ok C sw g x q t ->
    (forall r, In r g -> exists a', am_find JR (r_ptr r) (snd sw) = Ok a' r) /\
    (forall k r rs, records_at k x = r :: rs -> r_ptr r = k -> exists a', am_find JR k (snd sw) = Ok a' r) /\
    am_size JR (snd sw) = w64 (Z.of_nat (length g + length x)) /\
    forall fuel addr, (length g + length x < fuel)%nat -> addr <> 0 ->
      (exists a' l, am_records JR fuel addr (snd sw) = Ok a' l /\ Permutation l (g ++ map snd x)) /\
      forall addr' s, exists a' l, am_records_of JR fuel addr addr' s (snd sw) = Ok a' l /\
        Permutation l (filter (fun r => r_strat r =? s) (g ++ map snd x)).
  Proof.
    intros H. pose proof (ehist_inv ok Hok C sw g x q t H) as HE. destruct sw as [w a]. cbn [fst snd] in *.
    split; [intros r Hr; eapply find_own; eauto|]. split; [intros k r rs E Ep; eapply find_ext; eauto|].
    destruct HE as ((a0 & H0) & (y & Hy & Hs & Hs2) & Ho & Hx).
    assert (El : length y = (length g + length x)%nat) by (rewrite (Permutation_length Hs), app_length; unfold filed; now rewrite map_length).
    split; [rewrite (at_size JR sparse56 jrel jloc jplain judy_array_ok ok y a Hy), El; reflexivity|].
    assert (Hz : ~ registered y 0).
    { intros Hr. apply (same_registered y _ 0 (conj Hs Hs2)) in Hr. apply registered_app in Hr as [Hr|Hr].
      - apply filed_keyed in Hr as (r & Hr & E). pose proof (live_ptr ok Hok _ _ _ _ _ _ r H0 Hr). lia.
      - destruct (Hx 0 Hr) as (_ & Hz & _). congruence. }
    assert (Hm : Permutation (map snd y) (g ++ map snd x)).
    { rewrite (Permutation_map snd Hs), map_app. unfold filed. rewrite map_map. cbn [snd]. now rewrite map_id. }
    intros fuel addr Hf Ha. split.
    - destruct (at_records JR sparse56 jrel jloc jplain judy_array_ok ok y a fuel addr Hy Hz ltac:(lia) Ha) as (a' & l & E & Pl & _).
      exists a', l. split; [exact E|]. now rewrite Pl.
    - intros addr' s. destruct (at_records_of JR sparse56 jrel jloc jplain judy_array_ok ok y a fuel addr addr' s Hy Hz ltac:(lia) Ha) as (a' & l & E & Pl).
      exists a', l. split; [exact E|]. rewrite Pl. now apply Permutation_filter.
  Qed.

  Lemma ex_register C sw g x q t events k r : ehist JR ok C sw g x q t -> addr_ok k -> ~ keyed g k -> (events = true -> r_strat r <> no_strategy) ->
    ok (registered (filed g ++ (k, r) :: x)) ->
    if k =? 0 then ext_register JR (C ++ boot) events k r sw = Throw sw RuntimeError
    else exists a', ext_register JR (C ++ boot) events k r sw = Ok (fst sw, a') tt /\ ehist JR ok C (fst sw, a') g ((k, r) :: x) q t.
  Proof.
    intros H Hk Hg Hs Ho. pose proof (ehist_inv ok Hok C sw g x q t H) as HE. destruct sw as [w a]. cbn [fst snd] in *.
    assert (E1 : ext_register JR (C ++ boot) events k r (w, a) = sys_register JR (C ++ boot) k r (w, a)).
    { unfold ext_register. destruct events; auto. destruct (Z.eqb_spec (r_strat r) no_strategy); [elim Hs; auto|reflexivity]. }
    rewrite E1. unfold sys_register in *. destruct (Z.eqb_spec k 0) as [|H0]; [reflexivity|]. cbn [fst snd] in *.
    destruct HE as (_ & Hh & _). destruct (holds_insert ok Hok a g x k r (filed g ++ (k, r) :: x) Hh Hk Ho) as (a' & E' & _); [intros; now apply same_ext_cons|].
    rewrite E' in *. cbn [omap] in *. exists a'. split; [reflexivity|]. eapply eh_register; eauto.
  Qed.

  Lemma ex_deregister C sw g x q t k : ehist JR ok C sw g x q t -> addr_ok k -> ~ keyed g k ->
    exists a', ext_deregister JR (C ++ boot) k sw = match records_at k x with r :: _ => Ok (fst sw, a') r | [] => Throw (fst sw, a') RuntimeError end /\
      ehist JR ok C (fst sw, a') g (drop_newest k x) q t.
  Proof.
    intros H Hk Hg. pose proof (ehist_inv ok Hok C sw g x q t H) as HE. destruct sw as [w a]. cbn [fst snd] in *.
    destruct (einv_deregister ok Hok C w a g x q t k HE Hk Hg) as (a' & E & _). exists a'. split; [exact E|].
    eapply eh_deregister; eauto. rewrite E. destruct (records_at k x); reflexivity.
  Qed.

  Lemma ex_free C sw g x q t r : ehist JR ok C sw g x q t -> In r g ->
    post (sys_deallocate JR (C ++ boot) (Z.to_nat (r_strat r)) (r_ptr r) sw)
      (fun sw' _ => ehist JR ok C sw' (forget (r_ptr r) g) x q (snap (C ++ boot) (fst sw') :: t))
      (fun sw' _ => coalescing (kind_at (C ++ boot) (Z.to_nat (r_strat r))) /\
         ehist JR ok C sw' (forget (r_ptr r) g) x q (snap (C ++ boot) (fst sw') :: t)).
  Proof.
    intros H Hr. pose proof (ehist_inv ok Hok C sw g x q t H) as ((a0 & H0) & Hh & Ho & Hx). destruct sw as [w a]. cbn [fst snd] in *.
    pose proof (shist_sinv ok Hok _ _ _ _ _ _ H0) as HS. pose proof (sinv_nodup _ _ _ _ _ _ HS) as Hn.
    destruct (si_strat _ _ _ _ _ _ HS r Hr) as (Hu & Hs0 & _). destruct (live_ptr ok Hok _ _ _ _ _ _ r H0 Hr) as [Hp0 Hp].
    assert (Hrx : ~ registered x (r_ptr r)) by (intros A; apply (proj2 (proj2 (Hx _ A))); exists r; auto).
    set (i := Z.to_nat (r_strat r)) in *. assert (Es : r_strat r = Z.of_nat i) by (unfold i; lia).
    destruct (holds_remove ok Hok a g x (r_ptr r) Hh Hp Ho) as (a1 & E1 & _). rewrite (records_filed (r_ptr r) r g x Hn Hr eq_refl Hrx) in E1.
    destruct (remove_ok JR sparse56 jrel jloc jplain judy_array_ok ok Hok C w a0 g (r_ptr r) HS Hp) as (a01 & Hin & _).
    destruct (Hin r Hr eq_refl) as (E0 & _).
    pose proof (sy_right ok Hok C (w, a0) g q t r H0 Hr) as HR. fold i in HR.
    rewrite (free_own C i (r_ptr r) w a0 a01 r ltac:(lia) E0 Es) in HR.
    pose proof (free_own C i (r_ptr r) w a a1 r ltac:(lia) E1 Es) as EF.
    destruct (raw_free C i (r_ptr r) (r_size r) w) as [w' []|w' e| | |]; cbn [omap post] in HR, EF |- *; rewrite EF; cbn [post]; auto.
    - eapply eh_free; eauto.
    - destruct HR as [Hc _]. split; [exact Hc|]. rewrite <- (gone_own i (r_ptr r) g r Hn Hr eq_refl Es). eapply eh_free_throw; eauto.
  Qed.

  Lemma ex_no_strategy C sw g x q t k r rs : ehist JR ok C sw g x q t -> records_at k x = r :: rs -> r_ptr r = k -> r_strat r = no_strategy ->
    exists a', find_allocator JR (C ++ boot) k sw = Throw (fst sw, a') RuntimeError /\ rm_free JR (C ++ boot) k sw = Throw (fst sw, a') RuntimeError /\
      rm_get_size JR (C ++ boot) k sw = Ok (fst sw, a') (r_size r).
  Proof.
    intros H E Ep Es. destruct (ex_registry C sw g x q t H) as (_ & F & _). destruct (F k r rs E Ep) as (a' & Ef). destruct sw as [w a].
    exists a'. cbn [fst snd] in *. assert (E1 : find_allocator JR (C ++ boot) k (w, a) = Throw (w, a') RuntimeError).
    { rewrite rm_find, Ef, Es. reflexivity. }
    split; [exact E1|]. split; [unfold rm_free; rewrite E1; reflexivity|]. unfold rm_get_size. cbn [fst snd]. rewrite Ef. reflexivity.
  Qed.
End Thms.

Lemma ex_lookup C sw g x q t p : ehist JR sparse56 C sw g x q t -> tidy (filed g ++ x) -> addr_ok p ->
  (forall r, In r (g ++ map snd x) -> covers r p -> exists a',
     has_allocator JR (C ++ boot) p sw = Ok (fst sw, a') true /\ rm_get_size JR (C ++ boot) p sw = Ok (fst sw, a') (r_size r) /\
     find_allocator JR (C ++ boot) p sw =
       if r_strat r =? no_strategy then Throw (fst sw, a') RuntimeError else Ok (fst sw, a') (Z.to_nat (r_strat r))) /\
  ((forall r, In r (g ++ map snd x) -> ~ covers r p) -> exists a',
     has_allocator JR (C ++ boot) p sw = Ok (fst sw, a') false /\ find_allocator JR (C ++ boot) p sw = Throw (fst sw, a') UnknownPointer).
Proof.
  intros H Ht Hp. pose proof (ehist_inv sparse56 sparse56_monotone C sw g x q t H) as (_ & (y & Hy & Hs & _) & _ & _).
  destruct sw as [w a]. cbn [fst snd] in *.
  assert (Hty : tidy y).
  { destruct Ht as [T1 T2]. split; [intros k r Hi; apply T1; eapply Permutation_in; [exact Hs|exact Hi]|].
    eapply (pairwise_perm (fun a b => forall x, ~ (covers (snd a) x /\ covers (snd b) x))); [|apply Permutation_sym, Hs|exact T2].
    intros u v Hd z [H1 H2]. apply (Hd z). auto. }
  assert (Hin : forall r, (exists k, In (k, r) y) <-> In r (g ++ map snd x)).
  { intros r. assert (Hm : Permutation (map snd y) (g ++ map snd x)).
    { rewrite (Permutation_map snd Hs), map_app. unfold filed. rewrite map_map. cbn [snd]. now rewrite map_id. }
    split.
    - intros (k & Hk). eapply Permutation_in; [exact Hm|]. apply in_map_iff. exists (k, r). auto.
    - intros Hr. apply (Permutation_in _ (Permutation_sym Hm)) in Hr. apply in_map_iff in Hr as ((k & r') & E & Hr). cbn in E. subst r'. eauto. }
  destruct (mp_lookup y a p Hy Hty Hp) as [L1 L2]. split.
  - intros r Hr Hc. destruct (proj2 (Hin r) Hr) as (k & Hk). destruct (L1 k r Hk Hc) as (a' & E1 & E2). exists a'.
    unfold has_allocator, rm_get_size. rewrite rm_find. cbn [fst snd]. rewrite E1, E2. cbn [omap]. auto.
  - intros Hn. destruct L2 as (a' & E1 & E2); [intros k r Hk; apply Hn, Hin; eauto|]. exists a'.
    unfold has_allocator. rewrite rm_find. cbn [fst snd]. rewrite E1, E2. auto.
Qed.
