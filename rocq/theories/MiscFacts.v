(** Facts about MiscModel.v. *)
From Verif Require Import Base BaseFacts HeapModel GlobalModel GlobalSpec MapModel MapSpec MapFacts MapThms JudyModel JudyFacts JudyUpdate AllocMapThms MapMain
  SystemModel SystemSpec SystemMain SystemThms MiscModel.

(** The bytes of an allocation. *)
Definition owns (r : arec) (x : Z) : Prop := r_ptr r <= x < r_ptr r + r_size r.
Definition bounded (r : arec) : Prop := 0 <= r_ptr r /\ 0 <= r_size r /\ r_ptr r + r_size r < M64.

Lemma rec_end_ok r : bounded r -> rec_end r = r_ptr r + r_size r.
Proof. intros (A & B & C). unfold rec_end, w64. apply Z.mod_small. lia. Qed.

Lemma contains_iff l r : bounded l -> bounded r ->
  (r_ptr l <=? r_ptr r) && (r_ptr r <? rec_end l) && (rec_end r <=? rec_end l) = true <-> owns l (r_ptr r) /\ forall x, owns r x -> owns l x.
Proof.
  intros Hl Hr. rewrite !rec_end_ok by assumption. unfold bounded, owns in *. split.
  - intros H. split; [lia|]. intros x Hx. lia.
  - intros [H1 H2]. destruct (r_size r =? 0) eqn:E; [lia|]. specialize (H2 (r_ptr r + r_size r - 1) ltac:(lia)). lia.
Qed.
Lemma overlaps_iff l r : bounded l -> bounded r ->
  (r_ptr l <=? r_ptr r) && (r_ptr r <? rec_end l) && (rec_end l <? rec_end r) = true <-> owns l (r_ptr r) /\ exists x, owns r x /\ r_ptr l + r_size l <= x.
Proof.
  intros Hl Hr. rewrite !rec_end_ok by assumption. unfold bounded, owns in *. split.
  - intros H. split; [lia|]. exists (r_ptr l + r_size l). lia.
  - intros [H1 (x & H2 & H3)]. lia.
Qed.

Section Keys.
  Context (ok : (Z -> Prop) -> Prop).

  Lemma find_key g a k r rs : ahist JR ok (g, a) -> addr_ok k -> records_at k g = r :: rs -> r_ptr r = k ->
    exists a', am_find JR k a = Ok a' r /\ ahist JR ok (g, a').
  Proof.
    intros Hh Hk Er Ep. destruct (at_find_exact JR sparse56 jrel jloc jplain judy_array_ok ok g a k r rs Hh Hk Er Ep) as (a' & E).
    exists a'. assert (E2 : am_find JR k a = Ok a' r) by (unfold am_find; rewrite E; reflexivity). split; [exact E2|].
    assert (Ho : ok (registered g)).
    { clear - Hh Er. inversion Hh as [E1|s c s' _ _ Ho E1]; subst; [cbn in Er; clear - Er; discriminate|exact Ho]. }
    apply (ah_step JR ok (g, a) (AFind k) (g, a') Hh); [|exact Ho]. constructor; [exact Hk|]. rewrite E2. reflexivity.
  Qed.

  Lemma pointers_found g a l r rl rsl rr rsr : ahist JR ok (g, a) -> addr_ok l -> addr_ok r ->
    records_at l g = rl :: rsl -> r_ptr rl = l -> records_at r g = rr :: rsr -> r_ptr rr = r ->
    exists a', (forall f, (let* (a, x) := am_find JR l a in let* (a, y) := am_find JR r a in Ok a (f x y : bool)) = Ok a' (f rl rr)) /\ ahist JR ok (g, a').
  Proof.
    intros Hh Hl Hr E1 E2 E3 E4. destruct (find_key g a l rl rsl Hh Hl E1 E2) as (a1 & F1 & Hh1). destruct (find_key g a1 r rr rsr Hh1 Hr E3 E4) as (a2 & F2 & Hh2).
    exists a2. split; [|exact Hh2]. intros f. rewrite F1. cbn [bind]. rewrite F2. reflexivity.
  Qed.

  Lemma pointer_contains_ok g a rl rsl rr rsr : ahist JR ok (g, a) ->
    records_at (r_ptr rl) g = rl :: rsl -> records_at (r_ptr rr) g = rr :: rsr -> bounded rl -> bounded rr ->
    exists a' b, pointer_contains JR (r_ptr rl) (r_ptr rr) a = Ok a' b /\ (b = true <-> owns rl (r_ptr rr) /\ forall x, owns rr x -> owns rl x).
  Proof.
    intros Hh E1 E2 Hl Hr. destruct (pointers_found g a (r_ptr rl) (r_ptr rr) rl rsl rr rsr Hh) as (a' & F & _); auto; try (destruct Hl as (? & ? & ?), Hr as (? & ? & ?); unfold addr_ok; lia).
    exists a'. eexists. split; [exact (F (fun l r => (r_ptr l <=? r_ptr r) && (r_ptr r <? rec_end l) && (rec_end r <=? rec_end l)))|]. now apply contains_iff.
  Qed.
  Lemma pointer_overlaps_ok g a rl rsl rr rsr : ahist JR ok (g, a) ->
    records_at (r_ptr rl) g = rl :: rsl -> records_at (r_ptr rr) g = rr :: rsr -> bounded rl -> bounded rr ->
    exists a' b, pointer_overlaps JR (r_ptr rl) (r_ptr rr) a = Ok a' b /\ (b = true <-> owns rl (r_ptr rr) /\ exists x, owns rr x /\ r_ptr rl + r_size rl <= x).
  Proof.
    intros Hh E1 E2 Hl Hr. destruct (pointers_found g a (r_ptr rl) (r_ptr rr) rl rsl rr rsr Hh) as (a' & F & _); auto; try (destruct Hl as (? & ? & ?), Hr as (? & ? & ?); unfold addr_ok; lia).
    exists a'. eexists. split; [exact (F (fun l r => (r_ptr l <=? r_ptr r) && (r_ptr r <? rec_end l) && (rec_end l <? rec_end r)))|]. now apply overlaps_iff.
  Qed.
End Keys.

(** Any pointers into allocations that do not overlap. *)
Lemma find_inside g a p k r : ahist JR sparse56 (g, a) -> tidy g -> addr_ok p -> In (k, r) g -> covers r p ->
  exists a', am_find JR p a = Ok a' r /\ ahist JR sparse56 (g, a').
Proof.
  intros Hh Ht Hp Hi Hc. destruct (proj1 (mp_lookup g a p Hh Ht Hp) k r Hi Hc) as (a' & E & _). exists a'. split; [exact E|].
  assert (Ho : sparse56 (registered g)).
  { clear - Hh Hi. inversion Hh as [E1|s c s' _ _ Ho E1]; subst; [destruct Hi|exact Ho]. }
  apply (ah_step JR sparse56 (g, a) (AFind p) (g, a') Hh); [|exact Ho]. constructor; [exact Hp|]. rewrite E. reflexivity.
Qed.
Lemma pointers_inside g a l r kl rl kr rr : ahist JR sparse56 (g, a) -> tidy g -> addr_ok l -> addr_ok r ->
  In (kl, rl) g -> covers rl l -> In (kr, rr) g -> covers rr r ->
  exists a' c, pointer_contains JR l r a = Ok a' c /\ pointer_overlaps JR l r a = Ok a' false /\ (c = true <-> rl = rr /\ r_size rl <> 0).
Proof.
  intros Hh Ht Hl Hr Il Cl Ir Cr. destruct (find_inside g a l kl rl Hh Ht Hl Il Cl) as (a1 & F1 & Hh1). destruct (find_inside g a1 r kr rr Hh1 Ht Hr Ir Cr) as (a2 & F2 & _).
  exists a2. unfold pointer_contains, pointer_overlaps. rewrite F1. cbn [bind]. rewrite F2. cbn [bind]. eexists. split; [reflexivity|].
  destruct (proj1 Ht _ _ Il) as (_ & Sl & Ml). destruct (proj1 Ht _ _ Ir) as (_ & Sr & Mr).
  assert (Bl : rec_end rl = r_ptr rl + r_size rl \/ r_ptr rl < 0).
  { destruct (Z_lt_le_dec (r_ptr rl) 0); [now right|left]. unfold rec_end, w64. apply Z.mod_small. lia. }
  assert (Pl : 0 <= r_ptr rl /\ 0 <= r_ptr rr).
  { pose proof (ahist_rep JR sparse56 jrel jloc jplain judy_array_ok _ _ Hh) as [[c Hm] _]. cbn [fst snd] in Hm.
    assert (D : forall k x, In (k, x) g -> 0 <= k).
    { intros k x Hi. assert (addr_ok k); [|unfold addr_ok in *; lia]. eapply (js_dom _ _ _ _ _ judy_array_ok); [exact (proj1 Hm)|]. apply registered_dom. unfold registered. apply in_map_iff. exists (k, x). auto. }
    pose proof (D _ _ Il). pose proof (D _ _ Ir). destruct (proj1 Ht _ _ Il) as (-> & _). destruct (proj1 Ht _ _ Ir) as (-> & _). auto. }
  destruct Pl as [Pl Pr].
  assert (El : rec_end rl = r_ptr rl + r_size rl) by (unfold rec_end, w64; apply Z.mod_small; lia).
  assert (Er : rec_end rr = r_ptr rr + r_size rr) by (unfold rec_end, w64; apply Z.mod_small; lia).
  rewrite El, Er. clear El Er Bl.
  assert (Hd : rl = rr \/ forall x, ~ (covers rl x /\ covers rr x)).
  { destruct (pairwise_in (fun a b : Z * arec => forall x, ~ (covers (snd a) x /\ covers (snd b) x)) ltac:(intros u v H x [A B]; apply (H x); auto) g (kl, rl) (kr, rr) (proj2 Ht) Il Ir) as [X|X]; [left; congruence|now right]. }
  destruct Hd as [<-|Hd].
  - split; [f_equal; lia|]. split; intros H; [split; [reflexivity|]|]; lia.
  - assert (Hn : ~ (r_ptr rl <= r_ptr rr < r_ptr rl + r_size rl)) by (intros H; apply (Hd (r_ptr rr)); unfold covers; lia).
    split; [f_equal; lia|]. split; intros H; [lia|]. destruct H as [-> H]. lia.
Qed.
Lemma pointers_unknown g a l r : ahist JR sparse56 (g, a) -> tidy g -> addr_ok l -> (forall k x, In (k, x) g -> ~ covers x l) ->
  exists a', pointer_contains JR l r a = Throw a' UnknownPointer /\ pointer_overlaps JR l r a = Throw a' UnknownPointer.
Proof.
  intros Hh Ht Hl Hn. destruct (proj2 (mp_lookup g a l Hh Ht Hl) Hn) as (a' & E & _). exists a'. unfold pointer_contains, pointer_overlaps. rewrite E. auto.
Qed.

(** The loop never gets anywhere. *)
Lemma fragmentation_stuck fuel recs r1 r2 x1 x2 : nth_error recs r1 = Some x1 -> nth_error recs r2 = Some x2 ->
  forall l t, fragmentation_loop fuel recs r1 r2 l t = NoFuel.
Proof.
  intros E1 E2. induction fuel as [|fuel IH]; intros l t; [reflexivity|]. cbn [fragmentation_loop].
  assert (Hlt : (r2 < length recs)%nat) by (apply nth_error_Some; congruence). destruct (Nat.eqb r2 (length recs)) eqn:E; [apply Nat.eqb_eq in E; lia|].
  rewrite E1, E2. apply IH.
Qed.
Lemma fragmentation_two fuel x1 x2 recs : relative_fragmentation fuel (x1 :: x2 :: recs) = NoFuel.
Proof. unfold relative_fragmentation. apply (fragmentation_stuck fuel _ 0%nat 1%nat x1 x2); reflexivity. Qed.

(** Typed allocation. *)
Lemma typed_ok C sw g q t i s n sw' p : shist JR any_keys C sw g q t -> usable (C ++ boot) i ->
  0 < s -> 0 <= n -> s * n < M64 -> s * n = 0 \/ user_guard (C ++ boot) i (s * n) (fst sw) ->
  typed_allocate JR (C ++ boot) i s n sw = Ok sw' p ->
  let g' := mkRec p (s * n) (Z.of_nat i) 0 :: g in
  shist JR any_keys C sw' g' q (snap (C ++ boot) (fst sw') :: t) /\
  forall k, 0 <= k < n -> (forall r, In r g -> disj (p + s * k, s) (rreg r)) /\ forall j, 0 <= j < n -> j <> k -> disj (p + s * k, s) (p + s * j, s).
Proof.
  intros Hh Hu Hs Hn Hm Hg. unfold typed_allocate. replace (w64 (s * n)) with (s * n) by (unfold w64; rewrite Z.mod_small; nia). intros E.
  pose proof (sh_alloc JR any_keys C sw g q t i (s * n) 0 sw' p Hh Hu Hg E I) as H1. split; [exact H1|].
  destruct (sy_registered any_keys any_keys_monotone C sw' _ q _ H1) as (_ & _ & _ & Hp & _). cbn [pairwise] in Hp. destruct Hp as [Hp _].
  intros k Hk. split.
  - intros r Hr. specialize (Hp r Hr). unfold disj, rreg in *. cbn [r_ptr r_size fst snd] in *. replace (s * n =? 0) with false in Hp by nia. nia.
  - intros j Hj Hjk. unfold disj. cbn [fst snd]. nia.
Qed.
