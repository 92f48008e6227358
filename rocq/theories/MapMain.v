(** The properties of the allocation map and of the pointer map over the Judy array of judy.c. *)
From Coq Require Import Permutation.
From Verif Require Import Base MapModel MapSpec MapFacts MapThms JudyModel JudyFacts JudyUpdate AllocMapThms.

Notation JR := (judy_array (list arec)).

(** No condition on the keys. *)
Definition any_keys (P : Z -> Prop) : Prop := True.
(** Keys aligned like the addresses malloc returns. *)
Definition aligned16 (P : Z -> Prop) : Prop := forall x, P x -> (16 | x).

Lemma aligned16_sparse P : aligned16 P -> sparse56 P.
Proof. intros H. apply (aligned_sparse P 16); [lia|exact H]. Qed.

Lemma ahist_mono (J : Judy (list arec)) (ok ok' : (Z -> Prop) -> Prop) s : (forall P, ok P -> ok' P) -> ahist J ok s -> ahist J ok' s.
Proof. intros H Hh. induction Hh; [constructor|]. eapply ah_step; eauto. Qed.

Lemma mhist_mono {V} (J : Judy V) (ok ok' : (Z -> Prop) -> Prop) s : (forall P, ok P -> ok' P) -> mhist J ok s -> mhist J ok' s.
Proof. intros H Hh. induction Hh; [constructor|]. eapply mh_step; eauto. Qed.

Lemma mp_lookup g a p : ahist JR sparse56 (g, a) -> tidy g -> addr_ok p ->
  (forall k r, In (k, r) g -> covers r p -> exists a', am_find JR p a = Ok a' r /\ am_contains JR p a = Ok a' true) /\
  ((forall k r, In (k, r) g -> ~ covers r p) -> exists a', am_find JR p a = Throw a' UnknownPointer /\ am_contains JR p a = Ok a' false).
Proof.
  intros Hh Ht Hp. destruct (at_lookup_tidy JR sparse56 jrel jloc jplain judy_array_ok g a p Hh Ht Hp) as (a' & res & E & R). unfold am_find, am_contains. rewrite E. cbn [omap].
  split.
  - intros k r Hi Hc. exists a'. assert (res = Some r) as -> by (apply R; split; eauto). auto.
  - intros Hn. exists a'. destruct res as [r|]; auto. destruct (proj1 (R r) eq_refl) as [[k Hi] Hc]. elim (Hn k r Hi Hc).
Qed.

Lemma mp_lookup_aligned g a p : ahist JR aligned16 (g, a) -> tidy g -> addr_ok p ->
  (forall k r, In (k, r) g -> covers r p -> exists a', am_find JR p a = Ok a' r /\ am_contains JR p a = Ok a' true) /\
  ((forall k r, In (k, r) g -> ~ covers r p) -> exists a', am_find JR p a = Throw a' UnknownPointer /\ am_contains JR p a = Ok a' false).
Proof. intros Hh. apply mp_lookup. apply (ahist_mono _ aligned16); auto. apply aligned16_sparse. Qed.

Lemma mp_nearest g a p : ahist JR sparse56 (g, a) -> addr_ok p ->
  exists a' res, am_find_record JR p a = Ok a' res /\
    ((exists k r rs, records_at k g = r :: rs /\ k <= p /\ (forall x, registered g x -> x <= p -> x <= k) /\
       res = if (p <? w64 (r_ptr r + r_size r)) || (r_ptr r =? p) then Some r else None) \/
     ((forall x, registered g x -> p < x) /\ res = None)).
Proof. apply (at_lookup JR sparse56 jrel jloc jplain judy_array_ok). Qed.

Lemma mp_register g a k r : ahist JR any_keys (g, a) -> addr_ok k ->
  exists a', am_insert JR k r a = Ok a' tt /\ ahist JR any_keys ((k, r) :: g, a').
Proof.
  intros Hh Hk. destruct (at_insert JR sparse56 jrel jloc jplain judy_array_ok _ g a k r Hh Hk) as [a' E]. exists a'. split; auto.
  eapply ah_step; [exact Hh|apply (as_insert _ k r g a a' Hk); now rewrite E|exact I].
Qed.

Lemma mp_deregister g a k : ahist JR any_keys (g, a) -> addr_ok k ->
  (exists a', am_remove JR k a = match records_at k g with r :: _ => Ok a' r | [] => Throw a' RuntimeError end /\
              ahist JR any_keys (drop_newest k g, a')) /\
  (forall x, records_at x (drop_newest k g) = if x =? k then tl (records_at k g) else records_at x g) /\
  (records_at k g = [] -> drop_newest k g = g).
Proof.
  intros Hh Hk. split; [|split; [intros x; apply records_at_drop|apply drop_newest_absent]].
  destruct (at_remove JR sparse56 jrel jloc jplain judy_array_ok _ g a k Hh Hk) as [a' E]. exists a'. split; auto.
  eapply ah_step; [exact Hh|apply (as_remove _ k g a a' Hk); rewrite E; destruct (records_at k g); reflexivity|exact I].
Qed.

Lemma mp_visible g a k r rs : ahist JR sparse56 (g, a) -> records_at k g = r :: rs -> r_ptr r = k -> addr_ok k ->
  exists a', am_find JR k a = Ok a' r.
Proof.
  intros Hh Er Ep Hk. destruct (mp_nearest g a k Hh Hk) as (a' & res & E & R). unfold am_find. rewrite E. exists a'.
  assert (Hreg : registered g k).
  { apply registered_dom. unfold dom. assert (E0 : spec_of g k = Some (r :: rs)) by (apply spec_of_some; split; [exact Er|clear; discriminate]). rewrite E0. clear. discriminate. }
  destruct R as [(k' & r' & rs' & E1 & E2 & E3 & ->)|(Hn & _)]; [|specialize (Hn k Hreg); lia].
  specialize (E3 k Hreg ltac:(lia)). assert (k' = k) by lia. subst k'. rewrite Er in E1. injection E1 as <- <-.
  rewrite Ep, Z.eqb_refl, orb_true_r. reflexivity.
Qed.

Lemma mp_count g a : ahist JR any_keys (g, a) -> am_size JR a = w64 (Z.of_nat (length g)).
Proof. apply (at_size JR sparse56 jrel jloc jplain judy_array_ok). Qed.

Lemma mp_listing g a fuel addr : ahist JR any_keys (g, a) -> ~ registered g 0 -> (length g < fuel)%nat -> addr <> 0 ->
  exists a' l, am_records JR fuel addr a = Ok a' l /\ Permutation l (map snd g) /\
    exists ks, ascending ks /\ (forall x, In x ks <-> registered g x) /\ l = flat_map (fun k => records_at k g) ks.
Proof. apply (at_records JR sparse56 jrel jloc jplain judy_array_ok). Qed.

Lemma mp_listing_of g a fuel addr addr' s : ahist JR any_keys (g, a) -> ~ registered g 0 -> (length g < fuel)%nat -> addr <> 0 ->
  exists a' l, am_records_of JR fuel addr addr' s a = Ok a' l /\ Permutation l (filter (fun r => r_strat r =? s) (map snd g)).
Proof. apply (at_records_of JR sparse56 jrel jloc jplain judy_array_ok). Qed.

Section MM.
  Context {V : Type}.
  Notation J := (judy_array V).

  Lemma mp_insert s k v : mhist J any_keys s -> addr_ok k ->
    exists mm', mm_insert J k v (ms_map J s) =
      (mm', (k, Some (match ms_spec J s k with Some v0 => v0 | None => v end)),
       match ms_spec J s k with Some _ => false | None => true end).
  Proof. apply (mt_insert J sparse56 jrel jloc jplain judy_array_ok). Qed.

  Lemma mp_find s k : mhist J any_keys s -> addr_ok k ->
    exists mm' k', mm_find J k (ms_map J s) = (mm', (k', ms_spec J s k)) /\ (dom (ms_spec J s) k -> k' = k).
  Proof. apply (mt_find J sparse56 jrel jloc jplain judy_array_ok). Qed.

  Lemma mp_size s : mhist J any_keys s ->
    exists ks, keys_of (ms_spec J s) ks /\ mm_size (ms_map J s) = w64 (Z.of_nat (length ks)).
  Proof. apply (mt_size J sparse56 jrel jloc jplain judy_array_ok). Qed.

  Lemma mp_find_or_before s k : mhist J sparse56 s -> addr_ok k ->
    exists mm' k' ov, mm_find_or_before J k (ms_map J s) = (mm', (k', ov)) /\
      match ov with
      | Some v => greatest_below (ms_spec J s) (Some (k + 1)) k' v
      | None => forall x, dom (ms_spec J s) x -> k < x
      end.
  Proof. apply (mt_find_or_before J sparse56 jrel jloc jplain judy_array_ok). Qed.

  Lemma mp_erase s k : mhist J any_keys s -> addr_ok k -> dom (ms_spec J s) k ->
    exists mm', mm_erase J k (ms_map J s) = Ok mm' tt.
  Proof. apply (mt_erase J sparse56 jrel jloc jplain judy_array_ok). Qed.

  Lemma mp_clear s ks fuel : mhist J any_keys s -> keys_of (ms_spec J s) ks -> (length ks < fuel)%nat ->
    exists mm', mm_clear J fuel (ms_map J s) = Ok mm' tt.
  Proof. apply (mt_clear J sparse56 jrel jloc jplain judy_array_ok). Qed.

  Lemma mp_next s a it : mhist J any_keys s -> ms_its J s a = Some it -> it_key it <> 0 ->
    exists mm' it', mi_next J it (ms_map J s) = (mm', it') /\ it_addr it' = a /\
      ((exists k v, least_above (ms_spec J s) (Some (it_key it)) k v /\ it_key it' = k /\ it_val it' = Some v) \/
       ((forall x, dom (ms_spec J s) x -> x <= it_key it) /\ mi_eq it' (mi_end 0) = true)).
  Proof. apply (mt_next J sparse56 jrel jloc jplain judy_array_ok). Qed.

  Lemma mp_walk s a ks : mhist J any_keys s -> keys_of (ms_spec J s) ks -> ~ dom (ms_spec J s) 0 ->
    exists l mm1 mm2 it, mi_begin J a (ms_map J s) = (mm1, it) /\ mi_walk J (S (length ks)) it mm1 = Some (mm2, l) /\
      ascending (map fst l) /\ forall k ov, In (k, ov) l <-> dom (ms_spec J s) k /\ ov = ms_spec J s k.
  Proof. apply (mt_walk J sparse56 jrel jloc jplain judy_array_ok). Qed.
End MM.
