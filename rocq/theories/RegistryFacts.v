(** Facts about the registry: the invariant of its histories. *)
From Coq Require Import String Lia ZifyBool ZifyNat.
From Verif Require Import Base RegistryModel RegistrySpec.

(** ** Maps *)
Section Assoc.
  Context {K V : Type} (eqb : K -> K -> bool) (eqb_ok : forall a b, eqb a b = true <-> a = b).

  Lemma find_filter_other (k k' : K) (l : list (K * V)) :
    k' <> k -> find (fun e => eqb (fst e) k') (filter (fun e => negb (eqb (fst e) k)) l) = find (fun e => eqb (fst e) k') l.
  Proof.
    intros Hn. induction l as [|[a v] l IH]; [reflexivity|]. cbn [filter find fst]. destruct (eqb a k) eqn:E; cbn [negb].
    - rewrite IH. apply eqb_ok in E. subst a. destruct (eqb k k') eqn:E2; [|reflexivity]. apply eqb_ok in E2. congruence.
    - cbn [find fst]. rewrite IH. reflexivity.
  Qed.
  Lemma find_filter_same (k : K) (l : list (K * V)) :
    find (fun e => eqb (fst e) k) (filter (fun e => negb (eqb (fst e) k)) l) = None.
  Proof.
    induction l as [|[a v] l IH]; [reflexivity|]. cbn [filter fst]. destruct (eqb a k) eqn:E; cbn [negb]; [exact IH|].
    cbn [find fst]. rewrite E. exact IH.
  Qed.

  Lemma alook_drop k k' (l : list (K * V)) : alook eqb k' (adrop eqb k l) = if eqb k k' then None else alook eqb k' l.
  Proof.
    unfold alook, adrop. destruct (eqb k k') eqn:E.
    - apply eqb_ok in E. subst k'. now rewrite find_filter_same.
    - rewrite find_filter_other; [reflexivity|]. intros ->. enough (eqb k k = true) by congruence. now apply eqb_ok.
  Qed.
  Lemma alook_put k k' v (l : list (K * V)) : alook eqb k' (aput eqb k v l) = if eqb k k' then Some v else alook eqb k' l.
  Proof.
    unfold aput. unfold alook at 1. cbn [find fst]. destruct (eqb k k') eqn:E; [reflexivity|].
    fold (alook eqb k' (adrop eqb k l)). rewrite alook_drop, E. reflexivity.
  Qed.
  Lemma alook_in k v (l : list (K * V)) : alook eqb k l = Some v -> In (k, v) l.
  Proof.
    unfold alook. intros H. destruct (find _ l) as [[a b]|] eqn:E; [|discriminate]. cbn in H. injection H as <-.
    apply find_some in E as [Hi E]. apply eqb_ok in E. cbn in E. now subst a.
  Qed.
  (** Whatever an entry says is what a lookup says, if there are no two entries for a key. *)
  Lemma in_alook k v (l : list (K * V)) : NoDup (map fst l) -> In (k, v) l -> alook eqb k l = Some v.
  Proof.
    induction l as [|[a b] l IH]; intros Hd Hi; [destruct Hi|]. cbn in Hd. inversion Hd as [|? ? Ha Hd']; subst.
    unfold alook. cbn [find fst]. destruct (eqb a k) eqn:E.
    - apply eqb_ok in E. subst a. destruct Hi as [Hi|Hi]; [now injection Hi as ->|].
      exfalso. apply Ha. change k with (fst (k, v)). now apply in_map.
    - destruct Hi as [Hi|Hi]; [injection Hi as -> ->; enough (eqb k k = true) by congruence; now apply eqb_ok|].
      apply (IH Hd' Hi).
  Qed.
  Lemma nodup_drop k (l : list (K * V)) : NoDup (map fst l) -> NoDup (map fst (adrop eqb k l)).
  Proof.
    induction l as [|[a b] l IH]; intros Hd; [constructor|]. cbn in Hd. inversion Hd as [|? ? Ha Hd']; subst.
    unfold adrop. cbn [filter fst]. destruct (eqb a k); cbn [negb]; [now apply IH|]. cbn. constructor; [|now apply IH].
    intros Hi. apply Ha. apply in_map_iff in Hi as ((k2 & v2) & Hk & Hi). apply filter_In in Hi as [Hi _]. cbn in Hk. subst k2.
    change a with (fst (a, v2)). now apply in_map.
  Qed.
  Lemma nodup_put k v (l : list (K * V)) : NoDup (map fst l) -> NoDup (map fst (aput eqb k v l)).
  Proof.
    intros Hd. unfold aput. cbn. constructor; [|now apply nodup_drop].
    intros Hi. apply in_map_iff in Hi as ((k2 & v2) & Hk & Hi). apply filter_In in Hi as [_ Hi]. cbn in Hk, Hi. subst k2.
    enough (eqb k k = true) by (rewrite H in Hi; discriminate). now apply eqb_ok.
  Qed.
End Assoc.

Lemma rtype_eqb_ok a b : rtype_eqb a b = true <-> a = b.
Proof. destruct a, b; cbn; split; intros H; try reflexivity; discriminate. Qed.
Lemma Zeqb_ok (a b : Z) : (a =? b) = true <-> a = b.
Proof. lia. Qed.

(** ** The names of resources *)
Lemma documented_is ty x : resource_to_string ty = Some x <-> In (ty, x) documented.
Proof.
  unfold documented. split.
  - destruct ty; cbn; intros [= <-]; tauto.
  - cbn. intros H. repeat destruct H as [[= <- <-]|H]; try reflexivity. contradiction.
Qed.

Lemma string_to_resource_back x ty : string_to_resource x = Some ty -> resource_to_string ty = Some x.
Proof.
  unfold string_to_resource. intros H.
  repeat match type of H with
         | (if ?b then _ else _) = _ => let E := fresh in destruct b eqn:E; [apply String.eqb_eq in E; subst x; injection H as <-; reflexivity|clear E]
         end.
  discriminate.
Qed.
Lemma resource_to_string_back ty x : resource_to_string ty = Some x -> string_to_resource x = Some ty.
Proof. destruct ty; cbn; intros H; try discriminate; injection H as <-; reflexivity. Qed.

Lemma known_plain x ty : string_to_resource x = Some ty -> contains x "::" = false /\ contains x "::0" = false.
Proof. intros H. apply string_to_resource_back in H. destruct ty; cbn in H; try discriminate; injection H as <-; split; reflexivity. Qed.

(** ** The invariant *)
Record rinv (st : registry) : Prop := mkRinv {
  ri_live : forall h o, nth_error (rg_objs st) h = Some o -> o_live o = true;
  ri_pos : 2 <= rg_next st;
  ri_len : (2 <= length (rg_objs st))%nat;
  ri_ids : forall h o, nth_error (rg_objs st) h = Some o -> 0 <= o_id o < rg_next st;
  ri_inc : forall h h' o o', (h < h')%nat -> nth_error (rg_objs st) h = Some o -> nth_error (rg_objs st) h' = Some o' -> o_id o < o_id o';
  ri_nd : NoDup (map fst (rg_names st));
  ri_names : forall x h, by_name x st = Some h -> (h < length (rg_objs st))%nat;
  ri_own : forall h o, (2 <= h)%nat -> nth_error (rg_objs st) h = Some o -> by_name (o_name o) st = Some h /\ by_id (o_id o) st = Some h;
  ri_byid : forall i h, by_id i st = Some h -> (2 <= h)%nat /\ exists o, nth_error (rg_objs st) h = Some o /\ o_id o = i;
  ri_types : forall ty h, alook rtype_eqb ty (rg_types st) = Some h -> (2 <= h)%nat /\ exists o, nth_error (rg_objs st) h = Some o /\ string_to_resource (o_name o) = Some ty;
  ri_dflt : forall h, rg_dflt st = Some h -> (h < length (rg_objs st))%nat
}.

Lemma rinv_start : rinv reg_start.
Proof.
  constructor; cbn; try discriminate; try lia; try (intros ? ? Hh; now destruct_with_eqn Hh).
  - intros [|[|[|?]]] o H; cbn in H; try discriminate; injection H as <-; reflexivity.
  - intros [|[|[|?]]] o H; cbn in H; try discriminate; injection H as <-; cbn; lia.
  - intros [|[|[|?]]] [|[|[|?]]] o o' Hlt H H'; cbn in H, H'; try discriminate; try lia; injection H as <-; injection H' as <-; cbn; lia.
  - constructor.
  - intros [|[|[|?]]] o Hh H; cbn in H; try discriminate; lia.
Qed.

Section Facts.
  Context (R : list string) (valid : string -> bool) (prep : string -> option exn).
  Notation is_allocator := (is_allocator R).
  Notation get_by_name := (get_by_name R valid prep).
  Notation make_resource := (make_resource valid prep).
  Notation make_resource_with := (make_resource_with valid prep).
  Notation stands_for := (stands_for R valid prep).
  Notation unused := (unused R valid prep).
  Notation harmless := (harmless R valid prep).
  Notation allowed := (allowed R valid prep).
  Notation rhist := (rhist R valid prep (RegistrySpec.allowed R valid prep)).
  Notation rexec := (rexec R valid prep).

  Lemma live_of st h : rinv st -> (h < length (rg_objs st))%nat -> exists o, nth_error (rg_objs st) h = Some o /\ live_obj h st = Some o.
  Proof.
    intros I Hh. destruct (nth_error (rg_objs st) h) as [o|] eqn:E; [|apply nth_error_None in E; lia].
    exists o. split; [reflexivity|]. unfold live_obj. now rewrite E, (ri_live st I h o E).
  Qed.
  Lemma handle_ok st h : rinv st -> (h < length (rg_objs st))%nat -> handle h st = Ok st h.
  Proof. intros I Hh. destruct (live_of st h I Hh) as (o & _ & E). unfold handle. now rewrite E. Qed.

  Lemma listing_ok st : rinv st -> throw_listing st = Throw st RuntimeError.
  Proof.
    intros I. unfold throw_listing. replace (forallb _ _) with true; [reflexivity|]. symmetry. apply forallb_forall.
    intros [x h] Hi. cbn [snd]. assert (Hn : by_name x st = Some h) by (apply in_alook; [apply String.eqb_eq|apply (ri_nd st I)|exact Hi]).
    destruct (live_of st h I (ri_names st I x h Hn)) as (o & _ & ->). reflexivity.
  Qed.

  Lemma by_name_handle st x h : rinv st -> (stands_for st x h <-> by_name x st = Some h).
  Proof.
    intros I. split.
    - intros H. specialize (H (Some RuntimeError)). unfold RegistryModel.get_by_name in H. destruct (by_name x st) as [k|] eqn:E.
      + rewrite (handle_ok st k I (ri_names st I x k E)) in H. injection H as ->. reflexivity.
      + destruct (existsb _ R); [|rewrite (listing_ok st I) in H; discriminate].
        unfold RegistryModel.make_resource, RegistryModel.make_resource_with in H. destruct (valid x) eqn:V; cbn [negb] in H; [|discriminate].
        rewrite E in H. destruct (prep x); [discriminate|]. unfold next_id in H. destruct (_ =? INT_MAX); cbn in H; discriminate.
    - intros E fl. unfold RegistryModel.get_by_name. rewrite E. apply handle_ok; [exact I|]. now apply (ri_names st I x).
  Qed.
  Lemma unused_none st x : rinv st -> (unused st x <-> by_name x st = None).
  Proof.
    intros I. unfold RegistrySpec.unused. split.
    - intros H. destruct (by_name x st) as [h|] eqn:E; [|reflexivity]. exfalso. apply H. exists h. now apply by_name_handle.
    - intros E [h H]. apply by_name_handle in H; [congruence|exact I].
  Qed.
  Lemma existsb_in x : existsb (fun r => String.eqb r x) R = true <-> In x R.
  Proof.
    rewrite existsb_exists. split; [intros (r & Hi & E); apply String.eqb_eq in E; now subst r|intros Hi; exists x; split; [exact Hi|apply String.eqb_refl]].
  Qed.
  Lemma is_allocator_iff st x : rinv st -> (is_allocator x st = true <-> (exists h, stands_for st x h) \/ In x R).
  Proof.
    intros I. unfold RegistryModel.is_allocator. destruct (by_name x st) as [h|] eqn:E.
    - split; [intros _; left; exists h; now apply by_name_handle|reflexivity].
    - rewrite existsb_in. split; [auto|]. intros [[h H]|H]; [|exact H]. apply by_name_handle in H; [congruence|exact I].
  Qed.

  (** *** Changes *)
  (** Everything that was there is still there. *)
  Record grows (st st' : registry) : Prop := mkGrows {
    gr_objs : exists l, rg_objs st' = rg_objs st ++ l;
    gr_next : rg_next st <= rg_next st'
  }.
  Lemma grows_refl st : grows st st.
  Proof. constructor; [exists []; now rewrite app_nil_r|lia]. Qed.

  (** An id is burnt. *)
  Definition burn (st : registry) : registry :=
    mkReg (rg_objs st) (rg_names st) (rg_ids st) (rg_types st) (rg_dflt st) (rg_next st + 1).
  Lemma rinv_burn st : rinv st -> rinv (burn st).
  Proof.
    intros I. destruct I as [I1 I2 I3 I4 I5 I6 I7 I8 I9 I10 I11]. constructor; cbn; try assumption; try lia; intros h o E; specialize (I4 h o E); lia.
  Qed.

  (** A new allocator is entered, with some names. *)
  Definition entered (st : registry) (x : string) (xs : list string) (ts : list (rtype * nat)) : registry :=
    let h := length (rg_objs st) in
    mkReg (rg_objs st ++ [mkObj x (rg_next st) true]) (fold_left (fun l y => aput String.eqb y h l) xs (aput String.eqb x h (rg_names st)))
          (aput Z.eqb (rg_next st) h (rg_ids st)) ts (rg_dflt st) (rg_next st + 1).

  Lemma alook_fold (h : nat) xs (l : list (string * nat)) y :
    alook String.eqb y (fold_left (fun l y => aput String.eqb y h l) xs l) = if existsb (fun z => String.eqb z y) xs then Some h else alook String.eqb y l.
  Proof.
    revert l. induction xs as [|z xs IH]; intros l; [reflexivity|]. cbn [fold_left existsb]. rewrite IH.
    rewrite (alook_put String.eqb String.eqb_eq). destruct (existsb _ xs), (z =? y)%string; reflexivity.
  Qed.
  Lemma nodup_fold h xs (l : list (string * nat)) : NoDup (map fst l) -> NoDup (map fst (fold_left (fun l y => aput String.eqb y h l) xs l)).
  Proof. revert l. induction xs as [|z xs IH]; intros l Hd; [exact Hd|]. cbn [fold_left]. apply IH. apply nodup_put; [apply String.eqb_eq|exact Hd]. Qed.

  Lemma by_name_entered st x xs ts y :
    by_name y (entered st x xs ts) = if existsb (fun z => String.eqb z y) (x :: xs) then Some (length (rg_objs st)) else by_name y st.
  Proof.
    unfold by_name, entered. cbn [rg_names]. rewrite alook_fold, (alook_put String.eqb String.eqb_eq). cbn [existsb].
    destruct (existsb _ xs), (x =? y)%string; reflexivity.
  Qed.

  Lemma nth_snoc {A} (l : list A) a n b : nth_error (l ++ [a]) n = Some b -> (n < length l)%nat /\ nth_error l n = Some b \/ n = length l /\ b = a.
  Proof.
    intros H. destruct (Nat.lt_ge_cases n (length l)) as [Hn|Hn].
    - left. split; [exact Hn|]. now rewrite nth_error_app1 in H.
    - right. rewrite nth_error_app2 in H by exact Hn. destruct (n - length l)%nat eqn:E; cbn in H; [|now destruct n0].
      injection H as <-. split; [lia|reflexivity].
  Qed.

  Lemma rinv_entered st x xs ts :
    rinv st -> (forall y, In y (x :: xs) -> by_name y st = None) ->
    (forall ty h, alook rtype_eqb ty ts = Some h -> alook rtype_eqb ty (rg_types st) = Some h \/ h = length (rg_objs st) /\ string_to_resource x = Some ty) ->
    rinv (entered st x xs ts).
  Proof.
    intros I Hx Hts. destruct I as [I1 I2 I3 I4 I5 I6 I7 I8 I9 I10 I11].
    assert (Hk : forall y k, by_name y st = Some k -> by_name y (entered st x xs ts) = Some k).
    { intros y k E. rewrite by_name_entered. destruct (existsb _ (x :: xs)) eqn:Ee; [|exact E].
      apply existsb_exists in Ee as (z & Hz & Ez). apply String.eqb_eq in Ez. subst z. rewrite (Hx y Hz) in E. discriminate. }
    constructor; try (cbn [entered rg_objs rg_next rg_dflt rg_types rg_names]).
    - intros h o E. apply nth_snoc in E as [[_ E]|[_ ->]]; [now apply (I1 h)|reflexivity].
    - lia.
    - rewrite app_length. cbn. lia.
    - intros h o E. apply nth_snoc in E as [[_ E]|[_ ->]]; [specialize (I4 h o E); lia|cbn; lia].
    - intros h h' o o' Hlt E E'. apply nth_snoc in E' as [[Hh' E']|[-> ->]]; apply nth_snoc in E as [[Hh E]|[-> ->]].
      + apply (I5 h h'); assumption.
      + lia.
      + specialize (I4 h o E). cbn. lia.
      + lia.
    - apply nodup_fold, nodup_put; [apply String.eqb_eq|exact I6].
    - intros y k. rewrite by_name_entered. rewrite app_length. cbn [length]. destruct (existsb _ (x :: xs)); intros E.
      + injection E as <-. lia.
      + specialize (I7 y k E). lia.
    - intros h o Hh E. apply nth_snoc in E as [[Hh' E]|[-> ->]].
      + destruct (I8 h o Hh E) as [A B]. split; [apply Hk, A|]. unfold by_id, entered. cbn [rg_ids].
        rewrite (alook_put Z.eqb Zeqb_ok). destruct (rg_next st =? o_id o) eqn:Ei; [|exact B]. specialize (I4 h o E). lia.
      + cbn [o_name o_id]. split.
        * rewrite by_name_entered. cbn [existsb]. now rewrite String.eqb_refl.
        * unfold by_id, entered. cbn [rg_ids]. rewrite (alook_put Z.eqb Zeqb_ok), Z.eqb_refl. reflexivity.
    - intros i h. unfold by_id, entered. cbn [rg_ids]. rewrite (alook_put Z.eqb Zeqb_ok). destruct (rg_next st =? i) eqn:Ei; intros E.
      + injection E as <-. split; [exact I3|]. exists (mkObj x (rg_next st) true). split; [|cbn; lia].
        rewrite nth_error_app2 by lia. now rewrite Nat.sub_diag.
      + destruct (I9 i h E) as (Hh & o & Ho & Hi). split; [exact Hh|]. exists o. split; [|exact Hi].
        rewrite nth_error_app1; [exact Ho|]. apply nth_error_Some. congruence.
    - intros ty h E. destruct (Hts ty h E) as [E'|[-> Es]].
      + destruct (I10 ty h E') as (Hh & o & Ho & Hs). split; [exact Hh|]. exists o. split; [|exact Hs].
        rewrite nth_error_app1; [exact Ho|]. apply nth_error_Some. congruence.
      + split; [exact I3|]. exists (mkObj x (rg_next st) true). split; [|exact Es]. rewrite nth_error_app2 by lia. now rewrite Nat.sub_diag.
    - intros h E. specialize (I11 h E). rewrite app_length. cbn. lia.
  Qed.

  Lemma rinv_names st l :
    rinv st -> NoDup (map fst l) -> (forall x h, alook String.eqb x l = Some h -> (h < length (rg_objs st))%nat) ->
    (forall h o, (2 <= h)%nat -> nth_error (rg_objs st) h = Some o -> alook String.eqb (o_name o) l = Some h) ->
    rinv (set_names l st).
  Proof.
    intros I Hd Hl Ho. destruct I as [I1 I2 I3 I4 I5 I6 I7 I8 I9 I10 I11]. constructor; cbn [set_names rg_objs rg_next rg_dflt rg_types rg_names]; try assumption.
    intros h o Hh E. split; [now apply Ho|]. now apply (I8 h o Hh E).
  Qed.
  Lemma rinv_dflt st d : rinv st -> (d < length (rg_objs st))%nat -> rinv (mkReg (rg_objs st) (rg_names st) (rg_ids st) (rg_types st) (Some d) (rg_next st)).
  Proof.
    intros I Hd. destruct I as [I1 I2 I3 I4 I5 I6 I7 I8 I9 I10 I11]. constructor; cbn [rg_objs rg_next rg_dflt rg_types rg_names]; try assumption.
    intros h E. injection E as <-. exact Hd.
  Qed.

  (** *** The outcomes of the calls *)

  (** A handle can be made of the new allocator. *)
  Lemma entered_handle st x xs ts :
    rinv (entered st x xs ts) -> match by_name x (entered st x xs ts) with Some h => handle h (entered st x xs ts) | None => UB end = Ok (entered st x xs ts) (length (rg_objs st)).
  Proof.
    intros I. rewrite by_name_entered. cbn [existsb]. rewrite String.eqb_refl. cbn [orb]. apply handle_ok; [exact I|].
    cbn [entered rg_objs]. rewrite app_length. cbn. lia.
  Qed.

  Lemma make_allocator_cases fl x st :
    rinv st ->
    (rg_next st + 1 = invalid_allocator_id \/ is_allocator x st = true) /\ make_allocator R fl x st = Throw st RuntimeError \/
    rg_next st = INT_MAX /\ is_allocator x st = false /\ make_allocator R fl x st = UB \/
    is_allocator x st = false /\ rg_next st + 1 <> invalid_allocator_id /\ (exists e, fl = Some e /\ make_allocator R fl x st = Throw (burn st) e) \/
    is_allocator x st = false /\ rg_next st + 1 <> invalid_allocator_id /\ fl = None /\
      make_allocator R fl x st = Ok (entered st x [] (rg_types st)) (length (rg_objs st)) /\ rinv (entered st x [] (rg_types st)).
  Proof.
    intros I. unfold make_allocator. destruct (rg_next st + 1 =? invalid_allocator_id) eqn:E1; [left; split; [left; lia|reflexivity]|].
    destruct (is_allocator x st) eqn:E2; [left; auto|]. unfold next_id. destruct (rg_next st =? INT_MAX) eqn:E3.
    { right; left. split; [lia|]. split; reflexivity. }
    cbn [bind]. unfold construct. destruct fl as [e|].
    { right; right; left. split; [reflexivity|]. split; [lia|]. exists e. split; reflexivity. }
    right; right; right. cbn [bind rg_objs rg_names rg_ids rg_types rg_dflt rg_next].
    assert (I' : rinv (entered st x [] (rg_types st))).
    { apply rinv_entered; [exact I| |auto]. intros y [<-|[]]. unfold RegistryModel.is_allocator in E2. now destruct (by_name x st). }
    split; [reflexivity|]. split; [lia|]. split; [reflexivity|]. split; [|exact I']. apply (entered_handle st x [] (rg_types st) I').
  Qed.

  (** The names a resource gets besides its own. *)
  Definition extra_names (x : string) : list string :=
    (if String.eqb x "DEVICE" then ["DEVICE::0"%string] else []) ++ (if contains x "::0" then [base_name x] else []).
  Definition more_types (st : registry) (x : string) : list (rtype * nat) :=
    match string_to_resource x with Some ty => aput rtype_eqb ty (length (rg_objs st)) (rg_types st) | None => rg_types st end.

  Lemma extra_free st x : rinv st -> harmless st x -> by_name x st = None -> forall y, In y (extra_names x) -> by_name y st = None.
  Proof.
    intros I Hh Hx y Hy. destruct (Hh (proj2 (unused_none st x I) Hx)) as (_ & Hd & Hb). unfold extra_names in Hy. apply in_app_iff in Hy as [Hy|Hy].
    - destruct (x =? "DEVICE")%string eqn:E; [|destruct Hy]. apply String.eqb_eq in E. destruct Hy as [<-|[]]. apply unused_none; [exact I|]. now apply Hd.
    - destruct (contains x "::0"); [|destruct Hy]. destruct Hy as [<-|[]].
      destruct (string_dec (base_name x) x) as [->|Hn]; [exact Hx|]. apply unused_none; [exact I|]. now apply Hb.
  Qed.

  Lemma make_resource_with_cases fl x st :
    rinv st -> harmless st x ->
    (exists h, by_name x st = Some h) /\ make_resource_with fl x st = Throw st RuntimeError \/
    by_name x st = None /\ (exists e, prep x = Some e /\ make_resource_with fl x st = Throw st e) \/
    by_name x st = None /\ rg_next st = INT_MAX /\ make_resource_with fl x st = UB \/
    by_name x st = None /\ (exists e, (fl = Some e \/ e = RuntimeError /\ valid x = false) /\ make_resource_with fl x st = Throw (burn st) e) \/
    by_name x st = None /\ fl = None /\ valid x = true /\
      make_resource_with fl x st = Ok (entered st x (extra_names x) (more_types st x)) (length (rg_objs st)) /\
      rinv (entered st x (extra_names x) (more_types st x)).
  Proof.
    intros I Hh. unfold RegistryModel.make_resource_with. destruct (by_name x st) as [h|] eqn:E; [left; split; [now exists h|reflexivity]|].
    destruct (prep x) as [e|]; [right; left; split; [reflexivity|]; exists e; auto|].
    unfold next_id. destruct (rg_next st =? INT_MAX) eqn:E3; [right; right; left; split; [reflexivity|]; split; [lia|reflexivity]|].
    cbn [bind]. destruct (valid x) eqn:V.
    2: { right; right; right; left. split; [reflexivity|]. exists RuntimeError. split; [right; auto|reflexivity]. }
    unfold construct. destruct fl as [e|].
    { right; right; right; left. split; [reflexivity|]. exists e. split; [left; reflexivity|reflexivity]. }
    right; right; right; right. split; [reflexivity|]. split; [reflexivity|]. split; [reflexivity|].
    assert (I' : rinv (entered st x (extra_names x) (more_types st x))).
    { apply rinv_entered; [exact I| |].
      - intros y [<-|Hy]; [exact E|]. now apply (extra_free st x).
      - intros ty h. unfold more_types. destruct (string_to_resource x) as [ty'|]; [|auto]. rewrite (alook_put rtype_eqb rtype_eqb_ok).
        destruct (rtype_eqb ty' ty) eqn:Et; [|auto]. intros Hs. injection Hs as <-. apply rtype_eqb_ok in Et. subst ty'. right. auto. }
    split; [|exact I'].
    pose proof (entered_handle st x (extra_names x) (more_types st x) I') as Hf.
    destruct (Hh (proj2 (unused_none st x I) E)) as (Hk & _ & _).
    cbn [bind rg_objs rg_names rg_ids rg_types rg_dflt rg_next set_names].
    unfold extra_names, more_types, entered in *. clear I'.
    destruct (x =? "DEVICE")%string eqn:ED.
    - apply String.eqb_eq in ED. subst x. exact Hf.
    - destruct (contains x "::") eqn:EC.
      + assert (Hs : string_to_resource x = None).
        { destruct (string_to_resource x) as [ty|] eqn:Es; [|reflexivity]. apply known_plain in Es as [Es _]. congruence. }
        rewrite Hs in *. destruct (contains x "::0"); exact Hf.
      + destruct Hk as [Hk|Hk]; [discriminate|]. destruct (string_to_resource x) as [ty|] eqn:Es; [|now destruct Hk].
        destruct (known_plain x ty Es) as [_ E0]. rewrite E0 in *. exact Hf.
  Qed.

  (** Outcomes that at most enter a new allocator called [x]. *)
  Inductive made (st : registry) (x : string) : outcome registry nat -> Prop :=
  | md_throw e : made st x (Throw st e)
  | md_burn e : made st x (Throw (burn st) e)
  | md_ub : rg_next st = INT_MAX -> made st x UB
  | md_ok xs ts : by_name x st = None -> rinv (entered st x xs ts) -> (forall y, In y (x :: xs) -> by_name y st = None) ->
      (forall y, In y xs -> In y (extra_names x)) -> made st x (Ok (entered st x xs ts) (length (rg_objs st))).

  Lemma make_allocator_made fl x st : rinv st -> made st x (make_allocator R fl x st).
  Proof.
    intros I. destruct (make_allocator_cases fl x st I) as [(_ & ->)|[(H & _ & ->)|[(_ & _ & e & _ & ->)|(Hn & _ & _ & -> & I')]]].
    - constructor.
    - now constructor.
    - constructor.
    - assert (Hx : by_name x st = None) by (unfold RegistryModel.is_allocator in Hn; now destruct (by_name x st)).
      apply md_ok; [exact Hx|exact I'| |intros y []]. intros y [<-|[]]. exact Hx.
  Qed.
  Lemma make_resource_with_made fl x st : rinv st -> harmless st x -> made st x (make_resource_with fl x st).
  Proof.
    intros I Hh. destruct (make_resource_with_cases fl x st I Hh) as [(_ & ->)|[(_ & e & _ & ->)|[(_ & H & ->)|[(_ & e & _ & ->)|(Hx & _ & _ & -> & I')]]]].
    - constructor.
    - constructor.
    - now constructor.
    - constructor.
    - apply md_ok; [exact Hx|exact I'| |auto]. intros y [<-|Hy]; [exact Hx|]. now apply (extra_free st x).
  Qed.
  Lemma make_resource_made fl x st : rinv st -> harmless st x -> made st x (make_resource fl x st).
  Proof.
    intros I Hh. unfold RegistryModel.make_resource. destruct (negb (valid x)); [constructor|]. now apply make_resource_with_made.
  Qed.

  Lemma get_by_name_found fl x st h : rinv st -> by_name x st = Some h -> get_by_name fl x st = Ok st h.
  Proof. intros I E. unfold RegistryModel.get_by_name. rewrite E. apply handle_ok; [exact I|]. now apply (ri_names st I x). Qed.
  Lemma get_by_name_not fl x st : rinv st -> by_name x st = None -> (In x R -> harmless st x) -> made st x (get_by_name fl x st).
  Proof.
    intros I E Hh. unfold RegistryModel.get_by_name. rewrite E. destruct (existsb _ R) eqn:Ee.
    - apply existsb_in in Ee. destruct (make_resource_made fl x st I (Hh Ee)) as [e|e|Hm|xs ts _ I' Hy Hx].
      + constructor.
      + constructor.
      + now constructor.
      + cbn [bind]. rewrite (entered_handle st x xs ts I'). now constructor.
    - rewrite (listing_ok st I). constructor.
  Qed.

  (** What a call can do to the registry. *)
  Inductive change (st : registry) (c : rcall) : outcome registry nat -> Prop :=
  | ch_made x o : made st x o -> match c with RRemoveAlias _ _ | RSetDefault _ => False | _ => True end -> change st c o
  | ch_same h : (h < length (rg_objs st))%nat -> change st c (Ok st h)
  | ch_throw e : change st c (Throw st e)
  | ch_dflt h : (h < length (rg_objs st))%nat -> change st c (Ok (mkReg (rg_objs st) (rg_names st) (rg_ids st) (rg_types st) (Some h) (rg_next st)) h)
  | ch_dflt2 x xs ts : made st x (Ok (entered st x xs ts) (length (rg_objs st))) -> change st c (let st1 := entered st x xs ts in let h := length (rg_objs st) in Ok (mkReg (rg_objs st1) (rg_names st1) (rg_ids st1) (rg_types st1) (Some h) (rg_next st1)) h)
  | ch_alias x h : c = RAddAlias x h -> (h < length (rg_objs st))%nat -> by_name x st = None -> ~ In x R ->
      change st c (Ok (set_names (aput String.eqb x h (rg_names st)) st) h)
  | ch_alias2 x x' h xs ts : c = RAddAlias x' h -> made st x (Ok (entered st x xs ts) (length (rg_objs st))) -> change st c (Throw (entered st x xs ts) RuntimeError)
  | ch_unalias x h o : c = RRemoveAlias x h -> by_name x st = Some h -> nth_error (rg_objs st) h = Some o -> o_name o <> x ->
      change st c (Ok (set_names (adrop String.eqb x (rg_names st)) st) h)
  | ch_nowhere x h : c = RRemoveAlias x h -> by_name x st = None -> In x R -> change st c UB.

  Lemma is_alloc_lt st h y i : is_alloc st h y i -> (h < length (rg_objs st))%nat.
  Proof. intros (o & Ho & _). apply nth_error_Some. congruence. Qed.

  Lemma harmless_host st : harmless st "HOST".
  Proof. intros _. split; [right; discriminate|]. split; [discriminate|]. cbn. discriminate. Qed.

  Lemma rexec_change fl c st : rinv st -> allowed st c -> change st c (rexec fl c st).
  Proof.
    intros I Ha. destruct c as [x|x|x|x|ty|i| |h|x h|x h]; cbn [RegistryModel.rexec]; cbn [RegistrySpec.allowed] in Ha.
    - apply (ch_made _ _ x); [now apply make_allocator_made|exact Logic.I].
    - apply (ch_made _ _ x); [now apply make_resource_made|exact Logic.I].
    - apply (ch_made _ _ x); [now apply make_resource_with_made|exact Logic.I].
    - destruct (by_name x st) as [h|] eqn:E.
      + rewrite (get_by_name_found fl x st h I E). apply ch_same. now apply (ri_names st I x).
      + apply (ch_made _ _ x); [now apply get_by_name_not|exact Logic.I].
    - unfold get_by_type. destruct (alook rtype_eqb ty (rg_types st)) as [h|] eqn:E.
      + destruct (ri_types st I ty h E) as (_ & o & Ho & _). assert (Hh : (h < length (rg_objs st))%nat) by (apply nth_error_Some; congruence).
        rewrite (handle_ok st h I Hh). now apply ch_same.
      + destruct (resource_to_string ty) as [x|] eqn:Et; [|apply ch_throw]. apply documented_is in Et. destruct (by_name x st) as [h|] eqn:Ex.
        * rewrite (get_by_name_found fl x st h I Ex). apply ch_same. now apply (ri_names st I x).
        * apply (ch_made _ _ x); [apply get_by_name_not; auto|exact Logic.I].
    - unfold get_by_id. destruct (i <? 0); [apply ch_throw|]. destruct (_ =? _); [apply ch_throw|]. destruct (by_id i st) as [h|] eqn:E.
      + destruct (ri_byid st I i h E) as (_ & o & Ho & _). assert (Hh : (h < length (rg_objs st))%nat) by (apply nth_error_Some; congruence).
        rewrite (handle_ok st h I Hh). now apply ch_same.
      + rewrite (listing_ok st I). apply ch_throw.
    - unfold get_default. destruct (rg_dflt st) as [h|] eqn:E.
      + rewrite (handle_ok st h I (ri_dflt st I h E)). apply ch_same. exact (ri_dflt st I h E).
      + destruct (by_name "HOST" st) as [h|] eqn:Ex.
        * rewrite (get_by_name_found fl _ st h I Ex). cbn [bind]. apply ch_dflt. now apply (ri_names st I "HOST"%string).
        * pose proof (get_by_name_not fl "HOST" st I Ex (fun _ => harmless_host st)) as Hm.
          remember (get_by_name fl "HOST" st) as o eqn:Eo. clear Eo. destruct Hm as [e|e|Hm|xs ts A B C D]; cbn [bind].
          -- apply ch_throw.
          -- apply (ch_made _ _ "HOST"%string); [constructor|exact Logic.I].
          -- apply (ch_made _ _ "HOST"%string); [now constructor|exact Logic.I].
          -- apply ch_dflt2. now constructor.
    - destruct Ha as (y & i & Ha). apply is_alloc_lt in Ha. unfold set_default. now apply ch_dflt.
    - destruct Ha as ((y & i & Ha) & Hh). apply is_alloc_lt in Ha. unfold add_alias. destruct (is_allocator x st) eqn:E.
      + destruct (by_name x st) as [k|] eqn:Ex.
        * rewrite (get_by_name_found fl x st k I Ex). cbn [bind]. apply ch_throw.
        * pose proof (get_by_name_not fl x st I Ex Hh) as Hm. remember (get_by_name fl x st) as o eqn:Eo. clear Eo.
          destruct Hm as [e|e|Hm|xs ts A B C D]; cbn [bind].
          -- apply ch_throw.
          -- apply (ch_made _ _ x); [constructor|exact Logic.I].
          -- apply (ch_made _ _ x); [now constructor|exact Logic.I].
          -- apply (ch_alias2 _ _ x x h); [reflexivity|]. now constructor.
      + unfold RegistryModel.is_allocator in E. destruct (by_name x st) eqn:Ex; [discriminate|]. apply (ch_alias _ _ x h); auto.
        intros Hi. apply existsb_in in Hi. congruence.
    - destruct Ha as (y & i & Ha). pose proof (is_alloc_lt st h y i Ha) as Hl. destruct Ha as (o' & Ho' & _).
      unfold remove_alias. destruct (is_allocator x st) eqn:E; cbn [negb]; [|apply ch_throw].
      destruct (by_name x st) as [k|] eqn:Ex.
      2: { apply (ch_nowhere _ _ x h); auto. unfold RegistryModel.is_allocator in E. rewrite Ex in E. now apply existsb_in. }
      destruct (live_of st k I (ri_names st I x k Ex)) as (o & Ho & ->).
      destruct (o_name o =? x)%string eqn:En; [apply ch_throw|].
      destruct (live_of st h I Hl) as (o2 & Ho2 & ->). destruct (o_id o =? o_id o2) eqn:Ei; cbn [negb]; [|apply ch_throw].
      assert (k = h).
      { destruct (Nat.lt_total k h) as [Hlt|[He|Hlt]]; [|exact He|].
        - pose proof (ri_inc st I k h o o2 Hlt Ho Ho2). lia.
        - pose proof (ri_inc st I h k o2 o Hlt Ho2 Ho). lia. }
      subst k. apply (ch_unalias _ _ x h o); auto. intros Hc. apply String.eqb_neq in En. congruence.
  Qed.

  Lemma made_left st x o st' : rinv st -> made st x o -> left_by o st' ->
    rinv st' /\ grows st st' /\ (forall y k, by_name y st = Some k -> by_name y st' = Some k).
  Proof.
    intros I Hm Hl. destruct Hm as [e|e|Hm|xs ts A B C D]; destruct Hl as [[a Hl]|[a Hl]]; try discriminate.
    - injection Hl as <- _. split; [exact I|]. split; [apply grows_refl|auto].
    - injection Hl as <- _. split; [now apply rinv_burn|]. split; [constructor; [exists []; now rewrite app_nil_r|cbn; lia]|auto].
    - injection Hl as <- _. split; [exact B|]. split; [constructor; [now exists [mkObj x (rg_next st) true]|cbn; lia]|].
      intros y k E. rewrite by_name_entered. destruct (existsb _ (x :: xs)) eqn:Ee; [|exact E].
      apply existsb_exists in Ee as (z & Hz & Ez). apply String.eqb_eq in Ez. subst z. rewrite (C y Hz) in E. discriminate.
  Qed.

  Lemma change_left st c o st' : rinv st -> change st c o -> left_by o st' ->
    rinv st' /\ grows st st' /\ (forall y k, by_name y st = Some k -> by_name y st' = Some k \/ exists h, c = RRemoveAlias y h).
  Proof.
    intros I Hc Hl. destruct Hc as [x o Hm _|h Hh|e|h Hh|x xs ts Hm|x h -> Hh Hx Hr|x x' h xs ts -> Hm|x h ob -> Hx Ho Hn|x h -> Hx Hr].
    - destruct (made_left st x o st' I Hm Hl) as (A & B & C). split; [exact A|]. split; [exact B|]. intros y k E. left. now apply C.
    - destruct Hl as [[a Hl]|[a Hl]]; [injection Hl as <- _|discriminate]. split; [exact I|]. split; [apply grows_refl|auto].
    - destruct Hl as [[a Hl]|[a Hl]]; [discriminate|injection Hl as <- _]. split; [exact I|]. split; [apply grows_refl|auto].
    - destruct Hl as [[a Hl]|[a Hl]]; [injection Hl as <- _|discriminate]. split; [now apply rinv_dflt|].
      split; [constructor; [exists []; now rewrite app_nil_r|cbn; lia]|auto].
    - destruct Hl as [[a Hl]|[a Hl]]; [injection Hl as <- _|discriminate].
      destruct (made_left st x _ (entered st x xs ts) I Hm) as (A & B & C); [left; now eexists|].
      split; [apply (rinv_dflt (entered st x xs ts)); [exact A|]; cbn [entered rg_objs]; rewrite app_length; cbn; lia|]. split; [constructor; apply B|]. intros y k E. left. now apply (C y k).
    - destruct Hl as [[a Hl]|[a Hl]]; [injection Hl as <- _|discriminate].
      assert (Hk : forall y k, by_name y st = Some k -> by_name y (set_names (aput String.eqb x h (rg_names st)) st) = Some k).
      { intros y k E. unfold by_name, set_names. cbn [rg_names]. rewrite (alook_put String.eqb String.eqb_eq). destruct (x =? y)%string eqn:Exy; [|exact E].
        apply String.eqb_eq in Exy. subst y. congruence. }
      split; [|split; [constructor; [exists []; now rewrite app_nil_r|cbn; lia]|auto]].
      apply rinv_names; [exact I|apply nodup_put; [apply String.eqb_eq|apply (ri_nd st I)]| |].
      + intros y k. rewrite (alook_put String.eqb String.eqb_eq). destruct (x =? y)%string; intros E; [injection E as <-; exact Hh|]. now apply (ri_names st I y).
      + intros k o Hk2 Ho. apply (Hk (o_name o) k). now apply (ri_own st I k o Hk2 Ho).
    - destruct Hl as [[a Hl]|[a Hl]]; [discriminate|injection Hl as <- _].
      destruct (made_left st x _ (entered st x xs ts) I Hm) as (A & B & C); [left; now eexists|].
      split; [exact A|]. split; [exact B|]. intros y k E. left. now apply C.
    - destruct Hl as [[a Hl]|[a Hl]]; [injection Hl as <- _|discriminate].
      assert (Hk : forall y, y <> x -> by_name y (set_names (adrop String.eqb x (rg_names st)) st) = by_name y st).
      { intros y E. unfold by_name, set_names. cbn [rg_names]. rewrite (alook_drop String.eqb String.eqb_eq). destruct (x =? y)%string eqn:Exy; [|reflexivity].
        apply String.eqb_eq in Exy. congruence. }
      split; [|split; [constructor; [exists []; now rewrite app_nil_r|cbn; lia]|]].
      + apply rinv_names; [exact I|apply nodup_drop, (ri_nd st I)| |].
        * intros y k. rewrite (alook_drop String.eqb String.eqb_eq). destruct (x =? y)%string; intros E; [discriminate|]. now apply (ri_names st I y).
        * intros k o Hk2 Hok. rewrite <- (proj1 (ri_own st I k o Hk2 Hok)). apply (Hk (o_name o)).
          intros He. pose proof (proj1 (ri_own st I k o Hk2 Hok)) as Hb. rewrite He, Hx in Hb. injection Hb as <-. congruence.
      + intros y k E. destruct (string_dec y x) as [->|Hne]; [right; now exists h|]. left. rewrite Hk; assumption.
    - destruct Hl as [[a Hl]|[a Hl]]; discriminate.
  Qed.

  Lemma rhist_inv st : rhist st -> rinv st.
  Proof.
    induction 1 as [|fl c st st' Hr IH Ha Hl]; [exact rinv_start|].
    now apply (change_left st c _ st' IH (rexec_change fl c st IH Ha)).
  Qed.
End Facts.
