(** Lemmas behind the properties of the operation registry. *)
From Coq Require Import String.
From Verif Require Import Base RegistryModel OpTableModel OpTableSpec.

Lemma platform_eqb_ok a b : platform_eqb a b = true <-> a = b.
Proof. destruct a, b; cbn; split; congruence. Qed.
Lemma pair_eqb_ok a b : pair_eqb a b = true <-> a = b.
Proof.
  destruct a as [a1 a2], b as [b1 b2]. unfold pair_eqb. cbn [fst snd]. rewrite andb_true_iff, !platform_eqb_ok.
  split; [intros [-> ->]; auto|intros H; injection H; auto].
Qed.

Section Assoc.
  Context {K V : Type} (eqb : K -> K -> bool) (eqb_ok : forall a b, eqb a b = true <-> a = b).

  Lemma alook_aput k v k' (l : list (K * V)) : alook eqb k' (aput eqb k v l) = if eqb k k' then Some v else alook eqb k' l.
  Proof.
    unfold alook, aput. cbn [find fst]. destruct (eqb k k') eqn:E; [reflexivity|]. f_equal. unfold adrop.
    induction l as [|[a b] l IH]; cbn [filter find fst]; auto. destruct (eqb a k) eqn:E1; cbn [negb].
    - rewrite IH. apply eqb_ok in E1. subst a. now rewrite E.
    - cbn [find fst]. now rewrite IH.
  Qed.
End Assoc.

Definition lookup (name : string) (pl : platform * platform) (t : optable) : option operation :=
  match alook String.eqb name t with None => None | Some ops => alook pair_eqb pl ops end.

Lemma find_lookup name pl t : find_operation name pl t = match lookup name pl t with Some op => Ok t op | None => Throw t RuntimeError end.
Proof. unfold find_operation, lookup. destruct (alook String.eqb name t) as [ops|]; reflexivity. Qed.

Lemma lookup_register name pl n p op t :
  lookup name pl (register_operation n p op t) =
  match lookup name pl t with
  | Some o => Some o
  | None => if (n =? name)%string && pair_eqb p pl then Some op else None
  end.
Proof.
  unfold register_operation, lookup, ainsert. destruct (alook String.eqb n t) as [ops|] eqn:E.
  - rewrite E, alook_aput by apply String.eqb_eq. destruct (String.eqb_spec n name) as [->|Hne]; cbn [andb].
    + rewrite E. destruct (alook pair_eqb p ops) as [o|] eqn:Ep.
      * destruct (pair_eqb p pl) eqn:Epl; [apply pair_eqb_ok in Epl; subst; now rewrite Ep|]. destruct (alook pair_eqb pl ops); auto.
      * rewrite alook_aput by apply pair_eqb_ok. destruct (pair_eqb p pl) eqn:Epl; [apply pair_eqb_ok in Epl; subst; now rewrite Ep|].
        destruct (alook pair_eqb pl ops); auto.
    + destruct (alook String.eqb name t) as [o|]; auto. destruct (alook pair_eqb pl o); auto.
  - rewrite alook_aput by apply String.eqb_eq. rewrite String.eqb_refl. rewrite !alook_aput by apply String.eqb_eq.
    destruct (String.eqb_spec n name) as [->|Hne]; cbn [andb].
    + rewrite E. cbn [alook find option_map]. rewrite alook_aput by apply pair_eqb_ok. reflexivity.
    + destruct (alook String.eqb name t) as [o|]; auto. destruct (alook pair_eqb pl o); auto.
Qed.

Lemma lookup_all name pl l : forall t, lookup name pl (register_all l t) =
  match lookup name pl t with Some o => Some o | None => first_for name pl l end.
Proof.
  unfold register_all. induction l as [|[[n p] op] l IH]; intros t; cbn [fold_left first_for].
  - destruct (lookup name pl t); auto.
  - rewrite IH, lookup_register. destruct (lookup name pl t); auto. destruct (_ && _); auto.
Qed.

Lemma first_for_app name pl l1 l2 : first_for name pl (l1 ++ l2) =
  match first_for name pl l1 with Some o => Some o | None => first_for name pl l2 end.
Proof. induction l1 as [|[[n p] op] l1 IH]; cbn [app first_for]; auto. destruct (_ && _); auto. Qed.

Lemma op_find c l name pl : find_operation name pl (operators c l) =
  match first_for name pl (builtin c ++ l) with
  | Some op => Ok (operators c l) op
  | None => Throw (operators c l) RuntimeError
  end.
Proof. rewrite find_lookup. unfold operators. rewrite !lookup_all, first_for_app. reflexivity. Qed.

(** Only what was registered is found. *)
Lemma first_for_in name pl l op : first_for name pl l = Some op -> In (name, pl, op) l.
Proof.
  induction l as [|[[n p] o] l IH]; cbn [first_for]; [discriminate|]. destruct (_ && _) eqn:E.
  - intros H. injection H as ->. apply andb_true_iff in E as [E1 E2]. apply String.eqb_eq in E1. apply pair_eqb_ok in E2. subst. now left.
  - intros H. right. auto.
Qed.

Lemma in_first_for name pl l op : In (name, pl, op) l -> exists o, first_for name pl l = Some o.
Proof.
  induction l as [|[[n p] o] l IH]; cbn [first_for In]; [tauto|]. intros [E|H].
  - injection E as -> -> ->. exists op. rewrite String.eqb_refl. replace (pair_eqb pl pl) with true; auto. symmetry. now apply pair_eqb_ok.
  - destruct (_ && _); eauto.
Qed.

(** No two of the constructor's registrations clash. *)
Definition clash (a b : registration) : bool := (fst (fst a) =? fst (fst b))%string && pair_eqb (snd (fst a)) (snd (fst b)).
Fixpoint clashes (l : list registration) : bool :=
  match l with [] => false | x :: t => existsb (clash x) t || clashes t end.

Lemma builtin_apart c : clashes (builtin c) = false.
Proof. destruct c as [[] [] [] [] [] []]; vm_compute; reflexivity. Qed.

Lemma apart_first l : clashes l = false -> forall name pl op, In (name, pl, op) l -> first_for name pl l = Some op.
Proof.
  induction l as [|[[n p] o] l IH]; cbn [clashes first_for In]; intros Hc name pl op; [tauto|].
  apply orb_false_iff in Hc as [H1 H2]. intros [E|H].
  - injection E as -> -> ->. rewrite String.eqb_refl. replace (pair_eqb pl pl) with true; auto. symmetry. now apply pair_eqb_ok.
  - destruct ((n =? name)%string && pair_eqb p pl) eqn:E; [|auto]. exfalso.
    assert (existsb (clash (n, p, o)) l = true); [|congruence]. apply existsb_exists. exists (name, pl, op). split; [exact H|exact E].
Qed.

Lemma op_builtin c l name pl op : In (name, pl, op) (builtin c) -> find_operation name pl (operators c l) = Ok (operators c l) op.
Proof.
  intros H. rewrite op_find, first_for_app, (apart_first _ (builtin_apart c) _ _ _ H). reflexivity.
Qed.

Lemma op_disabled c pl name :
  (enabled c (fst pl) = false \/ enabled c (snd pl) = false) -> pl <> (PUndefined, PUndefined) -> name <> "MOVE"%string ->
  first_for name pl (builtin c) = None.
Proof.
  intros Hd Hu Hm. destruct (first_for name pl (builtin c)) as [op|] eqn:E; [|reflexivity]. exfalso.
  apply first_for_in in E.
  assert (H : forallb (fun r : registration => (fst (fst r) =? "MOVE")%string || pair_eqb (snd (fst r)) (PUndefined, PUndefined) ||
             (enabled c (fst (snd (fst r))) && enabled c (snd (snd (fst r))))) (builtin c) = true)
    by (destruct c as [[] [] [] [] [] []]; vm_compute; reflexivity).
  rewrite forallb_forall in H. specialize (H _ E). cbn [fst snd] in H.
  apply orb_true_iff in H as [H|H]; [apply orb_true_iff in H as [H|H]|].
  - apply String.eqb_eq in H. congruence.
  - apply pair_eqb_ok in H. congruence.
  - apply andb_true_iff in H as [H1 H2]. destruct Hd; congruence.
Qed.

Lemma op_own c l1 l2 name pl op : first_for name pl (builtin c) = None -> first_for name pl l1 = None ->
  find_operation name pl (operators c (l1 ++ (name, pl, op) :: l2)) = Ok (operators c (l1 ++ (name, pl, op) :: l2)) op.
Proof.
  intros H1 H2. rewrite op_find, !first_for_app, H1, H2. cbn [first_for]. rewrite String.eqb_refl.
  replace (pair_eqb pl pl) with true by (symmetry; now apply pair_eqb_ok). reflexivity.
Qed.

Definition reg_eq_dec (a b : registration) : {a = b} + {a <> b}.
Proof. repeat decide equality. Defined.

Lemma incl_of_b (l1 l2 : list registration) :
  forallb (fun a => if in_dec reg_eq_dec a l2 then true else false) l1 = true -> forall x, In x l1 -> In x l2.
Proof. intros H x Hx. rewrite forallb_forall in H. specialize (H x Hx). destruct (in_dec reg_eq_dec x l2); [assumption|discriminate]. Qed.

Lemma documented_builtin c x : In x (documented c) <-> In x (builtin c).
Proof.
  split; apply incl_of_b; destruct c as [[] [] [] [] [] []]; vm_compute; reflexivity.
Qed.

Lemma op_table c l name pl op : In (name, pl, op) (documented c) -> find_operation name pl (operators c l) = Ok (operators c l) op.
Proof. intros H. apply op_builtin, documented_builtin, H. Qed.

Lemma op_nothing_else c name pl : (forall op, ~ In (name, pl, op) (documented c)) ->
  find_operation name pl (operators c []) = Throw (operators c []) RuntimeError.
Proof.
  intros H. rewrite op_find, app_nil_r. destruct (first_for name pl (builtin c)) as [op|] eqn:E; [|reflexivity].
  apply first_for_in in E. apply documented_builtin in E. contradiction (H op E).
Qed.

Lemma op_disabled_find c pl name : enabled c (fst pl) = false \/ enabled c (snd pl) = false -> pl <> (PUndefined, PUndefined) -> name <> "MOVE"%string ->
  find_operation name pl (operators c []) = Throw (operators c []) RuntimeError.
Proof. intros H1 H2 H3. rewrite op_find, app_nil_r, op_disabled; auto. Qed.
