(** Running sequences of registry calls, for examples and refutations. *)
From Coq Require Import String Lia ZifyBool ZifyNat.
From Verif Require Import Base RegistryModel RegistrySpec RegistryFacts.

Section Run.
  Context (R : list string) (valid : string -> bool) (prep : string -> option exn).
  Notation rexec := (rexec R valid prep).

  Definition isNone {A} (o : option A) : bool := match o with None => true | _ => false end.

  Definition has (st : registry) (h : nat) : bool := match live_obj h st with Some _ => true | None => false end.
  Definition ownedb (st : registry) (c : rcall) : bool :=
    match c with RSetDefault h | RAddAlias _ h | RRemoveAlias _ h => has st h | _ => true end.
  Definition harmlessb (st : registry) (x : string) : bool :=
    negb (isNone (by_name x st)) ||
    (contains x "::" || negb (isNone (string_to_resource x))) &&
    (negb (x =? "DEVICE")%string || isNone (by_name "DEVICE::0" st)) &&
    (negb (contains x "::0") || (base_name x =? x)%string || isNone (by_name (base_name x) st) && negb (existsb (fun r => String.eqb r (base_name x)) R)).
  Definition allowedb (st : registry) (c : rcall) : bool :=
    ownedb st c &&
    match c with
    | RMakeResource x | RMakeResourceWith x => harmlessb st x
    | RGet x | RAddAlias x _ => negb (existsb (fun r => String.eqb r x) R) || harmlessb st x
    | RGetType ty => match resource_to_string ty with Some x => harmlessb st x | None => true end
    | _ => true
    end.

  Definition after (o : outcome registry nat) : option registry :=
    match o with Ok st _ | Throw st _ => Some st | _ => None end.
  Fixpoint rrun (okb : registry -> rcall -> bool) (l : list (option exn * rcall)) (st : registry) : option registry :=
    match l with
    | [] => Some st
    | (fl, c) :: l => if okb st c then match after (rexec fl c st) with Some st' => rrun okb l st' | None => None end else None
    end.
  Definition calls (l : list rcall) : list (option exn * rcall) := map (pair None) l.

  Lemma after_left o st : after o = Some st -> left_by o st.
  Proof. destruct o; cbn; intros H; try discriminate; injection H as <-; [left|right]; now eexists. Qed.

  Lemma has_alloc st h : has st h = true -> exists y i, is_alloc st h y i.
  Proof.
    unfold has, live_obj. destruct (nth_error _ h) as [o|] eqn:E; [|discriminate]. destruct (o_live o) eqn:L; [|discriminate]. intros _.
    exists (o_name o), (o_id o), o. auto.
  Qed.
  Lemma ownedb_ok st c : ownedb st c = true -> owned st c.
  Proof. destruct c; cbn; intros H; auto; now apply has_alloc. Qed.

  Lemma harmlessb_ok st x : rinv st -> harmlessb st x = true -> harmless R valid prep st x.
  Proof.
    intros I H Hu. apply unused_none in Hu; [|exact I]. unfold harmlessb in H. rewrite Hu in H. cbn [isNone negb orb] in H.
    apply andb_prop in H as [H H3]. apply andb_prop in H as [H1 H2]. split; [|split].
    - apply orb_prop in H1 as [H1|H1]; [now left|]. right. now destruct (string_to_resource x).
    - intros ->. cbn in H2. apply unused_none; [exact I|]. now destruct (by_name "DEVICE::0" st).
    - intros Hc Hn. rewrite Hc in H3. cbn [negb orb] in H3. apply orb_prop in H3 as [H3|H3]; [apply String.eqb_eq in H3; contradiction|].
      apply andb_prop in H3 as [H3 H4]. split; [apply unused_none; [exact I|]; now destruct (by_name (base_name x) st)|].
      intros Hi. apply existsb_in in Hi. rewrite Hi in H4. discriminate.
  Qed.
  Lemma allowedb_ok st c : rinv st -> allowedb st c = true -> allowed R valid prep st c.
  Proof.
    intros I H. unfold allowedb in H. apply andb_prop in H as [Ho H]. apply ownedb_ok in Ho.
    destruct c as [x|x|x|x|ty|i| |h|x h|x h]; cbn in *; auto.
    - now apply harmlessb_ok.
    - now apply harmlessb_ok.
    - intros Hi. apply existsb_in in Hi. rewrite Hi in H. now apply harmlessb_ok.
    - intros x E _. apply (documented_is ty x) in E. rewrite E in H. now apply harmlessb_ok.
    - split; [exact Ho|]. intros Hi. apply existsb_in in Hi. rewrite Hi in H. now apply harmlessb_ok.
  Qed.

  Lemma rrun_owned l st0 st st' : rpath R valid prep owned st0 st -> rrun ownedb l st = Some st' -> rpath R valid prep owned st0 st'.
  Proof.
    revert st. induction l as [|[fl c] l IH]; intros st Hp E; cbn in E; [now injection E as <-|].
    destruct (ownedb st c) eqn:Ec; [|discriminate]. destruct (after _) as [s|] eqn:Ea; [|discriminate].
    apply (IH s); [|exact E]. apply (rp_step _ _ _ _ _ fl c st); [exact Hp|now apply ownedb_ok|now apply after_left].
  Qed.
  Lemma rrun_hist l st' : rrun ownedb l reg_start = Some st' -> rhist R valid prep owned st'.
  Proof. apply rrun_owned. constructor. Qed.
  Lemma rrun_allowed_from l st st' : rhist R valid prep (allowed R valid prep) st -> rrun allowedb l st = Some st' -> rhist R valid prep (allowed R valid prep) st'.
  Proof.
    revert st. induction l as [|[fl c] l IH]; intros st Hp E; cbn in E; [now injection E as <-|].
    destruct (allowedb st c) eqn:Ec; [|discriminate]. destruct (after _) as [s|] eqn:Ea; [|discriminate].
    apply (IH s); [|exact E]. apply (rp_step _ _ _ _ _ fl c st); [exact Hp| |now apply after_left].
    apply allowedb_ok; [now apply (rhist_inv R valid prep)|exact Ec].
  Qed.
  Lemma rrun_allowed l st' : rrun allowedb l reg_start = Some st' -> rhist R valid prep (allowed R valid prep) st'.
  Proof. apply rrun_allowed_from. constructor. Qed.
End Run.

Definition no_prep (x : string) : option exn := None.
(** Without a GPU. *)
Definition cpu_names : list string := ["HOST"%string].
(** With two GPUs (MemoryResourceRegistry.cpp:103-130). *)
Definition gpu_names : list string := ["HOST"; "DEVICE"; "DEVICE::0"; "DEVICE::1"; "UM"; "PINNED"]%string.
Definition gpu_valid (x : string) : bool :=
  contains x "HOST" || contains x "DEVICE" && negb (contains x "CONST") || contains x "UM" || contains x "PINNED".
