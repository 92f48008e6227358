(** Specification words for the registry of allocators: what a user sees of it. *)
From Coq Require Import String.
From Verif Require Import Base RegistryModel.

(** The names of the kinds of memory, as documented (docs/sphinx/tutorial/resources.rst:21-25), and two that are not. *)
Definition documented : list (rtype * string) :=
  [(Host, "HOST"); (Device, "DEVICE"); (Constant, "DEVICE_CONST"); (Unified, "UM"); (Pinned, "PINNED");
   (File, "FILE"); (NoOp, "NO_OP"); (Shared, "SHARED")]%string.

(** The state a call leaves behind. *)
Definition left_by {A : Type} (o : outcome registry A) (st : registry) : Prop :=
  (exists a, o = Ok st a) \/ (exists e, o = Throw st e).

(** [h] is an allocator, with that name and id ([Allocator::getName], [Allocator::getId]). *)
Definition is_alloc (st : registry) (h : nat) (x : string) (i : Z) : Prop :=
  exists o, nth_error (rg_objs st) h = Some o /\ o_live o = true /\ o_name o = x /\ o_id o = i.

(** Objects 0 and 1 are the library's own and are not meant to be found. *)
Definition public (h : nat) : Prop := (2 <= h)%nat.

Section Spec.
  Context (R : list string) (valid : string -> bool) (prep : string -> option exn).

  (** The name is in use and stands for [h]: asking for it gives [h] and changes nothing. *)
  Definition stands_for (st : registry) (x : string) (h : nat) : Prop :=
    forall fl, get_by_name R valid prep fl x st = Ok st h.
  Definition unused (st : registry) (x : string) : Prop := ~ exists h, stands_for st x h.
  Definition id_stands_for (st : registry) (i : Z) (h : nat) : Prop := get_by_id i st = Ok st h.

  (** Restriction on the creation of memory resources: the name is one string_to_resource knows or contains
      "::"; a further name that the call binds ("DEVICE::0" for "DEVICE", and the [base_name] of a name with
      "::0") is not in use.  Without it the claims are false, see the refutations. *)
  Definition harmless (st : registry) (x : string) : Prop :=
    unused st x ->
    (contains x "::" = true \/ string_to_resource x <> None) /\
    (x = "DEVICE"%string -> unused st "DEVICE::0") /\
    (contains x "::0" = true -> base_name x <> x -> unused st (base_name x) /\ ~ In (base_name x) R).

  (** The user has the handles they pass, and creates only harmless resources. *)
  Definition allowed (st : registry) (c : rcall) : Prop :=
    match c with
    | RMake _ | RGetId _ | RGetDefault => True
    | RMakeResource x | RMakeResourceWith x => harmless st x
    | RGet x => In x R -> harmless st x
    | RGetType ty => forall x, In (ty, x) documented -> In x R -> harmless st x
    | RSetDefault h => exists y i, is_alloc st h y i
    | RAddAlias x h => (exists y i, is_alloc st h y i) /\ (In x R -> harmless st x)
    | RRemoveAlias _ h => exists y i, is_alloc st h y i
    end.

  (** The user has the handles they pass, nothing else is required. *)
  Definition owned (st : registry) (c : rcall) : Prop :=
    match c with
    | RSetDefault h | RAddAlias _ h | RRemoveAlias _ h => exists y i, is_alloc st h y i
    | _ => True
    end.

  (** Sequences of calls that satisfy [ok], from one state to another and from the start; a call may throw. *)
  Inductive rpath (ok : registry -> rcall -> Prop) (st0 : registry) : registry -> Prop :=
  | rp_none : rpath ok st0 st0
  | rp_step fl c st st' :
      rpath ok st0 st -> ok st c -> left_by (rexec R valid prep fl c st) st' -> rpath ok st0 st'.
  Definition rhist (ok : registry -> rcall -> Prop) (st : registry) : Prop := rpath ok reg_start st.
End Spec.
