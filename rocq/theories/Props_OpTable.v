(** Property C50 (MemoryOperationRegistry).  [operators c l]: the table in build [c] after the program's own
    registrations [l]. *)
From Coq Require Import String.
From Verif Require Import Base OpTableModel OpTableSpec OpTableFacts.

(** C50: [find] returns the operation first registered under that name for that pair of platforms, and
    throws if there is none; it never changes the table. *)
Theorem C50_find :
  forall c l name pl, find_operation name pl (operators c l) =
    match first_for name pl (builtin c ++ l) with
    | Some op => Ok (operators c l) op
    | None => Throw (operators c l) RuntimeError
    end.
Proof. exact op_find. Qed.
Print Assumptions C50_find.

(** C50: in every build, copy (in all three directions), memset and reallocate are there for the host and for
    every device of the build, and advice, prefetching and moving where they should be, each with its own
    operation, whatever the program registers. *)
Theorem C50_builtin :
  forall c l name pl op, In (name, pl, op) (documented c) ->
    find_operation name pl (operators c l) = Ok (operators c l) op.
Proof. exact op_table. Qed.
Print Assumptions C50_builtin.

(** C50: and nothing else. *)
Theorem C50_nothing_else :
  forall c name pl, (forall op, ~ In (name, pl, op) (documented c)) ->
    find_operation name pl (operators c []) = Throw (operators c []) RuntimeError.
Proof. exact op_nothing_else. Qed.
Print Assumptions C50_nothing_else.

(** C50: nothing but "MOVE" is registered for a platform the build does not have, and only the generic
    reallocate for undefined platforms. *)
Theorem C50_disabled :
  forall c pl name, enabled c (fst pl) = false \/ enabled c (snd pl) = false ->
    pl <> (PUndefined, PUndefined) -> name <> "MOVE"%string ->
    find_operation name pl (operators c []) = Throw (operators c []) RuntimeError.
Proof. exact op_disabled_find. Qed.
Print Assumptions C50_disabled.

(** C50: an operation registered for a name and pair not taken is found from then on.  Missing: those that are
    taken; see [C50_replace_refuted]. *)
Theorem C50_own_partial :
  forall c l1 l2 name pl op, first_for name pl (builtin c) = None -> first_for name pl l1 = None ->
    find_operation name pl (operators c (l1 ++ (name, pl, op) :: l2)) = Ok (operators c (l1 ++ (name, pl, op) :: l2)) op.
Proof. exact op_own. Qed.
Print Assumptions C50_own_partial.

Definition everything : opconfig := mkOpconfig true true true true true true.

Example C50_ex :
  match find_operation "COPY" (PHip, PHost) (operators everything [("SCALE", (PHost, PHost), UserOperation 7)])%string,
        find_operation "SCALE" (PHost, PHost) (operators everything [("SCALE", (PHost, PHost), UserOperation 7)])%string,
        find_operation "SET_COARSE_GRAIN" (PHip, PHip) (operators everything [])%string,
        find_operation "SCALE" (PCuda, PCuda) (operators everything [("SCALE", (PHost, PHost), UserOperation 7)])%string
  with
  | Ok _ a, Ok _ b, Ok _ c, Throw _ e => Some (a, b, c, e)
  | _, _, _, _ => None
  end = Some (HipCopyOperation DeviceToHost, UserOperation 7, HipAdviseOperation SetCoarseGrain, RuntimeError).
Proof. vm_compute. reflexivity. Qed.

(** The header says copy is there for all pairs of strategies; between two kinds of devices it is not. *)
Theorem C50_all_pairs_refuted :
  exists c p q, enabled c p = true /\ enabled c q = true /\
    find_operation "COPY" (p, q) (operators c []) = Throw (operators c []) RuntimeError.
Proof.
  exists everything, PCuda, PHip. split; [reflexivity|]. split; [reflexivity|]. rewrite op_find. vm_compute. reflexivity.
Qed.
Print Assumptions C50_all_pairs_refuted.

(** Registering an operation for a name and pair already there has no effect, silently. *)
Theorem C50_replace_refuted :
  forall c, find_operation "COPY" (PHost, PHost) (operators c [("COPY", (PHost, PHost), UserOperation 7)])%string =
            Ok (operators c [("COPY", (PHost, PHost), UserOperation 7)])%string HostCopyOperation.
Proof. intros c. apply op_builtin. now left. Qed.
Print Assumptions C50_replace_refuted.
