(** The summary that the replay tool prints when it has compiled a log.  Citations are to tools/replay. *)
From Coq Require Import String.
From Verif Require Import Base ReplayModel.
Local Open Scope string_scope.
Local Open Scope Z_scope.

(** ReplayInterpreter.hpp:53-68: the counters. *)
Inductive kind := KResource | KAllocator | KAllocate | KDeallocate | KRogue | KRegister | KDeregister
                | KCopy | KMove | KReallocate | KDefault | KCoalesce | KRelease | KVersion.

Definition kind_eqb (a b : kind) : bool :=
  match a, b with
  | KResource, KResource | KAllocator, KAllocator | KAllocate, KAllocate | KDeallocate, KDeallocate
  | KRogue, KRogue | KRegister, KRegister | KDeregister, KDeregister | KCopy, KCopy | KMove, KMove
  | KReallocate, KReallocate | KDefault, KDefault | KCoalesce, KCoalesce | KRelease, KRelease
  | KVersion, KVersion => true
  | _, _ => false
  end.

(** ReplayInterpreter.hpp:50-68.  The version has no initial value ([None]); the counters have. *)
Record tallies := { s_count : kind -> Z; s_version : option (Z * Z * Z) }.
Definition s_init : tallies := {| s_count := fun _ => 0; s_version := None |}.

(** [m_..._ops++] on a [size_t]. *)
Definition bump (k : kind) (s : tallies) : tallies :=
  {| s_count := fun k' => if kind_eqb k k' then w64 (s_count s k' + 1) else s_count s k'; s_version := s_version s |}.

(** ReplayInterpreter.cpp:771-788: the deallocation is not one of a known allocation. *)
Definition rogue (e : event) (st : cstate) : bool :=
  negb (c_re st) &&
  match afind (sget "allocator_ref" (e_str e) ++ sget "pointer" (e_str e)) (c_ids st) with
  | Some _ => false
  | None => true
  end.

(** ReplayInterpreter.cpp:82-161 and 786, what one event adds; [st] is the state before it. *)
Definition tally_event (e : event) (st : cstate) (s : tallies) : tallies :=
  if negb (e_oper e) then
    if String.eqb (e_name e) "version" then
      let s := bump KVersion s in
      {| s_count := s_count s;
         s_version := Some (s32 (nget "major" (e_num e)), s32 (nget "minor" (e_num e)), s32 (nget "patch" (e_num e))) |}
    else s
  else if String.eqb (e_name e) "allocate" then bump KAllocate s
  else if String.eqb (e_name e) "deallocate" then
    let s := bump KDeallocate s in if rogue e st then bump KRogue s else s
  else if String.eqb (e_name e) "make_allocator" then bump KAllocator s
  else if String.eqb (e_name e) "make_memory_resource" then bump KResource s
  else if String.eqb (e_name e) "copy" then bump KCopy s
  else if String.eqb (e_name e) "move" then bump KMove s
  else if String.eqb (e_name e) "reallocate" then bump KReallocate s
  else if String.eqb (e_name e) "set_default_allocator" then bump KDefault s
  else if String.eqb (e_name e) "coalesce" then bump KCoalesce s
  else if String.eqb (e_name e) "release" then bump KRelease s
  else if String.eqb (e_name e) "register_external_allocation" then bump KRegister s
  else if String.eqb (e_name e) "deregister_external_allocation" then bump KDeregister s
  else s.

Section Tally.
  Variable fsize : Z.

  (** ReplayInterpreter.cpp:77-169: the loop; nothing is printed when it aborts. *)
  Fixpoint tally (l : list event) (st : cstate) (s : tallies) : outcome cstate tallies :=
    match l with
    | nil => Ok st s
    | e :: t => let* (st', _) := compile_event fsize e st in tally t st' (tally_event e st s)
    end.

  (** What is printed: the version, the counters, the leaked allocations. *)
  Record summary := { p_version : Z * Z * Z; p_count : kind -> Z; p_leaked : Z }.

  (** ReplayInterpreter.cpp:177-204; printing the version when there was none reads three [int]s that
      were never set.  Layout and the omission of a zero of rogue deallocations (188-190) left out. *)
  Definition print (quiet : bool) (s : tallies) (st : cstate) : outcome cstate (option summary) :=
    if quiet then Ok st None else
    match s_version s with
    | None => UB
    | Some v => Ok st (Some {| p_version := v; p_count := s_count s;
                               p_leaked := w64 (s_count s KAllocate - s_count s KDeallocate) |})
    end.

  (** ReplayInterpreter.cpp:52-205: buildOperations, when the compiled file is missing or old
      ([needed]) and when it is not. *)
  Definition summarise (needed quiet : bool) (l : list event) : outcome cstate (option summary) :=
    if needed then let* (st, s) := tally l c_init s_init in print quiet s st
    else Ok c_init None.
End Tally.
