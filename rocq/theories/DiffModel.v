(** Model of replaydiff, which compares the compiled logs of two programs
    (tools/replay/replaydiff.cpp:50-59, ReplayInterpreter::compareOperations, ReplayFile::getLine).

    Simplified: the binary files are fresh, so that cells never written are zero (the tool does not truncate
    a binary file that it compiles again); the versions of both files are the one the tool writes itself
    (ReplayFile.cpp:54-55); [op_offsets] is zero throughout, as [copy] and [move] are not compiled; type,
    [argc] and [argv] of an allocator are the class and the arguments that the tool passes on. *)
From Coq Require Import String.
From Verif Require Import Base ReplayModel.
Local Open Scope Z_scope.

Definition type_eqb (a b : otype) : bool :=
  match a, b with
  | TNone, TNone | TCreate, TCreate | TAllocate, TAllocate | TCoalesce, TCoalesce | TDeallocate, TDeallocate
  | TReallocateEx, TReallocateEx | TRelease, TRelease | TDefault, TDefault => true
  | _, _ => false
  end.

(** ReplayInterpreter.cpp:314-341: no difference is found. *)
Definition oper_eqb (a b : oper) : bool :=
  type_eqb (o_type a) (o_type b) && (o_allocator a =? o_allocator b) && (o_size a =? o_size b) &&
  (o_src a =? o_src b) && (o_prev a =? o_prev b).

Definition arg_eqb (a b : arg) : bool :=
  match a, b with AS s, AS t => String.eqb s t | AN m, AN n => m =? n | _, _ => false end.
Fixpoint args_eqb (a b : list arg) : bool :=
  match a, b with
  | nil, nil => true
  | x :: a, y :: b => arg_eqb x y && args_eqb a b
  | _, _ => false
  end.

(** ReplayInterpreter.cpp:275-309. *)
Definition entry_eqb (a b : entry) : bool :=
  String.eqb (en_cls a) (en_cls b) && Bool.eqb (en_tracked a) (en_tracked b) && String.eqb (en_name a) (en_name b) &&
  String.eqb (en_base a) (en_base b) && args_eqb (en_args a) (en_args b).

(** A cell of a table of allocators, zero where nothing was written. *)
Definition entry_at (cs : cstate) (k : Z) : entry :=
  match c_entries cs k with
  | Some en => en
  | None => {| en_cls := "INIT"; en_name := EmptyString; en_base := EmptyString; en_tracked := false; en_args := [] |}
  end.

Section Compare.
  (** The lines of the logs that the operations came from, in the left and in the right file
      ([op_line_number]). *)
  Variables lnl lnr : Z -> Z.

  Definition line_at (ln : Z -> Z) (cs : cstate) (i : Z) : Z :=
    match c_tab cs i with Some _ => ln i | None => 0 end.
  Definition oper_at (cs : cstate) (i : Z) : oper :=
    match c_tab cs i with Some o => o | None => ozero end.

  (** ReplayFile.cpp:58-76: how often the loop of getLine goes round. *)
  Definition skips (lineno : Z) : Z := w64 (lineno - 1).

  (** ReplayInterpreter.cpp:312-352: [n] operations from [i] on; the answer with the rounds of getLine.
      The file has room for one operation more than [num_operations] (ReplayFile.cpp:82); reading behind
      that is [UB]. *)
  Fixpoint compare_ops (l r : cstate) (i : Z) (n : nat) : outcome unit (bool * Z) :=
    match n with
    | O => Ok tt (true, 0)
    | S n =>
        if (i <=? c_nops l) && (i <=? c_nops r) then
          if oper_eqb (oper_at l i) (oper_at r i) then compare_ops l r (i + 1) n
          else Ok tt (false, skips (line_at lnl l i) + skips (line_at lnr r i))
        else UB
    end.

  (** ReplayInterpreter.cpp:274-310. *)
  Definition compare_allocators (l r : cstate) : bool :=
    forallb (fun k => entry_eqb (entry_at l (Z.of_nat k)) (entry_at r (Z.of_nat k))) (seq 0 (Z.to_nat (c_nalloc r))).

  (** ReplayInterpreter.cpp:244-356; numbers of operations that differ are printed only (266-271). *)
  Definition compare (l r : cstate) : outcome unit (bool * Z) :=
    if negb (c_nalloc l =? c_nalloc r) then Ok tt (false, 0)
    else
      let same := compare_allocators l r in
      match compare_ops l r 0 (Z.to_nat (c_nops r)) with
      | Ok _ (b, z) => Ok tt (same && b, z)
      | o => o
      end.
End Compare.
