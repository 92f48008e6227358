(** What a program did, apart from the addresses: the thing two logs are compared by. *)
From Coq Require Import String.
From Verif Require Import Base ReplayModel ReplaySpec.
Local Open Scope string_scope.
Local Open Scope Z_scope.

(** One step of a program.  Allocators are numbers in the order of creation, allocations are the number of
    the step that made them (0: null). *)
Inductive sop :=
| SCreate (k : Z) (cls name base : string) (tracked : bool) (args : list arg)
| SAlloc (k n : Z)
| SFree (k j : Z)
| SRealloc (k j n : Z)
| SDefault (k : Z)
| SRelease (k : Z)
| SCoalesce (k : option Z).   (** [None]: of something that is not an allocator of the program *)

(** Does the call count as a step?  Giving back what is not live does not. *)
Definition noted (H : list pcall) (c : pcall) : bool :=
  match c with
  | PFree r p => holds H r p
  | PMakeRes _ _ | PMake _ _ _ _ _ _ | PAlloc _ _ _ | PRealloc _ _ _ _ _ | PDefault _ | PRelease _ | PCoalesce _ => true
  | _ => false
  end.

Fixpoint count (H : list pcall) : Z :=
  match H with nil => 0 | c :: H => count H + if noted H c then 1 else 0 end.

(** The step that made the live allocation at [p] of the allocator at [r]. *)
Fixpoint born (H : list pcall) (r p : Z) : option Z :=
  match H with
  | nil => None
  | c :: H => if produces c r p then Some (count H + 1) else if consumes c r p then None else born H r p
  end.

(** Arguments without the heuristic of a pool, which a log does not hold. *)
Definition kept (cls : string) (args : list arg) : list arg :=
  if String.eqb cls "QuickPool" || String.eqb cls "DynamicPoolList" || String.eqb cls "MixedPool"
  then filter (fun a => match a with AN _ => true | AS _ => false end) args else args.

Definition step_of (H : list pcall) (c : pcall) : option sop :=
  let the r := match made H r with Some k => k | None => -1 end in
  let src r p := if p =? 0 then 0 else match born H r p with Some j => j | None => -1 end in
  if noted H c then
    match c with
    | PMakeRes _ name => Some (SCreate (ncreated H) "" name "" true [])
    | PMake _ name cls base tracked args => Some (SCreate (ncreated H) cls name base tracked (kept cls args))
    | PAlloc r n _ => Some (SAlloc (the r) n)
    | PFree r p => Some (SFree (the r) (src r p))
    | PRealloc r p n _ _ => Some (SRealloc (the r) (src r p) n)
    | PDefault r => Some (SDefault (the r))
    | PRelease r => Some (SRelease (the r))
    | PCoalesce name => Some (SCoalesce (option_map fst (made_name H name)))
    | _ => None
    end
  else None.

(** The steps, newest first. *)
Fixpoint shape (H : list pcall) : list sop :=
  match H with
  | nil => []
  | c :: H => match step_of H c with Some s => s :: shape H | None => shape H end
  end.

Definition creation (s : sop) : bool := match s with SCreate _ _ _ _ _ _ => true | _ => false end.

(** The same program at other addresses: the allocator at [r] is at [g r], its allocation at [p] at [f r p]. *)
Section Move.
  Variables (g : Z -> Z) (f : Z -> Z -> Z).
  Fixpoint move (c : pcall) : pcall :=
    match c with
    | PMakeRes r name => PMakeRes (g r) name
    | PMake r name cls base tracked args => PMake (g r) name cls base tracked args
    | PAlloc r n q => PAlloc (g r) n (f r q)
    | PNamed r name n q => PNamed (g r) name n (f r q)
    | PFree r p => PFree (g r) (f r p)
    | PRealloc r p n inner q => PRealloc (g r) (f r p) n (map move inner) (option_map (f r) q)
    | PDefault r => PDefault (g r)
    | PRelease r => PRelease (g r)
    | c => c
    end.
End Move.

(** The table of operations that the tool compiles the log of a program to; the texts of the fields and the
    times are arbitrary. *)
Definition logged (dump_s : list (string * string) -> string) (dump_n : list (string * Z) -> string)
    (times : nat -> string) (H : list pcall) (cs : cstate) : Prop :=
  build (file_size dump_s dump_n (records H) times) (records H) = Ok cs tt.

(** Operations come from lines 1 to [L] of a log. *)
Definition lines_ok (ln : Z -> Z) (L : Z) : Prop := L < 2 ^ 64 /\ forall i, 1 <= i -> 1 <= ln i <= L.
