(** What a summary of a program should say, counted over its calls. *)
From Coq Require Import String.
From Verif Require Import Base ReplayModel ReplaySpec SummaryModel.
Local Open Scope string_scope.
Local Open Scope Z_scope.

(** The calls of one kind. *)
Definition counts_as (k : kind) (c : pcall) : bool :=
  match k, c with
  | KResource, PMakeRes _ _ | KAllocator, PMake _ _ _ _ _ _ | KAllocate, PAlloc _ _ _ | KDeallocate, PFree _ _
  | KRegister, PRegister | KDeregister, PDeregister | KCopy, PCopy | KMove, PMove
  | KReallocate, PRealloc _ _ _ _ _ | KDefault, PDefault _ | KCoalesce, PCoalesce _ | KRelease, PRelease _ => true
  | KVersion, PMeta n => String.eqb n "version"
  | _, _ => false
  end.

Fixpoint count (f : pcall -> bool) (l : list pcall) : Z :=
  match l with nil => 0 | c :: l => (if f c then 1 else 0) + count f l end.

Definition inside (c : pcall) : list pcall := match c with PRealloc _ _ _ inner _ => inner | _ => [] end.

(** Calls of the program and calls made inside of its reallocations. *)
Fixpoint number (k : kind) (H : list pcall) : Z :=
  match H with
  | nil => 0
  | c :: H => count (counts_as k) [c] + count (counts_as k) (inside c) + number k H
  end.

(** Deallocations of what is not live, null among them. *)
Fixpoint strays (H : list pcall) : Z :=
  match H with
  | nil => 0
  | c :: H => match c with PFree r p => if holds H r p then 0 else 1 | _ => 0 end + strays H
  end.

(** Reallocations of null allocate once more than they free, all others as often. *)
Definition even_call (c : pcall) : Prop :=
  match c with
  | PRealloc _ p _ inner _ =>
      count (counts_as KAllocate) inner = count (counts_as KDeallocate) inner + (if p =? 0 then 1 else 0)
  | _ => True
  end.

(** [L] lists the live allocations, each once. *)
Definition lists_live (H : list pcall) (L : list (Z * Z)) : Prop :=
  NoDup L /\ forall r p, In (r, p) L <-> holds H r p = true.
