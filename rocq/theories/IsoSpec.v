(** Vocabulary for which allocators a call can touch: the chain of an allocator, the state of one allocator, and
    results of calls that are the same up to a relation between the states. *)
From Verif Require Import Base HeapModel StratModel GlobalModel MapModel SystemModel.

(** The allocator itself, the one it takes memory from, the one that takes memory from, and so on. *)
Fixpoint chain (C : list nodecfg) (i : nat) : list nat :=
  match C with
  | [] => [0%nat]
  | c :: C' => if Nat.eqb i (S (length C')) then i :: chain C' (nc_parent c) else chain C' i
  end.

(** Allocator [j] (its counters and its private state) is the same in both states; for 0: the operating system. *)
Fixpoint same_at (C : list nodecfg) (j : nat) : gworld C -> gworld C -> Prop :=
  match C return gworld C -> gworld C -> Prop with
  | [] => fun w1 w2 => w1 = w2
  | c :: C' => fun w1 w2 => if Nat.eqb j (S (length C')) then fst w1 = fst w2 else same_at C' j (snd w1) (snd w2)
  end.

(** Two runs end in the same way, in related states. *)
Definition alike {W1 W2 A : Type} (R : W1 -> W2 -> Prop) (o1 : outcome W1 A) (o2 : outcome W2 A) : Prop :=
  match o1, o2 with
  | Ok w1 a, Ok w2 b => R w1 w2 /\ a = b
  | Throw w1 e, Throw w2 f => R w1 w2 /\ e = f
  | UB, UB => True
  | Abort, Abort => True
  | NoFuel, NoFuel => True
  | _, _ => False
  end.

(** A run that ends, by returning or by throwing, ends in a state with the property. *)
Definition ends {W A : Type} (P : W -> Prop) (o : outcome W A) : Prop :=
  match o with Ok w _ => P w | Throw w _ => P w | _ => True end.

(** The allocators a call on [i] may use; [z]: it is about zero bytes, for which there is a pool of its own. *)
Definition used (C : list nodecfg) (i : nat) (z : bool) : list nat := chain C i ++ if z then chain C zero_id else [].

(** The two states have the same allocators [L]. *)
Definition agree (C : list nodecfg) (L : list nat) (w1 w2 : gworld C) : Prop := forall j, In j L -> (j <= length C)%nat -> same_at C j w1 w2.

(** Any number of calls, each of which returned or threw; the list has the allocators they used. *)
Section Calls.
  Context (J : Judy (list arec)) (C : list nodecfg).

  Definition leaves {A : Type} (o : outcome (sworld J C) A) (s : sworld J C) : Prop :=
    match o with Ok s' _ => s' = s | Throw s' _ => s' = s | _ => False end.

  Inductive calls (s0 : sworld J C) : list nat -> sworld J C -> Prop :=
  | cs_none : calls s0 [] s0
  | cs_alloc L s i n nm s' : calls s0 L s -> leaves (sys_allocate J C i n nm s) s' -> calls s0 (used C i (n =? 0) ++ L) s'
  | cs_free L s i p s' : calls s0 L s -> leaves (sys_deallocate J C i p s) s' -> calls s0 (used C i (zero_owns C p (fst s)) ++ L) s'
  | cs_rm_free L s i m p s' : calls s0 L s -> sys_find_allocator J C p s = Ok (fst s, m) i ->
      leaves (rm_deallocate J C p s) s' -> calls s0 (used C i (zero_owns C p (fst s)) ++ L) s'
  | cs_release L s i s' : calls s0 L s -> leaves (sys_release J C i s) s' -> calls s0 (chain C i ++ L) s'
  | cs_coalesce L s i s' : calls s0 L s -> leaves (sys_coalesce J C i s) s' -> calls s0 (chain C i ++ L) s'
  | cs_size L s p s' : calls s0 L s -> leaves (rm_get_size J C p s) s' -> calls s0 L s'.
End Calls.
