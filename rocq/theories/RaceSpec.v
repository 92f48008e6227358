(** What a data race is, and a summary of each call: the shared variables it may use and the mutexes it then holds. *)
From Verif Require Import Base StratModel GlobalModel SystemModel RaceModel IsoSpec.

(** Two threads are about to access the same variable, one of them to write it (with mutexes as the only means of
    synchronization this is a data race of the C++ standard, [intro.races]). *)
Definition race (g : rcfg) (l : loc) : Prop :=
  exists t u w w' k k', t <> u /\ r_rem g t = SAcc w l :: k /\ r_rem g u = SAcc w' l :: k' /\ (w = true \/ w' = true).

(** Every strategy was made after its parent. *)
Definition grown (C : list nodecfg) : Prop := forall i c, node_at C i = Some c -> (nc_parent c < i)%nat.

(** The variables of the strategies in the chain of [i], the operating system apart. *)
Definition deep (C : list nodecfg) (i : nat) (l : loc) : Prop :=
  exists j, In j (chain C i) /\ j <> 0%nat /\
    ((exists f, l = LStat j f) \/ (exists c, l = LState j /\ node_at C j = Some c /\ has_state (nc_kind c) = true)).

Section Touch.
  Context (C : list nodecfg) (ts : nat -> bool).

  Definition mine (i : nat) : list mtx := if ts i then [MAlloc i] else [].

  (** [touch c w l H]: call [c] may read (or write, if [w]) variable [l] while it holds exactly the mutexes [H]. *)
  Definition touch (c : dcall) (w : bool) (l : loc) (H : list mtx) : Prop :=
    match c with
    | DAlloc i a => (deep C i l \/ exists f, l = LStat i f) /\ H = mine i \/ (l = LMap \/ l = LRec a) /\ H = MMap :: mine i
    | DAllocZero i a => (deep C zero_id l \/ exists f, l = LStat i f) /\ H = mine i \/ (l = LMap \/ l = LRec a) /\ H = MMap :: mine i
    | DFree i a => (deep C i l \/ (exists f, l = LStat i f) \/ l = LState zero_id /\ w = false) /\ H = mine i \/
                   (l = LMap \/ l = LRec a) /\ H = MMap :: mine i
    | DFreeZero i a => (deep C zero_id l \/ (exists f, l = LStat i f) \/ l = LState zero_id /\ w = false) /\ H = mine i \/
                   (l = LMap \/ l = LRec a) /\ H = MMap :: mine i
    | DGive i a => (deep C i l \/ (exists f, l = LStat i f) \/ l = LState zero_id /\ w = false) /\ H = mine i \/
                   (l = LMap \/ l = LRec a) /\ H = MMap :: mine i \/
                   l = LMap /\ H = [MMap] \/
                   l = LRec a /\ w = false /\ (H = [MMap] \/ H = [])
    | DRelease i => deep C i l /\ H = []
    | DCoalesce i => deep C i l /\ H = []
    | DCount i => w = false /\ ((exists f, l = LStat i f) \/ l = LState i) /\ H = []
    | DSize a => l = LMap /\ H = [MMap] \/ l = LRec a /\ w = false /\ (H = [MMap] \/ H = [])
    | DRecords => w = false /\ (l = LMap \/ exists a, l = LRec a) /\ H = []
    | DLook => w = false /\ l = LNames /\ H = []
    | DFetch => l = LNames /\ H = []
    | DMake j => (l = LNames \/ deep C j l \/ exists f, l = LStat j f) /\ H = [MReg]
    | DAlias => l = LNames /\ H = []
    | DDefault => (l = LDefault \/ l = LNames /\ w = false) /\ H = []
    | DSetDefault => l = LDefault /\ H = []
    end.
End Touch.

(** ** Programs *)

(** [prog t] are the calls of thread [t], [T t] the steps they come down to; [g] is reached by some interleaving. *)
Definition reaches (C : list nodecfg) (ts : nat -> bool) (prog : Z -> list dcall) (g : rcfg) : Prop :=
  exists T acts, (forall t, spells C ts (prog t) (T t)) /\ rrun acts (r_init T) = Some g.

(** Calls of two different threads. *)
Definition apart (prog : Z -> list dcall) (R : dcall -> dcall -> Prop) : Prop :=
  forall t u c c', t <> u -> In c (prog t) -> In c' (prog u) -> R c c'.

(** The allocator an allocation or deallocation is made through, and the memory it is about; calls that are neither
    have none. *)
Definition through (c : dcall) : option nat :=
  match c with
  | DAlloc i _ | DAllocZero i _ | DFree i _ | DFreeZero i _ | DGive i _ => Some i
  | _ => None
  end.

(** Allocation and deallocation of more than zero bytes, and getSize; not through the pool for zero bytes. *)
Definition everyday (C : list nodecfg) (c : dcall) : Prop :=
  match c with
  | DAlloc i _ | DFree i _ | DGive i _ => ~ In zero_id (i :: chain C i)
  | DSize _ => True
  | _ => False
  end.
Definition about (c : dcall) : option Z :=
  match c with DAlloc _ a | DAllocZero _ a | DFree _ a | DFreeZero _ a | DGive _ a | DSize a => Some a | _ => None end.

(** An allocator that both have in their chains, with members that change. *)
Definition share_state (C : list nodecfg) (i j : nat) : Prop :=
  exists k c, In k (chain C i) /\ In k (chain C j) /\ node_at C k = Some c /\ has_state (nc_kind c) = true.

(** Calls that look at a record without the map's mutex. *)
Definition peeks (c : dcall) : bool := match c with DGive _ _ | DSize _ => true | _ => false end.

Definition unpeeked (c c' : dcall) : Prop := forall a, about c = Some a -> about c' = Some a -> peeks c = false /\ peeks c' = false.

(** The rule for everyday calls of two threads: one allocator is used by both only if it is thread-safe, different
    allocators have no strategy with changing members in common, and no thread looks at a record of memory that
    another thread allocates or deallocates. *)
Definition careful (C : list nodecfg) (ts : nat -> bool) (c c' : dcall) : Prop :=
  (forall i j, through c = Some i -> through c' = Some j -> (i = j -> ts i = true) /\ (i <> j -> ~ share_state C i j)) /\ unpeeked c c'.

(** Allocator [k] is [i] or one that [i] takes memory from. *)
Definition under (C : list nodecfg) (i k : nat) : Prop := k <> 0%nat /\ In k (i :: chain C i).

(** Calls about the names and the default allocator. *)
Definition reads_only (c : dcall) : Prop := match c with DCount _ | DLook | DRecords => True | _ => False end.
Definition names_unlocked (c : dcall) : Prop := match c with DLook | DFetch | DAlias | DDefault => True | _ => False end.

(** Two threads with one call each. *)
Definition two (c c' : dcall) : Z -> list dcall := fun t => if t =? 1 then [c] else if t =? 2 then [c'] else [].
