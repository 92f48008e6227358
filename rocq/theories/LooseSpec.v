(** Histories in which a deallocation may declare any size.  An untracked allocator
    (makeAllocator<Strategy, false>, ResourceManager.inl:57-62) keeps no record of its allocations:
    [Allocator::deallocate] then calls the strategy without a size, that is with size 0
    (Allocator.inl:105-108, AllocationStrategy.hpp:165), and neither call touches the statistics
    (Allocator.inl:40-42). *)
From Verif Require Import Base HeapModel StratModel GlobalModel GlobalSpec.

(** Allocator [i] as used by the program: tracked or not. *)
Definition gvia (tracked : bool) (C : list nodecfg) (i : nat) : Parent (gworld C) :=
  if tracked then guser C i else graw C i.

(** As [ghist], but every allocation may be made with or without tracking, and a deallocation of a live
    allocation may declare any size [m]. *)
Inductive lhist : forall C : list nodecfg, gworld C -> holdings -> Prop :=
| lh_start : forall oracle, lhist [] (stats0, mkHeap oracle 0 [] []) (fun _ => [])
| lh_create : forall C w X c w' v,
    lhist C w X -> node_ok C c -> gcreate C c w = Ok w' v -> lhist (c :: C) v X
| lh_create_throw : forall C w X c w' e,
    lhist C w X -> node_ok C c -> gcreate C c w = Throw w' e -> lhist C w' X
| lh_alloc : forall C w X b i n w' p,
    lhist C w X -> user_guard C i n w -> p_alloc (gvia b C i) n w = Ok w' p -> p <> 0 ->
    lhist C w' (hold X i ((p, n) :: X i))
| lh_alloc_null : forall C w X b i n w',
    lhist C w X -> user_guard C i n w -> p_alloc (gvia b C i) n w = Ok w' 0 -> lhist C w' X
| lh_alloc_throw : forall C w X b i n w' e,
    lhist C w X -> user_guard C i n w -> p_alloc (gvia b C i) n w = Throw w' e -> lhist C w' X
| lh_free : forall C w X b i p n m l1 l2 w',
    lhist C w X -> X i = l1 ++ (p, n) :: l2 -> p_dealloc (gvia b C i) p m w = Ok w' tt ->
    lhist C w' (hold X i (l1 ++ l2))
| lh_free_throw : forall C w X b i p n m l1 l2 w' e,
    lhist C w X -> X i = l1 ++ (p, n) :: l2 -> p_dealloc (gvia b C i) p m w = Throw w' e ->
    lhist C w' (hold X i (l1 ++ l2))
| lh_release : forall C w X i w',
    lhist C w X -> grelease C i w = Ok w' tt -> lhist C w' X
| lh_release_throw : forall C w X i w' e,
    lhist C w X -> grelease C i w = Throw w' e -> lhist C w' X
| lh_coalesce : forall C w X i w',
    lhist C w X -> gcoalesce C i w = Ok w' tt -> lhist C w' X
| lh_coalesce_throw : forall C w X i w' e,
    lhist C w X -> gcoalesce C i w = Throw w' e -> lhist C w' X.
