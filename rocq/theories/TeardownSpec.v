(** What the destruction of all allocators is expected to do. *)
From Verif Require Import Base HeapModel GlobalModel GlobalSpec.

(** Strategies that keep the blocks in which the program still has allocations. *)
Definition keeps (k : option kind) : Prop :=
  match k with
  | Some (KMonotonic _) | Some (KSlotPool _) => False
  | _ => True
  end.

(** No strategy of [C] loses memory of its parent: AllocationAdvisor and AllocationPrefetcher do when their
    operation throws. *)
Definition no_failed_advice (C : list nodecfg) : Prop :=
  forall c fails, In c C -> nc_kind c = KAdvised fails -> forall k p n, fails k p n = false.
