(** Memory that Umpire did not allocate, entered into the registry of allocations by the program
    (src/umpire/Umpire.cpp:263-287), and the lookups of the resource manager in a registry with such records
    (src/umpire/ResourceManager.cpp:335-360, 853-859, 880-890).  Log messages and backtraces are left out. *)
From Verif Require Import Base HeapModel StratModel GlobalModel MapModel SystemModel.

(** The strategy of a record (AllocationRecord.hpp:42) may be a null pointer. *)
Definition no_strategy : Z := -1.

Section Ext.
  Context (J : Judy (list arec)) (C : list nodecfg).

  (** Umpire.cpp:263-277.  [events]: event_build_enabled; the event asks the strategy for its name. *)
  Definition ext_register (events : bool) (p : Z) (r : arec) (sw : sworld J C) : outcome (sworld J C) unit :=
    if events && (r_strat r =? no_strategy) then UB else sys_register J C p r sw.

  (** Umpire.cpp:279-287 with ResourceManager.cpp:356-360. *)
  Definition ext_deregister (p : Z) (sw : sworld J C) : outcome (sworld J C) arec :=
    omap (pair (fst sw)) (fun r => r) (am_remove J p (snd sw)).

  (** ResourceManager.cpp:335-340. *)
  Definition has_allocator (p : Z) (sw : sworld J C) : outcome (sworld J C) bool :=
    omap (pair (fst sw)) (fun b => b) (am_contains J p (snd sw)).

  (** ResourceManager.cpp:880-890. *)
  Definition find_allocator (p : Z) (sw : sworld J C) : outcome (sworld J C) nat :=
    let* (sw1, r) := omap (pair (fst sw)) (fun r => r) (am_find J p (snd sw)) in
    if r_strat r =? no_strategy then Throw sw1 RuntimeError else Ok sw1 (Z.to_nat (r_strat r)).

  (** ResourceManager.cpp:853-859. *)
  Definition rm_free (p : Z) (sw : sworld J C) : outcome (sworld J C) unit :=
    let* (sw1, i) := find_allocator p sw in sys_deallocate J C i p sw1.
End Ext.
