(** What a NamingShim does to the statistics of the allocator it is built on: the parent's
    [allocate_named_internal] and [deallocate_internal] (src/umpire/strategy/AllocationStrategy.cpp:37-55)
    around the parent's own [allocate_named] and [deallocate].  The statistics of the other strategies'
    parents are in GlobalModel.v. *)
From Coq Require Import String.
From Verif Require Import Base StratModel NamingModel.

Section Shim.
  Context (m_name : string) {W : Type}
          (f : string -> Z -> W -> outcome W Z)     (** parent's [allocate_named] *)
          (g : Z -> Z -> W -> outcome W unit).      (** parent's [deallocate] *)

  (** AllocationStrategy.cpp:37-47: counted before the call, not restored when it throws. *)
  Definition allocate_named_internal (name : string) (n : Z) (sw : stats * W) : outcome (stats * W) Z :=
    omap (pair (stats_add n (fst sw))) (fun p => p) (f name n (snd sw)).

  (** AllocationStrategy.cpp:49-55. *)
  Definition plain_deallocate_internal (p n : Z) (sw : stats * W) : outcome (stats * W) unit :=
    omap (pair (stats_sub n (fst sw))) (fun u => u) (g p n (snd sw)).

  (** NamingShim.cpp:27-36 over these. *)
  Definition shim_allocate (n : Z) (s : Z * (stats * W)) : outcome (Z * (stats * W)) Z :=
    ns_allocate m_name allocate_named_internal n s.
  Definition shim_deallocate (p n : Z) (s : Z * (stats * W)) : outcome (Z * (stats * W)) unit :=
    ns_deallocate plain_deallocate_internal p n s.
End Shim.
