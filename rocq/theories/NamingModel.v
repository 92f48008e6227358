(** Model of NamingShim (src/umpire/strategy/NamingShim.cpp). *)
From Coq Require Import String DecimalString.
From Verif Require Import Base.

(** [std::to_string] of an unsigned number: decimal, without leading zeros. *)
Definition dec (n : Z) : string := NilZero.string_of_uint (N.to_uint (Z.to_N n)).

Section NamingShim.
  Context (m_name : string) {W : Type}
          (alloc_named : string -> Z -> W -> outcome W Z) (** parent's [allocate_named_internal] *)
          (dealloc : Z -> Z -> W -> outcome W unit).      (** parent's [deallocate_internal] *)

  (** NamingShim.cpp:28. *)
  Definition ns_name (counter : Z) : string := (m_name ++ "_alloc_" ++ dec counter)%string.

  (** NamingShim.cpp:27-31.  State: [m_counter], a [size_t]. *)
  Definition ns_allocate (bytes : Z) (cw : Z * W) : outcome (Z * W) Z :=
    omap (pair (w64 (fst cw + 1))) (fun p => p) (alloc_named (ns_name (fst cw)) bytes (snd cw)).

  (** NamingShim.cpp:33-36: the size is not passed on (AllocationStrategy.hpp:63 gives it the
      default 0). *)
  Definition ns_deallocate (ptr size : Z) (cw : Z * W) : outcome (Z * W) unit :=
    omap (pair (fst cw)) (fun u => u) (dealloc ptr 0 (snd cw)).
End NamingShim.
