(** Model of HipConstantMemoryResource.cpp, CudaConstantMemoryResource.cu and NoOpMemoryResource.cpp: resources that hand out
    addresses by advancing a counter.  The mutex is left out: one call at a time. *)
From Verif Require Import Base.

(** s_umpire_internal_device_constant_memory has 64 * 1024 bytes: HipConstantMemoryResource.cpp:17, CudaConstantMemoryResource.cu:16. *)
Definition CONST : Z := 64 * 1024.

(** m_initialized (always true for HIP) and m_offset. *)
Record const : Type := mkConst { c_init : bool; c_off : Z }.

(** The constructors: HipConstantMemoryResource.cpp:22-30, CudaConstantMemoryResource.cu:21-30. *)
Definition const_start (cuda : bool) : const := mkConst (negb cuda) 0.

Section Const.
  Context (base : Z).      (** the address of the array; null before initialisation (CUDA) *)

  (** HipConstantMemoryResource.cpp:32-49, CudaConstantMemoryResource.cu:32-61.  [found]: cudaGetSymbolAddress succeeds.  The offset is advanced
      before the check. *)
  Definition const_allocate (found : bool) (n : Z) (s : const) : outcome const Z :=
    if negb (c_init s) && negb found then Throw s RuntimeError
    else
      let p := w64 (base + c_off s) in
      let off := w64 (c_off s + n) in
      if CONST <? off then Throw (mkConst true off) RuntimeError
      else Ok (mkConst true off) p.

  (** HipConstantMemoryResource.cpp:51-62, CudaConstantMemoryResource.cu:63-75. *)
  Definition const_deallocate (p n : Z) (s : const) : outcome const unit :=
    let m_ptr := if c_init s then base else 0 in
    if w64 (m_ptr + w64 (c_off s - n)) =? p then Ok (mkConst (c_init s) (w64 (c_off s - n))) tt
    else Throw s RuntimeError.
End Const.

(** NoOpMemoryResource.hpp:63: m_count. *)
Definition noop_start : Z := 2 ^ 48.

(** NoOpMemoryResource.cpp:30-35. *)
Definition noop_allocate (n : Z) (s : Z) : outcome Z Z := Ok (w64 (s + n)) s.

(** NoOpMemoryResource.cpp:37-40. *)
Definition noop_deallocate (p n : Z) (s : Z) : outcome Z unit := Ok s tt.
