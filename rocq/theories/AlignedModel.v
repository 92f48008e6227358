(** Model of the [AlignedAllocation] mixin
    (src/umpire/strategy/mixins/AlignedAllocation.inl, .cpp). *)
From Verif Require Import Base.

(** AlignedAllocation.inl:18-21
    [size + (m_alignment - 1) - (size - 1) % m_alignment], all in [size_t]. *)
Definition aligned_round_up (A size : Z) : Z :=
  w64 (w64 (size + (A - 1)) - (w64 (size - 1)) mod A).

(** AlignedAllocation.cpp:18: [m_mask = ~(m_alignment - 1)] (a [uintptr_t]),
    AlignedAllocation.inl:30-32: [(ptr + (m_alignment - 1)) & m_mask]. *)
Definition align_mask (A : Z) : Z := w64 (Z.lnot (A - 1)).
Definition align_up (A ptr : Z) : Z :=
  Z.land (w64 (ptr + (A - 1))) (align_mask A).

(** [base_pointer_map : unordered_map<void*, tuple<void*, size_t>>]
    (AlignedAllocation.hpp:47), keyed by the aligned pointer. *)
Definition base_map : Type := fmap (Z * Z).

Section WithParent.
  Context {W : Type} (P : Parent W).

  (** AlignedAllocation.inl:23-38.  The sanitizer call is in SanModel.v. *)
  Definition aligned_allocate (A size : Z) (bm : base_map) (w : W)
    : outcome (base_map * W) Z :=
    let total := w64 (size + A) in
    match p_alloc P total w with
    | Ok w' ptr =>
        let aligned := align_up A ptr in
        Ok (fset bm aligned (ptr, total), w') aligned
    | Throw w' e => Throw (bm, w') e
    | UB => UB
    | Abort => Abort
    | NoFuel => NoFuel
    end.

  (** AlignedAllocation.inl:40-47.  [operator[]] on a missing key yields a
      default tuple (nullptr, 0), which is then handed to the parent. *)
  Definition aligned_deallocate (ptr : Z) (bm : base_map) (w : W)
    : outcome (base_map * W) unit :=
    let '(buffer, size) :=
      match bm ptr with Some bs => bs | None => (0, 0) end in
    omap (fun w' => (fdel bm ptr, w')) (fun u => u)
         (p_dealloc P buffer size w).
End WithParent.
