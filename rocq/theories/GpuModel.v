(** Model of the resources for the memory of GPUs: CudaDeviceMemoryResource.cpp and HipDeviceMemoryResource.cpp (the same but
    for names), over CudaMallocAllocator.hpp and HipMallocAllocator.hpp.  The vendor's library is an oracle
    consulted with the time, a step counter; a thread has a current device, which memory is taken from.  One thread. *)
From Verif Require Import Base.

(** What the library answers: an address or an error for an allocation; success of a deallocation. *)
Record Vendor : Type := mkVendor { v_malloc : nat -> Z -> Z -> Z + exn; v_free : nat -> bool }.

Record gpu : Type := mkGpu {
  g_time : nat;
  g_cur : Z;                       (** the current device *)
  g_live : list (region * Z)       (** allocations and the device they are on *)
}.

Section Gpu.
  Context (v : Vendor) (count : Z).      (** number of devices *)

  (** cudaSetDevice: an error for a device that is not there changes nothing. *)
  Definition set_device (d : Z) (g : gpu) : gpu :=
    if (0 <=? d) && (d <? count) then mkGpu (g_time g) d (g_live g) else g.

  Definition apart (r : region) (l : list (region * Z)) : bool :=
    forallb (fun x => (fst r + snd r <=? fst (fst x)) || (fst (fst x) + snd (fst x) <=? fst r)) l.

  (** CudaMallocAllocator.hpp:31-47, HipMallocAllocator.hpp:35-79: cudaMalloc on the current device; an answer that is not fresh memory
      counts as an error. *)
  Definition vendor_allocate (n : Z) (g : gpu) : outcome gpu Z :=
    let g1 := mkGpu (S (g_time g)) (g_cur g) (g_live g) in
    match v_malloc v (g_time g) (g_cur g) n with
    | inl p =>
        if (0 <? n) && (0 <? p) && (p + n <=? ASP) && apart (p, n) (g_live g)
        then Ok (mkGpu (S (g_time g)) (g_cur g) (((p, n), g_cur g) :: g_live g)) p
        else Throw g1 RuntimeError
    | inr e => Throw g1 e
    end.

  (** CudaMallocAllocator.hpp:56-64: cudaFree, from whatever device. *)
  Definition vendor_deallocate (p : Z) (g : gpu) : outcome gpu unit :=
    let rest := filter (fun x => negb (fst (fst x) =? p)) (g_live g) in
    if existsb (fun x => fst (fst x) =? p) (g_live g) && v_free v (g_time g)
    then Ok (mkGpu (S (g_time g)) (g_cur g) rest) tt
    else Throw (mkGpu (S (g_time g)) (g_cur g) (g_live g)) RuntimeError.

  (** CudaDeviceMemoryResource.cpp:24-38; [id] is m_traits.id.  The results of cudaGetDevice and cudaSetDevice are not checked. *)
  Definition gpu_allocate (id n : Z) (g : gpu) : outcome gpu Z :=
    let old := g_cur g in
    let g1 := if negb (old =? id) then set_device id g else g in
    let* (g2, p) := vendor_allocate n g1 in
    let g3 := if negb (old =? id) then set_device old g2 else g2 in
    Ok g3 p.

  (** CudaDeviceMemoryResource.cpp:40-52 *)
  Definition gpu_deallocate (id p : Z) (g : gpu) : outcome gpu unit :=
    let old := g_cur g in
    let g1 := if negb (old =? id) then set_device id g else g in
    let* (g2, _) := vendor_deallocate p g1 in
    Ok (if negb (old =? id) then set_device old g2 else g2) tt.
End Gpu.
