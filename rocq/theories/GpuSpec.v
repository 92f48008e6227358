(** Specification words for the GPU resources. *)
From Verif Require Import Base GpuModel.

(** [ghist ok g G c]: reached by allocations from and deallocations to resources for devices, and by the program's own choices of the current
    device, from an arbitrary one; [G] are the live allocations with the device of the resource each came
    from; [c] is the device the program chose last.  [strict]: no call failed. *)
Section Spec.
  Context (v : Vendor) (count : Z) (strict : bool).

  Inductive ghist : gpu -> list (region * Z) -> Z -> Prop :=
  | gh_start c : 0 <= c < count -> ghist (mkGpu 0 c []) [] c
  | gh_choose g G c d : ghist g G c -> 0 <= d < count -> ghist (set_device count d g) G d
  | gh_alloc g G c id n g' p : ghist g G c -> 0 <= id < count -> gpu_allocate v count id n g = Ok g' p -> ghist g' (((p, n), id) :: G) c
  | gh_free g G1 G2 c p n id g' : ghist g (G1 ++ ((p, n), id) :: G2) c -> gpu_deallocate v count id p g = Ok g' tt -> ghist g' (G1 ++ G2) c
  | gh_alloc_fail g G c id n g' e : strict = false -> ghist g G c -> 0 <= id < count -> gpu_allocate v count id n g = Throw g' e -> ghist g' G c
  | gh_free_fail g G c p n id g' e : strict = false -> ghist g G c -> In ((p, n), id) G -> gpu_deallocate v count id p g = Throw g' e -> ghist g' G c.
End Spec.
