(** Histories of device allocators, and what they should hold. *)
From Coq Require Import String Ascii.
From Verif Require Import Base DeviceModel MirrorModel.

(** The memory of a device allocator: where it allocates, and its counter. *)
Definition memory_of (d : dalloc) : list (Z * Z) := [(da_ptr d, da_owner d); (da_counter d, UM)].

(** The array that the host has; arrays are from "UM". *)
Definition arrays_at (h : option Z) : list Z := match h with Some a => [a] | None => [] end.
Definition um (l : list Z) : list (Z * Z) := map (fun a => (a, UM)) l.

(** Addresses in use are different and not null. *)
Definition apart (w : dworld) : Prop := NoDup (map fst (dw_live w)) /\ ~ In 0 (map fst (dw_live w)).

(** Memory for an array is 64 entries that look empty (if not, see C48). *)
Definition blank_arrays (fresh : Z -> list dalloc) : Prop :=
  forall a, Z.of_nat (List.length (fresh a)) = DEV_ALLOCS /\ forall d, In d (fresh a) -> e_size (da_entry d) <= 0.

Section Hist.
  Context (place : nat -> option Z) (fresh : Z -> list dalloc) (copy_ok : nat -> bool).

  (** [mhist w made old k]: [made] are the device allocators made since the array was allocated, newest first; [old] the
      arrays before it; [k] calls of make_device_allocator threw.  Other translation units than the library's may use the macro. *)
  Inductive mhist : dworld -> list dalloc -> list Z -> nat -> Prop :=
  | mh_start : mhist dw_init [] [] 0
  | mh_make w made old k i size name w' d :
      mhist w made old k -> make place fresh copy_ok i size name w = Ok w' d -> apart w' -> mhist w' (d :: made) old k
  | mh_throw w made old k i size name w' e :
      mhist w made old k -> make place fresh copy_ok i size name w = Throw w' e -> apart w' -> mhist w' made old (S k)
  | mh_destroy w made old k w' a :
      mhist w made old k -> dw_host w = Some a -> destroy_all w = Ok w' tt -> mhist w' [] (a :: old) k
  | mh_set_up w made old k t : mhist w made old k -> t <> 0%nat -> mhist (set_up copy_ok t w) made old k.

  (** Calls in which no translation unit uses the macro for the first time. *)
  Inductive later (w : dworld) : dworld -> Prop :=
  | la_now : later w w
  | la_make w1 i size name w2 d : later w w1 -> make place fresh copy_ok i size name w1 = Ok w2 d -> later w w2
  | la_throw w1 i size name w2 e : later w w1 -> make place fresh copy_ok i size name w1 = Throw w2 e -> later w w2
  | la_destroy w1 w2 : later w w1 -> destroy_all w1 = Ok w2 tt -> later w w2
  | la_set_up w1 t : later w w1 -> dw_track w1 t = true -> later w (set_up copy_ok t w1).
End Hist.
