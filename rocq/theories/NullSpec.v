(** Specification words for the null resource. *)
From Verif Require Import Base FixedMallocPoolModel NullModel.

(** [null_hist cap lim w G]: reached by granted requests of less than [lim] bytes, at most [cap] being live at a time, and by deallocations of live
    allocations; [G] are the live ones.  The resource was made when malloc had room. *)
Section Spec.
  Context {W : Type} (P : Parent W) (mmap : nat -> Z -> option Z) (page cap lim : Z).

  Inductive null_hist : nullw W -> list region -> Prop :=
  | nl_start h h' d w : 0 < d -> p_alloc P (SLOT * SLOTS) h = Ok h' d -> null_init P h = Ok h' w -> null_hist w []
  | nl_alloc w G n w' p : null_hist w G -> Z.of_nat (length G) < cap -> 0 < n < lim ->
      null_allocate P mmap page n w = Ok w' p -> p <> MAP_FAILED -> null_hist w' ((p, n) :: G)
  | nl_free w G1 p n G2 w' : null_hist w (G1 ++ (p, n) :: G2) -> null_deallocate page p w = Ok w' tt -> null_hist w' (G1 ++ G2).
End Spec.

(** Address [a] is mapped. *)
Definition is_mapped (m : list region) (a : Z) : Prop := exists r, In r m /\ fst r <= a < fst r + snd r.
