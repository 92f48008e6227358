(** Models of small functions on top of the registry and of allocators: pointer_overlaps and pointer_contains
    (src/umpire/Umpire.cpp), relative_fragmentation (src/umpire/util/allocation_statistics.cpp) and
    TypedAllocator (src/umpire/TypedAllocator.inl). *)
From Verif Require Import Base GlobalModel MapModel SystemModel.

Section Pointers.
  Context (J : Judy (list arec)).

  (** The end of an allocation; [char*] plus size. *)
  Definition rec_end (r : arec) : Z := w64 (r_ptr r + r_size r).

  (** Umpire.cpp:62-79, with ResourceManager.cpp:362-373 (every record has a strategy).  The handler rethrows. *)
  Definition pointer_overlaps (left right : Z) (a : amap J) : outcome (amap J) bool :=
    let* (a, l) := am_find J left a in
    let* (a, r) := am_find J right a in
    Ok a ((r_ptr l <=? r_ptr r) && (r_ptr r <? rec_end l) && (rec_end l <? rec_end r)).

  (** Umpire.cpp:81-98. *)
  Definition pointer_contains (left right : Z) (a : amap J) : outcome (amap J) bool :=
    let* (a, l) := am_find J left a in
    let* (a, r) := am_find J right a in
    Ok a ((r_ptr l <=? r_ptr r) && (r_ptr r <? rec_end l) && (rec_end r <=? rec_end l)).
End Pointers.

(** allocation_statistics.cpp:16-30.  The iterators [r1] and [r2] are indices; the result is the pair of the largest and
    the total free space that go into the quotient. *)
Fixpoint fragmentation_loop (fuel : nat) (recs : list arec) (r1 r2 : nat) (largest total : Z) : outcome unit (Z * Z) :=
  match fuel with
  | O => NoFuel
  | S fuel =>
      if Nat.eqb r2 (length recs) then Ok tt (largest, total)
      else match nth_error recs r1, nth_error recs r2 with
           | Some x1, Some x2 =>
               let free_space := w64 (r_ptr x2 - (r_ptr x1 + r_size x1)) in
               fragmentation_loop fuel recs r1 r2 (Z.max largest free_space) (w64 (total + free_space))
           | _, _ => UB
           end
  end.
Definition relative_fragmentation (fuel : nat) (recs : list arec) : outcome unit (Z * Z) :=
  match recs with
  | [] => UB    (* ++ on begin() == end() *)
  | _ => fragmentation_loop fuel recs 0 1 0 0
  end.

(** TypedAllocator.inl:26-29, for elements of [s] bytes. *)
Definition typed_allocate (J : Judy (list arec)) (C : list nodecfg) (i : nat) (s n : Z) (sw : sworld J C) : outcome (sworld J C) Z :=
  sys_allocate J C i (w64 (s * n)) 0 sw.
(** 32-35. *)
Definition typed_deallocate (J : Judy (list arec)) (C : list nodecfg) (i : nat) (p : Z) (sw : sworld J C) : outcome (sworld J C) unit :=
  sys_deallocate J C i p sw.
