(** The memory of device allocators and the two tables of them, one for the host and one for the device
    (src/umpire/device_allocator_helper.cpp and .hpp, src/umpire/DeviceAllocator.cpp); the table on the host alone is DeviceModel.v.

    Allocators are an oracle: [place k] is the address that the [k]th allocation gets, if any.  [copy_ok k]: whether the [k]th copy to a
    symbol succeeds; nobody looks at its result.  Entries that were never written are arbitrary.  Log messages and the memset of the
    counter are left out. *)
From Coq Require Import String Ascii.
From Verif Require Import Base DeviceModel.

(** DeviceAllocator.hpp:106-115: name, size and id as in DeviceModel.v, and the allocator, the memory and the counter. *)
Record dalloc : Type := mkDA { da_entry : dentry; da_owner : Z; da_ptr : Z; da_counter : Z }.

(** The allocator "UM". *)
Definition UM : Z := 0.

(** [dw_live]: addresses in use, with the allocator they are from.  [dw_arrays]: what the arrays hold.  [dw_host], [dw_dev]:
    UMPIRE_DEV_ALLOCS_h and UMPIRE_DEV_ALLOCS (device_allocator_helper.cpp:24-25), null at first.  [dw_index], [dw_exit]: the static
    variables of make_device_allocator.  [dw_track t]: macro_tracking (device_allocator_helper.hpp:19) of translation unit [t], which each
    has for itself; number 0 is the library's. *)
Record dworld : Type := mkDW {
  dw_calls : nat; dw_live : list (Z * Z); dw_arrays : fmap (list dalloc);
  dw_host : option Z; dw_index : Z; dw_exit : bool;
  dw_dev : option Z; dw_track : nat -> bool; dw_copies : nat }.

Definition dw_init : dworld := mkDW 0 [] fempty None 0 false None (fun _ => false) 0.

Section Mirror.
  Context (place : nat -> option Z) (fresh : Z -> list dalloc) (copy_ok : nat -> bool).

  (** Allocator::allocate *)
  Definition take (i : Z) (w : dworld) : outcome dworld Z :=
    let w1 l := mkDW (S (dw_calls w)) l (dw_arrays w) (dw_host w) (dw_index w) (dw_exit w) (dw_dev w) (dw_track w) (dw_copies w) in
    match place (dw_calls w) with
    | None => Throw (w1 (dw_live w)) OutOfMemory
    | Some p => Ok (w1 ((p, i) :: dw_live w)) p
    end.

  (** Allocator::deallocate: the pointer must be registered, for this allocator (C04). *)
  Definition give (i p : Z) (w : dworld) : outcome dworld unit :=
    if existsb (fun x => (fst x =? p) && (snd x =? i)) (dw_live w)
    then Ok (mkDW (dw_calls w) (filter (fun x => negb (fst x =? p)) (dw_live w)) (dw_arrays w) (dw_host w) (dw_index w) (dw_exit w)
               (dw_dev w) (dw_track w) (dw_copies w)) tt
    else Throw w RuntimeError.

  (** device_allocator_helper.hpp:74-91, used in translation unit [t]. *)
  Definition set_up (t : nat) (w : dworld) : dworld :=
    if dw_track w t then w
    else mkDW (dw_calls w) (dw_live w) (dw_arrays w) (dw_host w) (dw_index w) (dw_exit w)
           (if copy_ok (dw_copies w) then dw_host w else dw_dev w) (fun u => Nat.eqb u t || dw_track w u) (S (dw_copies w)).

  (** device_allocator_helper.cpp:188-204 *)
  Definition ensure_array (w : dworld) : outcome dworld Z :=
    match dw_host w with
    | Some a => Ok w a
    | None =>
        let* (w1, a) := take UM (mkDW (dw_calls w) (dw_live w) (dw_arrays w) None 0 true (dw_dev w) (dw_track w) (dw_copies w)) in
        Ok (mkDW (dw_calls w1) (dw_live w1) (fset (dw_arrays w1) a (fresh a)) (Some a) (dw_index w1) (dw_exit w1)
              (dw_dev w1) (dw_track w1) (dw_copies w1)) a
    end.

  (** device_allocator_helper.cpp:180-218 with DeviceAllocator.cpp:19-39. *)
  Definition make (i size : Z) (name : string) (w : dworld) : outcome dworld dalloc :=
    if size <=? 0 then Throw w RuntimeError
    else
      let* (w1, a) := ensure_array w in
      let* (w2, p) := take i w1 in
      let* (w3, c) := take UM w2 in
      if NAME_BYTES <=? Z.of_nat (String.length name) then UB
      else if DEV_ALLOCS <=? dw_index w3 then UB
      else
        match dw_arrays w3 a with
        | None => UB
        | Some l =>
            let d := mkDA (mkEntry name size (convert_to_array_index (dw_index w3))) i p c in
            Ok (set_up 0 (mkDW (dw_calls w3) (dw_live w3) (fset (dw_arrays w3) a (set_nth l (Z.to_nat (dw_index w3)) d)) (dw_host w3)
                            (dw_index w3 + 1) (dw_exit w3) (dw_dev w3) (dw_track w3) (dw_copies w3))) d
        end.

  (** DeviceAllocator.cpp:59-70, of the object or of a copy of it. *)
  Definition destroy_one (d : dalloc) (w : dworld) : outcome dworld unit :=
    let* (w1, u) := if da_counter d =? 0 then Ok w tt else give UM (da_counter d) w in
    if da_ptr d =? 0 then Ok w1 tt else give (da_owner d) (da_ptr d) w1.

  Fixpoint destroy_each (l : list dalloc) (w : dworld) : outcome dworld unit :=
    match l with
    | [] => Ok w tt
    | d :: l => let* (w1, u) := if 0 <? e_size (da_entry d) then destroy_one d w else Ok w tt in destroy_each l w1
    end.

  (** device_allocator_helper.cpp:220-228 *)
  Definition destroy_all (w : dworld) : outcome dworld unit :=
    match dw_host w with
    | None => UB
    | Some a =>
        match dw_arrays w a with
        | None => UB
        | Some l =>
            let* (w1, u) := destroy_each l w in
            Ok (mkDW (dw_calls w1) (dw_live w1) (dw_arrays w1) None (dw_index w1) (dw_exit w1) (dw_dev w1) (dw_track w1) (dw_copies w1)) tt
        end
    end.

  (** device_allocator_helper.cpp:89-101: a destructor, so an exception ends the program. *)
  Definition at_exit (w : dworld) : outcome dworld unit :=
    match dw_exit w, dw_host w with
    | true, Some _ => match destroy_all w with Throw _ _ => Abort | o => o end
    | _, _ => Ok w tt
    end.

  (** device_allocator_helper.cpp:119-135 with 157-175, on the host or on the device. *)
  Definition get_id (device : bool) (da_id : Z) (w : dworld) : outcome dworld dalloc :=
    let id := convert_to_array_index da_id in
    if (id <? 0) || (DEV_ALLOCS - 1 <? id) then Throw w RuntimeError
    else match (if device then dw_dev w else dw_host w) with
         | None => UB
         | Some a =>
             match dw_arrays w a with
             | None => UB
             | Some l => match nth_error l (Z.to_nat id) with
                         | Some d => if 0 <? e_size (da_entry d) then Ok w d else Throw w RuntimeError
                         | None => UB
                         end
             end
         end.

  (** device_allocator_helper.cpp:104-117 with 46-85. *)
  Definition get_name (device : bool) (name : string) (w : dworld) : outcome dworld dalloc :=
    match (if device then dw_dev w else dw_host w) with
    | None => Throw w RuntimeError
    | Some a =>
        match dw_arrays w a with
        | None => UB
        | Some l =>
            let index := if device then device_index 0 name (map da_entry l) else host_index 0 name (map da_entry l) (-1) in
            if index =? -1 then Throw w RuntimeError
            else match nth_error l (Z.to_nat index) with Some d => Ok w d | None => UB end
        end
    end.
End Mirror.
