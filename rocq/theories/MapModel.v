(** Model of util::MemoryMap (src/umpire/util/MemoryMap.inl) and util::AllocationMap
    (src/umpire/util/AllocationMap.cpp), over any implementation of the Judy array functions they
    call.  Locks, logging and the pools the values live in are left out (see
    FixedMallocPoolModel.v for those); a value stored in a cell stands for the C++ pointer to it. *)
From Verif Require Import Base.

(** The functions of judy.h that MemoryMap uses, for integer keys of 8 bytes.  A call that returns
    a cell returns its location; [None] is a null pointer.  [j_read]/[j_write] dereference a cell;
    an empty cell reads as [None]. *)
Record Judy (V : Type) : Type := mkJudy {
  j_ty : Type;
  j_loc : Type;
  j_open : j_ty;
  j_cell : Z -> j_ty -> j_ty * j_loc;
  j_slot : Z -> j_ty -> j_ty * option j_loc;
  j_strt : Z -> j_ty -> j_ty * option j_loc;      (* judy_strt with max = 8 *)
  j_first : j_ty -> j_ty * option j_loc;          (* judy_strt with max = 0 *)
  j_nxt : j_ty -> j_ty * option j_loc;
  j_prv : j_ty -> j_ty * option j_loc;
  j_del : j_ty -> j_ty;
  j_key : j_ty -> Z -> Z;                         (* new contents of the key buffer *)
  j_read : j_ty -> j_loc -> option V;
  j_write : j_ty -> j_loc -> V -> j_ty
}.
Arguments j_ty {V}. Arguments j_loc {V}. Arguments j_open {V}. Arguments j_cell {V}. Arguments j_slot {V}.
Arguments j_strt {V}. Arguments j_first {V}. Arguments j_nxt {V}. Arguments j_prv {V}. Arguments j_del {V}.
Arguments j_key {V}. Arguments j_read {V}. Arguments j_write {V}.

Section MemoryMap.
  Context {V : Type} (J : Judy V).

  (** MemoryMap.hpp:182-186.  [mm_oper] is the address of the last iterator that moved the Judy
      cursor; 0 stands for the map itself and for none. *)
  Record mmap : Type := mkMM {
    mm_j : j_ty J;
    mm_last : option (j_loc J);
    mm_oper : Z;
    mm_size : Z
  }.

  (** MemoryMap.inl:30-35. *)
  Definition mm_init : mmap := mkMM (j_open J) None 0 0.

  (** [m_last ? *m_last : nullptr] *)
  Definition mm_deref (m : mmap) : option V :=
    match mm_last m with Some l => j_read J (mm_j m) l | None => None end.

  (** MemoryMap.inl:47-66, 86-92: the value at the key, and whether it was added. *)
  Definition mm_insert (k : Z) (v : V) (m : mmap) : mmap * (Z * option V) * bool :=
    let '(j, l) := j_cell J k (mm_j m) in
    match j_read J j l with
    | None =>
        let m' := mkMM (j_write J j l v) (Some l) 0 (w64 (mm_size m + 1)) in
        (m', (k, mm_deref m'), true)
    | Some _ =>
        let m' := mkMM j (Some l) 0 (mm_size m) in
        (m', (k, mm_deref m'), false)
    end.

  (** MemoryMap.inl:68-84: the other two overloads report the opposite. *)
  Definition mm_insert_pair (k : Z) (v : V) (m : mmap) : mmap * (Z * option V) * bool :=
    let '(m', kv, b) := mm_insert k v m in (m', kv, negb b).

  (** MemoryMap.inl:94-130. *)
  Definition mm_find_or_before (k : Z) (m : mmap) : mmap * (Z * option V) :=
    let '(j, l) := j_strt J k (mm_j m) in
    let parent := j_key J j 0 in
    let m1 := mkMM j l 0 (mm_size m) in
    match parent =? k, mm_deref m1 with
    | true, Some v => (m1, (parent, Some v))
    | _, _ =>
        let '(j2, l2) := j_prv J j in
        let m2 := mkMM j2 l2 0 (mm_size m) in
        (m2, (j_key J j2 parent, mm_deref m2))
    end.

  (** MemoryMap.inl:132-152; [end()] is the pair of two null pointers. *)
  Definition mm_find (k : Z) (m : mmap) : mmap * (Z * option V) :=
    let '(j, l) := j_slot J k (mm_j m) in
    let m' := mkMM j l 0 (mm_size m) in
    (m', match l with Some _ => (k, mm_deref m') | None => (0, None) end).

  (** MemoryMap.inl:201-220.  Destroying a null value is undefined. *)
  Definition mm_remove_last (m : mmap) : outcome mmap unit :=
    match mm_deref m with
    | None => UB
    | Some _ => Ok (mkMM (j_del J (mm_j m)) (mm_last m) (mm_oper m) (w64 (mm_size m - 1))) tt
    end.

  (** MemoryMap.inl:154-169. *)
  Definition mm_erase (k : Z) (m : mmap) : outcome mmap unit :=
    let '(j, l) := j_slot J k (mm_j m) in
    let m' := mkMM j l 0 (mm_size m) in
    match l with
    | Some _ => mm_remove_last m'
    | None => Throw m' RuntimeError
    end.

  (** MemoryMap.inl:183-193. *)
  Fixpoint mm_clear (fuel : nat) (m : mmap) : outcome mmap unit :=
    match fuel with
    | O => NoFuel
    | S f =>
        let '(j, l) := j_first J (mm_j m) in
        let m' := mkMM j l (mm_oper m) (mm_size m) in
        match l with
        | None => Ok (mkMM j l (mm_oper m) 0) tt
        | Some _ => let* (m2, _) := mm_remove_last m' in mm_clear f m2
        end
    end.

  (** Writing to the value [m_last] points to. *)
  Definition mm_assign (v : V) (m : mmap) : mmap :=
    match mm_last m with
    | Some l => mkMM (j_write J (mm_j m) l v) (mm_last m) (mm_oper m) (mm_size m)
    | None => m
    end.

  (** MemoryMap.hpp:76-77; [it_addr] is the address of the iterator object. *)
  Record miter : Type := mkIt {
    it_addr : Z;
    it_key : Z;
    it_val : option V
  }.

  (** MemoryMap.inl:229-238, with [this] = [addr]. *)
  Definition mi_begin (addr : Z) (m : mmap) : mmap * miter :=
    let '(j, l) := j_first J (mm_j m) in
    let m' := mkMM j l addr (mm_size m) in
    (m', mkIt addr (j_key J j 0) (mm_deref m')).

  (** MemoryMap.inl:240-245. *)
  Definition mi_end (addr : Z) : miter := mkIt addr 0 None.

  (** MemoryMap.inl:268-290. *)
  Definition mi_next (it : miter) (m : mmap) : mmap * miter :=
    let j0 := if negb (it_key it =? 0) && negb (mm_oper m =? it_addr it)
              then fst (j_slot J (it_key it) (mm_j m)) else mm_j m in
    let '(j, l) := j_nxt J j0 in
    let m' := mkMM j l (it_addr it) (mm_size m) in
    match l with
    | None => (m', mkIt (it_addr it) 0 (it_val it))
    | Some _ => (m', mkIt (it_addr it) (j_key J j (it_key it)) (mm_deref m'))
    end.

  (** MemoryMap.inl:301-315, for iterators of one map. *)
  Definition mi_eq (a b : miter) : bool := it_key a =? it_key b.

  (** [for (it = begin(); it != end(); ++it)], collecting the pairs.  [None]: not finished within
      the fuel. *)
  Fixpoint mi_walk (fuel : nat) (it : miter) (m : mmap) : option (mmap * list (Z * option V)) :=
    match fuel with
    | O => None
    | S f =>
        if mi_eq it (mi_end 0) then Some (m, [])
        else let '(m', it') := mi_next it m in
             match mi_walk f it' m' with
             | Some (m2, l) => Some (m2, (it_key it, it_val it) :: l)
             | None => None
             end
    end.
End MemoryMap.
Arguments mkMM {V J}. Arguments mm_j {V J}. Arguments mm_last {V J}. Arguments mm_oper {V J}. Arguments mm_size {V J}.

(** AllocationRecord.hpp:24-44; strategies are numbered, names are numbered ([0] is ""). *)
Record arec : Type := mkRec {
  r_ptr : Z;
  r_size : Z;
  r_strat : Z;
  r_name : Z
}.

Section AllocationMap.
  (** A RecordList (AllocationMap.cpp:22-97) is the list of its records, newest first. *)
  Context (J : Judy (list arec)).

  (** AllocationMap.hpp:163-169. *)
  Record amap : Type := mkAM { am_map : mmap J; am_size : Z }.

  (** AllocationMap.cpp:151-153. *)
  Definition am_init : amap := mkAM (mm_init J) 0.

  (** AllocationMap.cpp:155-174. *)
  Definition am_insert (k : Z) (r : arec) (a : amap) : outcome amap unit :=
    let '(m, (_, second), inserted) := mm_insert J k [r] (am_map a) in
    if inserted then Ok (mkAM m (w64 (am_size a + 1))) tt
    else match second with
         | Some rs => Ok (mkAM (mm_assign J (r :: rs) m) (w64 (am_size a + 1))) tt
         | None => UB
         end.

  (** AllocationMap.cpp:200-224. *)
  Definition am_find_record (p : Z) (a : amap) : outcome amap (option arec) :=
    let '(m, (_, second)) := mm_find_or_before J p (am_map a) in
    let a' := mkAM m (am_size a) in
    match second with
    | None => Ok a' None
    | Some [] => UB
    | Some (c :: _) =>
        if (p <? w64 (r_ptr c + r_size c)) || (r_ptr c =? p) then Ok a' (Some c) else Ok a' None
    end.

  (** AllocationMap.cpp:176-198. *)
  Definition am_find (p : Z) (a : amap) : outcome amap arec :=
    match am_find_record p a with
    | Ok a' (Some r) => Ok a' r
    | Ok a' None => Throw a' UnknownPointer
    | Throw a' e => Throw a' e
    | UB => UB | Abort => Abort | NoFuel => NoFuel
    end.

  (** AllocationMap.cpp:239-261, with [pop_back] (49-67). *)
  Definition am_remove (k : Z) (a : amap) : outcome amap arec :=
    let '(m, (_, second)) := mm_find J k (am_map a) in
    match second with
    | None => Throw (mkAM m (am_size a)) RuntimeError
    | Some [] => Throw (mkAM m (am_size a)) RuntimeError
    | Some (r :: rs) =>
        let m1 := mm_assign J rs m in
        match rs with
        | [] => match mm_remove_last J m1 with
                | Ok m2 _ => Ok (mkAM m2 (w64 (am_size a - 1))) r
                | _ => UB
                end
        | _ :: _ => Ok (mkAM m1 (w64 (am_size a - 1))) r
        end
    end.

  (** AllocationMap.cpp:263-267. *)
  Definition am_contains (p : Z) (a : amap) : outcome amap bool :=
    omap (fun a => a) (fun r => match r with Some _ => true | None => false end) (am_find_record p a).

  (** AllocationMap.cpp:269-277. *)
  Definition am_clear (fuel : nat) (a : amap) : outcome amap unit :=
    omap (fun m => mkAM m 0) (fun u => u) (mm_clear J fuel (am_map a)).

  (** AllocationMap.hpp:108-114.  The inner iterator is the rest of the list it walks, with the key
      of that list; [None] is [InnerIter{}]. *)
  Record aiter : Type := mkAIt {
    ai_outer : @miter (list arec);
    ai_inner : option (Z * list arec)
  }.

  (** AllocationMap.cpp:331-337. *)
  Definition ai_begin (addr : Z) (a : amap) : outcome amap aiter :=
    let '(m, it) := mi_begin J addr (am_map a) in
    let a' := mkAM m (am_size a) in
    if it_key it =? 0 then Ok a' (mkAIt it None)
    else match it_val it with
         | Some rs => Ok a' (mkAIt it (Some (it_key it, rs)))
         | None => UB
         end.

  (** AllocationMap.cpp:354-367, with RecordList::ConstIterator::operator++ (125-131). *)
  Definition ai_next (it : aiter) (a : amap) : outcome amap aiter :=
    match ai_inner it with
    | None => Throw a RuntimeError
    | Some (_, []) => Throw a RuntimeError
    | Some (k, _ :: ((_ :: _) as rest)) => Ok a (mkAIt (ai_outer it) (Some (k, rest)))
    | Some (_, [_]) =>
        let '(m, o) := mi_next J (ai_outer it) (am_map a) in
        let a' := mkAM m (am_size a) in
        if mi_eq o (mi_end 0) then Ok a' (mkAIt o None)
        else match it_val o with
             | Some rs => Ok a' (mkAIt o (Some (it_key o, rs)))
             | None => UB
             end
    end.

  (** AllocationMap.cpp:376-384 against [end()] (339-342). *)
  Definition ai_at_end (it : aiter) : bool :=
    mi_eq (ai_outer it) (mi_end 0) && match ai_inner it with None => true | Some _ => false end.

  (** AllocationMap.cpp:113-123, 344-352. *)
  Definition ai_deref (it : aiter) : option arec :=
    match ai_inner it with Some (_, r :: _) => Some r | _ => None end.

  Fixpoint ai_walk (fuel : nat) (it : aiter) (a : amap) : outcome amap (list arec) :=
    match fuel with
    | O => NoFuel
    | S f =>
        if ai_at_end it then Ok a []
        else match ai_deref it with
             | None => Throw a RuntimeError
             | Some r => let* (a', it') := ai_next it a in
                         let* (a2, l) := ai_walk f it' a' in Ok a2 (r :: l)
             end
    end.

  (** [for (auto& r : map)]; the iterator lives at [addr]. *)
  Definition am_records (fuel : nat) (addr : Z) (a : amap) : outcome amap (list arec) :=
    let* (a', it) := ai_begin addr a in ai_walk fuel it a'.

  (** umpire::get_allocator_records (Umpire.cpp:50-60): [copy_if] walks with a copy of the iterator,
      at another address. *)
  Definition am_records_of (fuel : nat) (addr addr' : Z) (s : Z) (a : amap) : outcome amap (list arec) :=
    let* (a', it) := ai_begin addr a in
    let copy := mkAIt (mkIt addr' (it_key (ai_outer it)) (it_val (ai_outer it))) (ai_inner it) in
    omap (fun a => a) (filter (fun r => r_strat r =? s)) (ai_walk fuel copy a').
End AllocationMap.
