(** Model of NullMemoryResource.cpp: address space without access, from mmap(2), with the lengths kept in a MemoryMap<size_t>.  The map's values lie in
    slots of a FixedMallocPool (MemoryMap.inl:61, 201-220; FixedMallocPoolModel.v) and deallocate reads a value through a pointer
    into its slot after the slot has been returned; the C++ standard leaves this undefined, the model has what the memory holds.
    The keys are a list of pairs of a key and the address of its slot. *)
From Verif Require Import Base FixedMallocPoolModel.

(** sizeof(size_t), MemoryMap.inl:31; FixedMallocPool.hpp:27 (objects_per_pool). *)
Definition SLOT : Z := 8.
Definition SLOTS : Z := 1024 * 1024.

(** MAP_FAILED, (void * ) -1. *)
Definition MAP_FAILED : Z := M64 - 1.

Record nullw (W : Type) : Type := mkNull {
  n_time : nat;
  n_maps : list region;               (** what is mapped, in whole pages *)
  n_table : list (Z * Z);             (** m_size_map *)
  n_slots : fmstate;                  (** its pool, with the lower words of the slots *)
  n_high : fmap Z;                    (** the upper words *)
  n_heap : W                          (** of malloc *)
}.
Arguments mkNull {W}. Arguments n_time {W}. Arguments n_maps {W}. Arguments n_table {W}.
Arguments n_slots {W}. Arguments n_high {W}. Arguments n_heap {W}.

Fixpoint key_find (p : Z) (l : list (Z * Z)) : option Z :=
  match l with [] => None | (k, a) :: l => if k =? p then Some a else key_find p l end.
Definition key_erase (p : Z) (l : list (Z * Z)) : list (Z * Z) := filter (fun x => negb (fst x =? p)) l.

Section Null.
  Context {W : Type} (P : Parent W) (mmap : nat -> Z -> option Z) (page : Z).

  Definition pages (n : Z) : Z := (n + (page - 1)) / page * page.

  (** What the system may answer: whole pages where nothing is mapped. *)
  Definition fresh (r : region) (m : list region) : bool :=
    forallb (fun x => (fst r + snd r <=? fst x) || (fst x + snd x <=? fst r)) m.
  Definition sys_mmap (n : Z) (w : nullw W) : nullw W * option Z :=
    let t := S (n_time w) in
    let same := mkNull t (n_maps w) (n_table w) (n_slots w) (n_high w) (n_heap w) in
    match mmap (n_time w) n with
    | Some p => if (0 <? n) && (0 <? p) && (p mod page =? 0) && (p + pages n <=? ASP) && fresh (p, pages n) (n_maps w)
                then (mkNull t ((p, pages n) :: n_maps w) (n_table w) (n_slots w) (n_high w) (n_heap w), Some p)
                else (same, None)
    | None => (same, None)
    end.

  (** munmap(2): fails for 0 bytes, within a page, and beyond the end of the address space; else unmaps every page of the range. *)
  Definition cut (a l : Z) (x : region) : list region :=
    (if fst x <? Z.min a (fst x + snd x) then [(fst x, Z.min a (fst x + snd x) - fst x)] else []) ++
    (if Z.max (a + l) (fst x) <? fst x + snd x then [(Z.max (a + l) (fst x), fst x + snd x - Z.max (a + l) (fst x))] else []).
  Definition sys_munmap (a n : Z) (m : list region) : list region :=
    if (0 <? n) && (a mod page =? 0) && (a + pages n <=? ASP) then flat_map (cut a (pages n)) m else m.

  (** NullMemoryResource.cpp:26-29. *)
  Definition null_init (h : W) : outcome W (nullw W) :=
    let* (h, s) := fm_init SLOT SLOTS P h in Ok h (mkNull 0 [] [] s fempty h).

  (** NullMemoryResource.cpp:31-44.  The answer is not checked; an entry that is there is kept (MemoryMap.inl:47-66). *)
  Definition null_allocate (n : Z) (w : nullw W) : outcome (nullw W) Z :=
    let '(w, r) := sys_mmap n w in
    let p := match r with Some p => p | None => MAP_FAILED end in
    match key_find p (n_table w) with
    | Some _ => Ok w p
    | None =>
        match fm_allocate SLOT SLOTS P 2 (n_slots w, n_heap w) with
        | Ok (s, h) a => Ok (mkNull (n_time w) (n_maps w) ((p, a) :: n_table w) (fm_write a (w32 n) s) (fset (n_high w) a (n / M32)) h) p
        | Throw (s, h) e => Throw (mkNull (n_time w) (n_maps w) (n_table w) s (n_high w) h) e
        | UB => UB | Abort => Abort | NoFuel => NoFuel
        end
    end.

  (** Whether the pool that owns slot [a] is full: returning a slot then stores a whole size_t (FixedMallocPool.cpp:114-116), else an
      unsigned int (111-113). *)
  Definition owner_full (a : Z) (s : fmstate) : bool :=
    match find (fun p => fm_owns SLOT SLOTS p a) (fm_pools s) with Some p => fm_next p =? 0 | None => false end.

  (** NullMemoryResource.cpp:46-60.  An unknown pointer is the end iterator, whose value is null. *)
  Definition null_deallocate (p : Z) (w : nullw W) : outcome (nullw W) unit :=
    match key_find p (n_table w) with
    | None => UB
    | Some a =>
        match fm_deallocate SLOT SLOTS a (n_slots w, n_heap w) with
        | Ok (s, h) _ =>
            let high := if owner_full a (n_slots w) then fset (n_high w) a 0 else n_high w in
            match fm_mem s a, high a with
            | Some lo, Some hi =>
                Ok (mkNull (n_time w) (sys_munmap p (lo + M32 * hi) (n_maps w)) (key_erase p (n_table w)) s high h) tt
            | _, _ => UB
            end
        | Throw (s, h) e => Throw (mkNull (n_time w) (n_maps w) (n_table w) s (n_high w) h) e
        | UB => UB | Abort => Abort | NoFuel => NoFuel
        end
    end.
End Null.
