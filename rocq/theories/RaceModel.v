(** Which shared variables the calls of the library read and write, and under which mutexes.

    A call is the sequence of its accesses to shared variables and of its lock and unlock operations; the values do not matter.
    Threads run their calls step by step in any interleaving.
    Simplifications:
    - the private state of a strategy is one variable, and so are the registry of allocations (AllocationMap without the
      records), the records kept for one address, and the tables of allocators in ResourceManager;
    - a strategy may read and write its own state and call its parent in any order and number (the real orders are among
      them), and may end after any part of that (an exception);
    - every thread has Allocator objects of its own (AllocateNull.cpp:24, 33 caches a pointer in them), all allocators are
      tracked, [malloc], [mmap] and the like are atomic; the logger, the event recorder and backtraces are left out. *)
From Verif Require Import Base StratModel GlobalModel SystemModel.

(** AllocationStrategy.hpp:135-137. *)
Inductive field : Type := Cur | Hwm | Cnt.

Inductive loc : Type :=
| LStat (i : nat) (f : field)   (* a counter of strategy [i] *)
| LState (i : nat)              (* its other members that change *)
| LMap                          (* AllocationMap.hpp:167-168: the map with its position, and its size *)
| LRec (a : Z)                  (* the list of records for address [a] (AllocationMap.hpp:26-80) *)
| LNames                        (* ResourceManager.hpp:330-341: m_allocators, m_allocators_by_name, m_allocators_by_id, m_memory_resources, m_id *)
| LDefault.                     (* m_default_allocator *)

Inductive mtx : Type :=
| MAlloc (i : nat)              (* ThreadSafeAllocator.hpp:41 *)
| MMap                          (* AllocationMap.hpp:169 *)
| MReg.                         (* ResourceManager.hpp:343 *)

Inductive step : Type := SLock (m : mtx) | SUnlock (m : mtx) | SAcc (w : bool) (l : loc).
Notation rd := (SAcc false).
Notation wr := (SAcc true).

(** [x += n], [x++], [x -= n], [x--]. *)
Definition change (l : loc) : list step := [rd l; wr l].

(** AllocationStrategy.cpp:22-27 and Inspector.cpp:19-24, 31-36; [hw]: the high watermark is passed. *)
Definition count_up (i : nat) (hw : bool) : list step :=
  change (LStat i Cur) ++ change (LStat i Cnt) ++ [rd (LStat i Cur); rd (LStat i Hwm)] ++
  if hw then [rd (LStat i Cur); wr (LStat i Hwm)] else [].
(** AllocationStrategy.cpp:51-52 and Inspector.cpp:47-48. *)
Definition count_down (i : nat) : list step := change (LStat i Cur) ++ change (LStat i Cnt).

(** Accesses, in any order, to the variables [ls]; [r]: reads only. *)
Definition accesses (r : bool) (ls : list loc) (tr : list step) : Prop :=
  Forall (fun s => exists w l, s = SAcc w l /\ In l ls /\ (r = true -> w = false)) tr.

(** AllocationMap.cpp:155-174 [insert], 239-261 [remove]: the map and the records for the address. *)
Definition map_change (a : Z) (tr : list step) : Prop :=
  exists b, accesses false [LMap; LRec a] b /\ tr = SLock MMap :: b ++ [SUnlock MMap].
(** AllocationMap.cpp:176-224 [find]: the map remembers its position (Judy's last key), the record is only read. *)
Definition map_find (a : Z) (tr : list step) : Prop :=
  exists b1 b2, accesses false [LMap] b1 /\ accesses true [LRec a] b2 /\ tr = SLock MMap :: (b1 ++ b2) ++ [SUnlock MMap].

(** Strategy number [i]. *)
Fixpoint node_at (C : list nodecfg) (i : nat) : option nodecfg :=
  match C with
  | [] => None
  | c :: C' => if Nat.eqb i (S (length C')) then Some c else node_at C' i
  end.

(** Members that change after construction, other than the counters: SizeLimiter.hpp:41 m_total_size,
    MonotonicAllocationStrategy.hpp:39 m_size, the pools' lists.  AlignedAllocator keeps its words in the memory handed out;
    the wrappers, AllocationAdvisor, AllocationPrefetcher and NumaPolicy have none. *)
Definition has_state (k : kind) : bool :=
  match k with
  | KPassThrough | KAdvised _ | KAligned _ => false
  | _ => true
  end.

(** [allocate], [deallocate], [release] or [coalesce] of strategy [i], by whatever it does to its own members and
    [allocate_internal]/[deallocate_internal] (AllocationStrategy.cpp:20-55) of its parent.  A strategy over 0 is a memory
    resource.  Only DynamicPoolList's heuristics look at the own counters (DynamicPoolList.cpp:139-195). *)
Inductive work (C : list nodecfg) : nat -> list step -> Prop :=
| wk_end i : work C i []
| wk_own i c w tr : node_at C i = Some c -> has_state (nc_kind c) = true -> work C i tr -> work C i (SAcc w (LState i) :: tr)
| wk_look i c tr : node_at C i = Some c -> (exists cfg, nc_kind c = KDynamic cfg) -> work C i tr -> work C i (rd (LStat i Cur) :: tr)
| wk_take i c hw tr1 tr2 : node_at C i = Some c -> nc_parent c <> 0%nat -> work C (nc_parent c) tr1 -> work C i tr2 ->
    work C i (count_up (nc_parent c) hw ++ tr1 ++ tr2)
| wk_give i c tr1 tr2 : node_at C i = Some c -> nc_parent c <> 0%nat -> work C (nc_parent c) tr1 -> work C i tr2 ->
    work C i (count_down (nc_parent c) ++ tr1 ++ tr2).

(** A constructor: it may allocate from the parent [j] (FixedPool.cpp:40-54, MonotonicAllocationStrategy.cpp:16-24). *)
Inductive builds (C : list nodecfg) (j : nat) : list step -> Prop :=
| bl_end : builds C j []
| bl_take hw tr1 tr2 : work C j tr1 -> builds C j tr2 -> builds C j (count_up j hw ++ tr1 ++ tr2).

(** Allocator.inl:20-48, 68-89 with Inspector.cpp:17-39: [k] bytes more than zero go to strategy [i], zero to the zero-byte
    pool (AllocateNull.cpp:22-29); the second constructor is the case of an exception. *)
Inductive allocs (C : list nodecfg) (i k : nat) (a : Z) : list step -> Prop :=
| al_ok tr hw m : work C k tr -> map_change a m -> allocs C i k a (tr ++ count_up i hw ++ m)
| al_throw tr : work C k tr -> allocs C i k a tr.

(** Allocator.inl:91-112 with Inspector.cpp:41-56 and AllocateNull.cpp:31-43.  The zero-byte pool is asked first. *)
Inductive frees (C : list nodecfg) (i k : nat) (a : Z) : list step -> Prop :=
| fr_ok m tr : map_change a m -> work C k tr -> frees C i k a (m ++ count_down i ++ rd (LState zero_id) :: tr)
| fr_wrong m m' : map_change a m -> map_change a m' -> frees C i k a (m ++ m')
| fr_unknown m : map_change a m -> frees C i k a m
| fr_null : frees C i k a [].

(** The calls; [a] is the address of the memory. *)
Inductive dcall : Type :=
| DAlloc (i : nat) (a : Z)        (* Allocator::allocate of more than zero bytes *)
| DAllocZero (i : nat) (a : Z)    (* of zero bytes *)
| DFree (i : nat) (a : Z)
| DFreeZero (i : nat) (a : Z)
| DGive (i : nat) (a : Z)         (* ResourceManager::deallocate of memory that belongs to [i] *)
| DRelease (i : nat)
| DCoalesce (i : nat)
| DCount (i : nat)                (* getCurrentSize, getHighWatermark, getAllocationCount, getActualSize *)
| DSize (a : Z)                   (* getSize *)
| DRecords                        (* get_allocator_records, get_leaked_allocations *)
| DLook                           (* getAllocator and isAllocator of what exists, getAllocatorNames, getAllocatorIds *)
| DFetch                          (* getAllocator of a resource used for the first time *)
| DMake (j : nat)                 (* makeAllocator of a strategy over [j] *)
| DAlias                          (* addAlias, removeAlias *)
| DDefault                        (* getDefaultAllocator *)
| DSetDefault.

Section Code.
  Context (C : list nodecfg).
  Context (ts : nat -> bool).   (** which strategies are ThreadSafeAllocators *)

  (** Allocator.inl:50-66, 114-127. *)
  Definition locked (i : nat) (b : list step) : list step :=
    if ts i then SLock (MAlloc i) :: b ++ [SUnlock (MAlloc i)] else b.

  (** Umpire.cpp:289-315, QuickPool.cpp:204-251, FixedPool.cpp:177-187, DynamicPoolList.cpp:51-55: of the strategies only pools
      release. *)
  Definition releases (k : kind) : bool :=
    match k with KQuick _ _ | KFixed _ _ _ | KDynamic _ | KDynamicKeep _ _ _ => true | _ => false end.

  Inductive code : dcall -> list step -> Prop :=
  | cd_alloc i a b : allocs C i i a b -> code (DAlloc i a) (locked i b)
  | cd_alloc_zero i a b : allocs C i zero_id a b -> code (DAllocZero i a) (locked i b)
  | cd_free i a b : frees C i i a b -> code (DFree i a) (locked i b)
  | cd_free_zero i a b : frees C i zero_id a b -> code (DFreeZero i a) (locked i b)
  (** ResourceManager.cpp:853-859, 880-890: the record is read when the map's mutex has been released. *)
  | cd_give i a m b : map_find a m -> frees C i i a b -> code (DGive i a) (m ++ rd (LRec a) :: locked i b)
  (** Allocator.cpp:28-41: no lock. *)
  | cd_release i c b : node_at C i = Some c -> (releases (nc_kind c) = true -> work C i b) -> (releases (nc_kind c) = false -> b = []) -> code (DRelease i) b
  | cd_coalesce i c b : node_at C i = Some c -> (releases (nc_kind c) = true -> work C i b) -> (releases (nc_kind c) = false -> b = []) -> code (DCoalesce i) b
  (** Allocator.cpp:49-67: no lock. *)
  | cd_count i b : accesses true [LStat i Cur; LStat i Hwm; LStat i Cnt; LState i] b -> code (DCount i) b
  (** ResourceManager.cpp:861-866. *)
  | cd_size a m : map_find a m -> code (DSize a) (m ++ [rd (LRec a)])
  (** Umpire.cpp:50-60: the iterators of the map take no lock. *)
  | cd_records b : (exists ls, accesses true (LMap :: map LRec ls) b) -> code DRecords b
  (** ResourceManager.cpp:188-250, 321-333, 892-911. *)
  | cd_look b : accesses true [LNames] b -> code DLook b
  (** ResourceManager.cpp:132-206. *)
  | cd_fetch b : accesses false [LNames] b -> code DFetch b
  (** ResourceManager.inl:20-55. *)
  | cd_make j b1 b2 b3 : accesses false [LNames] b1 -> builds C j b2 -> accesses false [LNames] b3 ->
      code (DMake j) (SLock MReg :: (b1 ++ b2 ++ b3) ++ [SUnlock MReg])
  (** ResourceManager.cpp:286-313. *)
  | cd_alias b : accesses false [LNames] b -> code DAlias b
  (** ResourceManager.cpp:252-262. *)
  | cd_default b : accesses false [LDefault] b -> code DDefault b
  | cd_default_host b b' : accesses false [LDefault] b -> accesses true [LNames] b' -> code DDefault (b ++ b' ++ [wr LDefault; rd LDefault])
  (** ResourceManager.cpp:271-284. *)
  | cd_set_default : code DSetDefault [wr LDefault].

  (** The calls of one thread, one after the other. *)
  Inductive spells : list dcall -> list step -> Prop :=
  | sp_nil : spells [] []
  | sp_cons c p b tr : code c b -> spells p tr -> spells (c :: p) (b ++ tr).
End Code.

(** ** Threads *)

Definition mtx_eqb (x y : mtx) : bool :=
  match x, y with
  | MAlloc i, MAlloc j => Nat.eqb i j
  | MMap, MMap => true
  | MReg, MReg => true
  | _, _ => false
  end.

(** What each thread still has to do, and who holds each mutex. *)
Record rcfg : Type := mkR { r_rem : Z -> list step; r_owner : mtx -> option Z }.

Definition r_init (T : Z -> list step) : rcfg := mkR T (fun _ => None).
Definition set_rem (g : rcfg) (t : Z) (k : list step) : Z -> list step := fun u => if u =? t then k else r_rem g u.
Definition set_owner (g : rcfg) (m : mtx) (x : option Z) : mtx -> option Z := fun m' => if mtx_eqb m' m then x else r_owner g m'.

(** The next step of thread [t], if it can go on. *)
Definition rstep (t : Z) (g : rcfg) : option rcfg :=
  match r_rem g t with
  | [] => None
  | SLock m :: k =>
      match r_owner g m with
      | None => Some (mkR (set_rem g t k) (set_owner g m (Some t)))
      | Some _ => None
      end
  | SUnlock m :: k =>
      match r_owner g m with
      | Some u => if u =? t then Some (mkR (set_rem g t k) (set_owner g m None)) else None
      | None => None
      end
  | SAcc _ _ :: k => Some (mkR (set_rem g t k) (r_owner g))
  end.

Fixpoint rrun (l : list Z) (g : rcfg) : option rcfg :=
  match l with [] => Some g | t :: l => match rstep t g with Some g' => rrun l g' | None => None end end.
