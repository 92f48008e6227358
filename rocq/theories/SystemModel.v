(** The whole allocation system: the allocators of GlobalModel.v together with the registry of live
    allocations, as used through [Allocator] and [ResourceManager].  Logging, events, backtraces and the
    lock of ThreadSafeAllocator are left out; all allocators are tracked. *)
From Verif Require Import Base HeapModel StratModel WrapModel QuickPoolModel FixedPoolModel GlobalModel MapModel.

(** ResourceManager.cpp:94-130.  Allocator 0 stands for the operating system, from which both [malloc]
    (HOST) and [mmap] (the NULL resource, NullMemoryResource.cpp:31-44) take memory; a failing [mmap]
    is taken to throw (the code does not look for MAP_FAILED).  The zero-byte pool is
    [FixedPool(..., null_allocator, 1)] with the default of 64 * 32 objects (FixedPool.hpp:41-42). *)
Definition host_id : nat := 1.
Definition null_id : nat := 2.
Definition zero_id : nat := 3.

Definition boot : list nodecfg :=
  [mkNode (KFixed 1 2048 2) null_id; mkNode KPassThrough 0; mkNode KPassThrough 0].

(** The strategy object with number [i]. *)
Fixpoint gnode (C : list nodecfg) (i : nat) : gworld C -> option {k : kind & st_ty (strat_of k)} :=
  match C return gworld C -> option {k : kind & st_ty (strat_of k)} with
  | [] => fun _ => None
  | c :: C' => fun nw =>
      if Nat.eqb i (S (length C')) then Some (existT _ (nc_kind c) (snd (fst nw))) else gnode C' i (snd nw)
  end.

(** Allocator.cpp:49-67: [getCurrentSize], [getHighWatermark], [getAllocationCount]; FixedPool.cpp:189-202
    and MonotonicAllocationStrategy.cpp:50-60 override the first two. *)
Definition current_size (C : list nodecfg) (i : nat) (w : gworld C) : Z :=
  match gnode C i w with
  | Some (existT _ k s) =>
      match k return st_ty (strat_of k) -> Z with
      | KFixed _ _ _ => fun s => fx_cur s
      | KMonotonic _ => fun s => mo_size s
      | _ => fun _ => st_cur (gstats C i w)
      end s
  | None => st_cur (gstats C i w)
  end.

Definition high_watermark (C : list nodecfg) (i : nat) (w : gworld C) : Z :=
  match gnode C i w with
  | Some (existT _ k s) =>
      match k return st_ty (strat_of k) -> Z with
      | KFixed _ _ _ => fun s => fx_hwm s
      | KMonotonic capacity => fun _ => capacity
      | _ => fun _ => st_hwm (gstats C i w)
      end s
  | None => st_hwm (gstats C i w)
  end.

Definition allocation_count (C : list nodecfg) (i : nat) (w : gworld C) : Z := st_cnt (gstats C i w).

(** A request that [malloc] or [realloc] turned down: nothing changes except that it was made. *)
Fixpoint gtick (C : list nodecfg) : gworld C -> gworld C :=
  match C return gworld C -> gworld C with
  | [] => fun w => (fst w, mkHeap (h_oracle (snd w)) (S (h_step (snd w))) (h_live (snd w)) (h_refused (snd w)))
  | _ :: C' => fun w => (fst w, gtick C' (snd w))
  end.

Section System.
  Context (J : Judy (list arec)) (C : list nodecfg).

  Definition sworld : Type := (gworld C * amap J)%type.

  (** FixedPool.cpp:219-230 on the zero-byte pool (AllocateNull.cpp:36). *)
  Definition zero_owns (p : Z) (w : gworld C) : bool :=
    match gnode C zero_id w with
    | Some (existT _ k s) =>
        match k return st_ty (strat_of k) -> bool with
        | KFixed obj per _ => fun s => fx_is_from_pool obj per p s
        | _ => fun _ => false
        end s
    | None => false
    end.

  (** ResourceManager.cpp:342-354. *)
  Definition sys_register (p : Z) (r : arec) (sw : sworld) : outcome sworld unit :=
    if p =? 0 then Throw sw RuntimeError
    else omap (pair (fst sw)) (fun u => u) (am_insert J p r (snd sw)).

  (** Inspector.cpp:17-39: the statistics are updated first. *)
  Definition sys_track (i : nat) (p n nm : Z) (sw : sworld) : outcome sworld unit :=
    sys_register p (mkRec p n (Z.of_nat i) nm) (gupd C i (stats_add n) (fst sw), snd sw).

  (** Allocator.inl:20-48 and 68-89 (the named version; [nm] = 0 is the unnamed one).  Zero bytes come
      from the zero-byte pool (AllocateNull.cpp:22-29). *)
  Definition sys_allocate (i : nat) (n nm : Z) (sw : sworld) : outcome sworld Z :=
    let* (sw1, p) :=
      omap (fun w => (w, snd sw)) (fun p => p)
        (if n =? 0 then p_alloc (graw C zero_id) 1 (fst sw) else p_alloc (graw C i) n (fst sw)) in
    let* (sw2, u) := sys_track i p n nm sw1 in Ok sw2 p.

  (** Inspector.cpp:41-56. *)
  Definition sys_untrack (i : nat) (p : Z) (sw : sworld) : outcome sworld arec :=
    let* (sw1, r) := omap (pair (fst sw)) (fun r => r) (am_remove J p (snd sw)) in
    if r_strat r =? Z.of_nat i
    then Ok (gupd C i (stats_sub (r_size r)) (fst sw1), snd sw1) r
    else let* (sw2, u) := sys_register p (mkRec p (r_size r) (r_strat r) (r_name r)) sw1 in
         Throw sw2 RuntimeError.

  (** Allocator.inl:91-112 with AllocateNull.cpp:31-43. *)
  Definition sys_deallocate (i : nat) (p : Z) (sw : sworld) : outcome sworld unit :=
    if p =? 0 then Ok sw tt
    else
      let* (sw1, r) := sys_untrack i p sw in
      omap (fun w => (w, snd sw1)) (fun u => u)
        (if zero_owns p (fst sw1) then p_dealloc (graw C zero_id) p 1 (fst sw1)
         else p_dealloc (graw C i) p (r_size r) (fst sw1)).

  (** ResourceManager.cpp:880-890 (every record has a strategy). *)
  Definition sys_find_allocator (p : Z) (sw : sworld) : outcome sworld nat :=
    omap (pair (fst sw)) (fun r => Z.to_nat (r_strat r)) (am_find J p (snd sw)).

  (** ResourceManager.cpp:853-859; umpire::free. *)
  Definition rm_deallocate (p : Z) (sw : sworld) : outcome sworld unit :=
    let* (sw1, i) := sys_find_allocator p sw in sys_deallocate i p sw1.

  (** ResourceManager.cpp:861-866. *)
  Definition rm_get_size (p : Z) (sw : sworld) : outcome sworld Z :=
    omap (pair (fst sw)) r_size (am_find J p (snd sw)).

  (** Allocator.cpp:28-41 and Umpire.cpp:289-315. *)
  Definition sys_release (i : nat) (sw : sworld) : outcome sworld unit :=
    omap (fun w => (w, snd sw)) (fun u => u) (grelease C i (fst sw)).
  Definition sys_coalesce (i : nat) (sw : sworld) : outcome sworld unit :=
    omap (fun w => (w, snd sw)) (fun u => u) (gcoalesce C i (fst sw)).

  (** C [realloc] of a block of [old] bytes that HOST has from [malloc]: on success the block is given back
      and another one, which may be at the same address, has been found; on failure it stays as it is.
      The contents are in OpsModel.v. *)
  Definition host_realloc (p old n : Z) (w : gworld C) : outcome (gworld C) Z :=
    match p_dealloc (graw C host_id) p old w with
    | Ok w1 _ =>
        match p_alloc (graw C host_id) n w1 with
        | Ok w2 q => Ok w2 q
        | Throw _ _ => Throw (gtick C w) RuntimeError
        | UB => UB | Abort => Abort | NoFuel => NoFuel
        end
    | Throw w1 e => Throw w1 e
    | UB => UB | Abort => Abort | NoFuel => NoFuel
    end.

  (** HostReallocateOperation.cpp:34-43, for an allocation of more than zero bytes.  The statistics of
      HOST are not told; the new record has no name; when [realloc] fails the old record is gone. *)
  Definition sys_host_realloc (p n : Z) (sw : sworld) : outcome sworld Z :=
    let* (sw1, r) := omap (pair (fst sw)) (fun r => r) (am_remove J p (snd sw)) in
    let* (sw2, q) := omap (fun w => (w, snd sw1)) (fun q => q) (host_realloc p (r_size r) n (fst sw1)) in
    let* (sw3, u) := sys_register q (mkRec q n (Z.of_nat host_id) 0) sw2 in Ok sw3 q.
End System.
