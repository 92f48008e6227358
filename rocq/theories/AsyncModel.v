(** Model of the operations that take a camp resource, and of the operations of the vendors: copy, memset, reallocate
    and prefetch of the resource manager (src/umpire/ResourceManager.cpp:418-461, 463-534, 569-756, 834-851) with the
    classes of src/umpire/op.

    The streams of the vendors are queues of effects on memory: a call on a stream appends an effect, the device runs
    the oldest effect of any stream at any time ([a_step]).  All memory is one address space; memory of OpenMP devices
    is taken to have addresses of its own.  Calls of the vendors without a stream act at once and do not wait for
    streams.  Allocators are external: [place] says what their [k]-th call returns, [noise] what they do
    to bytes that belong to no allocation (their behaviour is the subject of C08 to C36).  The allocation map is the
    list of its records (C01 to C03).  Left out: events, log messages, exceptions thrown by SYCL queues. *)
From Coq Require Import String.
From Verif Require Import Base RegistryModel OpTableModel MapModel OpsModel.

(** What a queued call will do to memory. *)
Inductive effect : Type :=
| Copy (dst src n : Z)
| Fill (p v n : Z).

Definition run_effect (e : effect) (m : mem) : mem :=
  match e with Copy d s n => mem_copy d s n m | Fill p v n => mem_fill p v n m end.

(** camp::resources::Resource *)
Record context : Type := mkCtx { cx_platform : platform; cx_stream : Z }.

Record aworld : Type := mkA {
  a_live : list arec;              (** the allocation map, newest record first *)
  a_mem : mem;
  a_pend : list (Z * effect);      (** queued effects with their streams, oldest first *)
  a_hints : list (Z * Z * Z);      (** prefetched so far: pointer, bytes, device; newest first *)
  a_calls : nat                    (** external calls so far *)
}.

Definition with_mem (m : mem) (w : aworld) : aworld := mkA (a_live w) m (a_pend w) (a_hints w) (a_calls w).
Definition called (w : aworld) : aworld := mkA (a_live w) (a_mem w) (a_pend w) (a_hints w) (S (a_calls w)).
Definition queue (s : Z) (e : effect) (w : aworld) : aworld :=
  mkA (a_live w) (a_mem w) (a_pend w ++ [(s, e)]) (a_hints w) (a_calls w).

(** The device runs the oldest effect of stream [s], if there is one. *)
Fixpoint take_first (s : Z) (l : list (Z * effect)) : option (effect * list (Z * effect)) :=
  match l with
  | [] => None
  | (t, e) :: l' =>
      if t =? s then Some (e, l')
      else match take_first s l' with Some (e', l'') => Some (e', (t, e) :: l'') | None => None end
  end.
Definition a_step (s : Z) (w : aworld) : aworld :=
  match take_first s (a_pend w) with
  | None => w
  | Some (e, l) => mkA (a_live w) (run_effect e (a_mem w)) l (a_hints w) (a_calls w)
  end.

(** Waiting for an event of stream [s], or for the stream: everything queued on it is done. *)
Definition a_wait (s : Z) (w : aworld) : aworld :=
  mkA (a_live w) (fold_left (fun m x => if fst x =? s then run_effect (snd x) m else m) (a_pend w) (a_mem w))
      (filter (fun x => negb (fst x =? s)) (a_pend w)) (a_hints w) (a_calls w).

Definition in_range (p n x : Z) : bool := (p <=? x) && (x <? p + n).

Definition covered_by (l : list arec) (x : Z) : bool := existsb (fun r => in_range (r_ptr r) (r_size r) x) l.

(** Removing the newest record of address [p]. *)
Fixpoint drop_rec (p : Z) (l : list arec) : list arec :=
  match l with [] => [] | r :: l' => if r_ptr r =? p then l' else r :: drop_rec p l' end.

Section Async.
  Context (c : opconfig).
  Context (plat : Z -> platform).          (** AllocationStrategy::getPlatform *)
  Context (unified : Z -> bool).           (** getTraits().resource is um *)
  Context (device_of : Z -> Z).            (** getTraits().id *)
  Context (host : Z).                      (** the id of "HOST" *)
  Context (place : nat -> Z -> Z -> option Z).   (** call, allocator, bytes *)
  Context (noise : nat -> Z -> Z -> Z).    (** call, address, old byte *)
  Context (fails : nat -> bool).           (** the call of the vendor reports an error *)
  Context (current : Z).                   (** cudaGetDevice *)
  Context (props : Z -> option bool).      (** cudaGetDeviceProperties: managed memory with concurrent access *)
  Context (shared : Z -> bool).            (** SYCL: the pointer is of shared memory the device supports *)

  (** Bytes that do not belong to an allocation before and after a call on an allocator. *)
  Definition settled (k : nat) (l l' : list arec) (m : mem) : mem :=
    fun x => if covered_by l x && covered_by l' x then m x else noise k x (m x).

  (** AllocationMap::find: see C01. *)
  Definition a_find (p : Z) (w : aworld) : outcome aworld arec :=
    match find (fun r => r_ptr r =? p) (a_live w) with
    | Some r => Ok w r
    | None => match find (fun r => in_range (r_ptr r) (r_size r) p) (a_live w) with
              | Some r => Ok w r
              | None => Throw w UnknownPointer
              end
    end.

  (** Allocator::allocate, Allocator.inl:20-48. *)
  Definition a_allocate (i n : Z) (w : aworld) : outcome aworld Z :=
    match place (a_calls w) i n with
    | None => Throw (called w) OutOfMemory
    | Some q =>
        let l := mkRec q n i 0 :: a_live w in
        Ok (mkA l (settled (a_calls w) (a_live w) l (a_mem w)) (a_pend w) (a_hints w) (S (a_calls w))) q
    end.

  (** Allocator::deallocate, Allocator.inl:53-86: the record is removed, then checked against the allocator (C04);
      the owner is the one asked here. *)
  Definition a_deallocate (p : Z) (w : aworld) : outcome aworld Z :=
    match find (fun r => r_ptr r =? p) (a_live w) with
    | None => Throw w RuntimeError
    | Some r =>
        let l := drop_rec p (a_live w) in
        Ok (mkA l (settled (a_calls w) (a_live w) l (a_mem w)) (a_pend w) (a_hints w) (S (a_calls w))) 0
    end.

  (** [memcpy] and its kin are undefined for overlapping objects. *)
  Definition overlapping (dst src n : Z) : bool := (0 <? n) && (dst <? src + n) && (src <? dst + n).

  (** HostCopyOperation.cpp:16-21; CudaCopyOperation.cpp:23-38, HipCopyOperation.cpp:22-33;
      OpenMPTargetCopyOperation.cpp:18-37 (the value returned by omp_target_memcpy is not looked at);
      SyclCopyToOperation.cpp, SyclCopyFromOperation.cpp, SyclCopyOperation.cpp [transform];
      MemoryOperation.cpp:15-21 for all others. *)
  Definition op_copy (op : operation) (dst src : Z) (rd rs : arec) (n : Z) (w : aworld) : outcome aworld Z :=
    match op with
    | HostCopyOperation | SyclCopyToOperation | SyclCopyFromOperation | SyclCopyOperation =>
        if overlapping dst src n then UB else Ok (with_mem (mem_copy dst src n (a_mem w)) w) 0
    | CudaCopyOperation _ | HipCopyOperation _ =>
        if fails (a_calls w) then Throw (called w) RuntimeError
        else if overlapping dst src n then UB else Ok (called (with_mem (mem_copy dst src n (a_mem w)) w)) 0
    | OpenMPTargetCopyOperation =>
        let d := r_ptr rd + (dst - r_ptr rd) in
        let s := r_ptr rs + (src - r_ptr rs) in
        if fails (a_calls w) then Ok (called w) 0
        else if overlapping d s n then UB else Ok (called (with_mem (mem_copy d s n (a_mem w)) w)) 0
    | _ => Throw w RuntimeError
    end.

  (** CudaCopyOperation.cpp:37-57, HipCopyOperation.cpp:35-55; MemoryOperation.cpp:23-31 for all others. *)
  Definition op_copy_async (op : operation) (cx : context) (dst src : Z) (rd rs : arec) (n : Z) (w : aworld)
    : outcome aworld Z :=
    let vendor (p : platform) :=
      if platform_eqb (cx_platform cx) p then
        if fails (a_calls w) then Throw (called w) RuntimeError
        else if overlapping dst src n then UB else Ok (called (queue (cx_stream cx) (Copy dst src n) w)) 0
      else Throw w ResourceError in
    match op with
    | CudaCopyOperation _ => vendor PCuda
    | HipCopyOperation _ => vendor PHip
    | _ => op_copy op dst src rd rs n (a_wait (cx_stream cx) w)
    end.

  (** HostMemsetOperation.cpp:16-20; CudaMemsetOperation.cpp:18-27, HipMemsetOperation.cpp:18-27;
      OpenMPTargetMemsetOperation.cpp:18-29; SyclMemsetOperation.cpp:18-23; MemoryOperation.cpp:33-37. *)
  Definition op_memset (op : operation) (p v n : Z) (w : aworld) : outcome aworld Z :=
    match op with
    | HostMemsetOperation | SyclMemsetOperation | OpenMPTargetMemsetOperation =>
        Ok (with_mem (mem_fill p v n (a_mem w)) w) 0
    | CudaMemsetOperation | HipMemsetOperation =>
        if fails (a_calls w) then Throw (called w) RuntimeError
        else Ok (called (with_mem (mem_fill p v n (a_mem w)) w)) 0
    | _ => Throw w RuntimeError
    end.

  (** CudaMemsetOperation.cpp:29-50, HipMemsetOperation.cpp:29-50; MemoryOperation.cpp:39-46. *)
  Definition op_memset_async (op : operation) (cx : context) (p v n : Z) (w : aworld) : outcome aworld Z :=
    let vendor (pl : platform) :=
      if platform_eqb (cx_platform cx) pl then
        if fails (a_calls w) then Throw (called w) RuntimeError
        else Ok (called (queue (cx_stream cx) (Fill p v n) w)) 0
      else Throw w ResourceError in
    match op with
    | CudaMemsetOperation => vendor PCuda
    | HipMemsetOperation => vendor PHip
    | _ => op_memset op p v n (a_wait (cx_stream cx) w)
    end.

  (** MemoryOperationRegistry::find in the resource manager. *)
  Definition with_op {A : Type} (name : string) (pl : platform * platform) (w : aworld)
    (k : operation -> outcome aworld A) : outcome aworld A :=
    match find_operation name pl (operators c []) with Ok _ op => k op | _ => Throw w RuntimeError end.

  (** ResourceManager.cpp:375-416 ([cx = None]) and 418-461. *)
  Definition a_copy (dst src size : Z) (cx : option context) (w : aworld) : outcome aworld Z :=
    let* (w1, rs) := a_find src w in
    let src_size := w64 (r_size rs - (src - r_ptr rs)) in
    let* (w2, rd) := a_find dst w1 in
    let dst_size := w64 (r_size rd - (dst - r_ptr rd)) in
    let n := if size =? 0 then src_size else size in
    if dst_size <? n then Throw w2 RuntimeError
    else with_op "COPY" (plat (r_strat rs), plat (r_strat rd)) w2 (fun op =>
           match cx with
           | None => op_copy op dst src rd rs n w2
           | Some x => op_copy_async op x dst src rd rs n w2
           end).

  (** ResourceManager.cpp:463-496 ([cx = None]) and 498-534. *)
  Definition a_memset (p v length : Z) (cx : option context) (w : aworld) : outcome aworld Z :=
    let* (w1, r) := a_find p w in
    let size := w64 (r_size r - (p - r_ptr r)) in
    let n := if length =? 0 then size else length in
    if size <? n then Throw w1 RuntimeError
    else with_op "MEMSET" (plat (r_strat r), plat (r_strat r)) w1 (fun op =>
           match cx with
           | None => op_memset op p v n w1
           | Some x => op_memset_async op x p v n w1
           end).

  (** GenericReallocateOperation.cpp:19-32 ([cx = None]) and 34-50: with a resource the old memory is given back
      while the copy may still be queued. *)
  Definition a_realloc_generic (p : Z) (r : arec) (n : Z) (cx : option context) (w : aworld) : outcome aworld Z :=
    let* (w1, q) := a_allocate (r_strat r) n w in
    let copy_size := if n <? r_size r then n else r_size r in
    let* (w2, u) := a_copy q p copy_size cx w1 in
    let* (w3, u) := a_deallocate p w2 in
    Ok w3 q.

  (** HostReallocateOperation.cpp:18-45. *)
  Definition a_realloc_host (p : Z) (r : arec) (n : Z) (w : aworld) : outcome aworld Z :=
    if r_size r =? 0 then a_realloc_generic p r n None w
    else
      let l0 := drop_rec p (a_live w) in
      match place (a_calls w) (r_strat r) n with
      | None => Throw (mkA l0 (a_mem w) (a_pend w) (a_hints w) (S (a_calls w))) RuntimeError
      | Some q =>
          let l := mkRec q n (r_strat r) 0 :: l0 in
          let m := a_mem w in
          Ok (mkA l (fun x => if in_range q (Z.min (r_size r) n) x then m (p + (x - q))
                              else settled (a_calls w) l0 l m x)
                  (a_pend w) (a_hints w) (S (a_calls w))) q
      end.

  (** ResourceManager.cpp:536-617 and 657-756, on the allocator that owns [p]; [dflt] is the default allocator. *)
  Definition a_reallocate (dflt p n : Z) (cx : option context) (w : aworld) : outcome aworld Z :=
    if p =? 0 then a_allocate dflt n w
    else
      let* (w1, r) := a_find p w in
      if n =? 0 then
        let* (w2, u) := a_deallocate p w1 in a_allocate (r_strat r) 0 w2
      else if negb (p =? r_ptr r) then Throw w1 RuntimeError
      else if platform_eqb (plat (r_strat r)) PHost && negb (r_strat r =? host) then
        with_op "REALLOCATE" (PUndefined, PUndefined) w1 (fun _ => a_realloc_generic p r n None w1)
      else
        with_op "REALLOCATE" (plat (r_strat r), plat (r_strat r)) w1 (fun op =>
          match op, cx with
          | HostReallocateOperation, None => a_realloc_host p r n w1
          | HostReallocateOperation, Some x => a_realloc_host p r n (a_wait (cx_stream x) w1)
          | GenericReallocateOperation, _ => a_realloc_generic p r n cx w1
          | _, _ => Throw w1 RuntimeError
          end).

  (** CudaMemPrefetchOperation.cpp:48-88; -1 is cudaCpuDeviceId. *)
  Definition cuda_prefetch_async (cx : context) (p : Z) (device n : Z) (w : aworld) : outcome aworld Z :=
    if negb (platform_eqb (cx_platform cx) PCuda) then Throw w ResourceError
    else match props (if device =? -1 then current else device) with
         | None => Throw w RuntimeError
         | Some false => Ok w 0
         | Some true => if fails (a_calls w) then Throw (called w) RuntimeError
                        else Ok (called (mkA (a_live w) (a_mem w) (a_pend w) ((p, n, device) :: a_hints w) (a_calls w))) 0
         end.

  (** SyclMemPrefetchOperation.cpp:16-33 through MemoryOperation.cpp:39-46. *)
  Definition sycl_prefetch_async (cx : context) (p : Z) (r : arec) (device n : Z) (w : aworld) : outcome aworld Z :=
    let w1 := a_wait (cx_stream cx) w in
    if negb (device_of (r_strat r) =? device) then Throw w1 RuntimeError
    else if shared p then Ok (mkA (a_live w1) (a_mem w1) (a_pend w1) ((p, n, device) :: a_hints w1) (a_calls w1)) 0
    else Throw w1 RuntimeError.

  (** ResourceManager.cpp:834-851. *)
  Definition a_prefetch (p device : Z) (cx : context) (w : aworld) : outcome aworld Z :=
    let* (w1, r) := a_find p w in
    if negb (unified (r_strat r)) then Throw w1 RuntimeError
    else
      let size := w64 (r_size r - (p - r_ptr r)) in
      with_op "PREFETCH" (plat (r_strat r), plat (r_strat r)) w1 (fun op =>
        match op with
        | CudaMemPrefetchOperation => cuda_prefetch_async cx p device size w1
        | SyclMemPrefetchOperation => sycl_prefetch_async cx p r device size w1
        | _ => Throw w1 RuntimeError
        end).

  (** What a program, and the devices, do. *)
  Inductive aop : Type :=
  | AAllocate (i n : Z)
  | ADeallocate (p : Z)
  | ACopy (dst src n : Z) (cx : option context)
  | AMemset (p v n : Z) (cx : option context)
  | AReallocate (dflt p n : Z) (cx : option context)
  | APrefetch (p device : Z) (cx : context)
  | AWait (s : Z)          (** the program waits for stream [s] *)
  | AStep (s : Z).         (** the device gets on with stream [s] *)

  Definition a_do (o : aop) (w : aworld) : outcome aworld Z :=
    match o with
    | AAllocate i n => a_allocate i n w
    | ADeallocate p => a_deallocate p w
    | ACopy d s n cx => a_copy d s n cx w
    | AMemset p v n cx => a_memset p v n cx w
    | AReallocate d p n cx => a_reallocate d p n cx w
    | APrefetch p d cx => a_prefetch p d cx w
    | AWait s => Ok (a_wait s w) 0
    | AStep s => Ok (a_step s w) 0
    end.

  Definition silent (o : aop) : bool := match o with AWait _ | AStep _ => true | _ => false end.

  (** Exceptions are caught by the program; the results of its calls are collected. *)
  Fixpoint a_run (l : list aop) (w : aworld) : outcome aworld (list (Z + exn)) :=
    match l with
    | [] => Ok w []
    | o :: l' =>
        let tell (x : Z + exn) (rs : list (Z + exn)) := if silent o then rs else x :: rs in
        match a_do o w with
        | Ok w1 r => omap (fun w => w) (tell (inl r)) (a_run l' w1)
        | Throw w1 e => omap (fun w => w) (tell (inr e)) (a_run l' w1)
        | UB => UB | Abort => Abort | NoFuel => NoFuel
        end
    end.
End Async.
