(** Model of the strategies that place memory: NumaPolicy (src/umpire/strategy/NumaPolicy.cpp), AllocationAdvisor and
    AllocationPrefetcher (src/umpire/strategy), the functions of src/umpire/util/numa.cpp, NumaMoveOperation and the
    move of the resource manager to a NumaPolicy (src/umpire/ResourceManager.cpp:758-832).

    Memory has pages of [page] bytes; [p_node] says which node a page is bound to.  [mbind] follows its manual page:
    the address must be a multiple of the page size, the node must be usable, and all pages that hold a byte of the
    range are bound; when it fails after these checks some of the pages may have been bound already.  Allocators other
    than the three strategies (HOST, pools, ...) are external: [place] says what their [k]-th call returns.
    Left out: contents of memory (C34), statistics, requests of 0 bytes (C49), events and log messages; the copy of a move to another
    allocator is taken to succeed. *)
From Coq Require Import String.
From Verif Require Import Base RegistryModel OpTableModel MapModel OpsModel AsyncModel.

(** A strategy and the strategies beneath it. *)
Inductive strat : Type :=
| Source (i : Z)                                            (** any other allocator *)
| NumaPolicy (node : Z) (pf : platform) (t : strat)         (** m_node, m_platform, m_allocator *)
| Advisor (op : operation) (device : Z) (t : strat)         (** m_advice_operation, m_device, m_allocator *)
| Prefetcher (op : operation) (device : Z) (t : strat).     (** m_prefetch_operation, m_device, m_allocator *)

(** Successful calls of cudaMemAdvise, hipMemAdvise ([Some] advice), cudaMemPrefetchAsync and sycl prefetch ([None]). *)
Record hint : Type := mkHint { hi_advice : option advice; hi_ptr : Z; hi_bytes : Z; hi_device : Z }.

Record pworld : Type := mkP {
  p_live : list arec;              (** the allocation map, newest record first *)
  p_taken : list (Z * Z);          (** blocks taken from external allocators and not given back *)
  p_node : Z -> option Z;          (** page number to the node it is bound to *)
  p_masks : Z;                     (** bitmasks of libnuma not freed *)
  p_hints : list hint;             (** newest first *)
  p_calls : nat                    (** external calls so far *)
}.

Definition p_start : pworld := mkP [] [] (fun _ => None) 0 [] 0.

Definition p_called (w : pworld) : pworld :=
  mkP (p_live w) (p_taken w) (p_node w) (p_masks w) (p_hints w) (S (p_calls w)).
Definition with_live (l : list arec) (w : pworld) : pworld :=
  mkP l (p_taken w) (p_node w) (p_masks w) (p_hints w) (p_calls w).
Definition with_taken (l : list (Z * Z)) (w : pworld) : pworld :=
  mkP (p_live w) l (p_node w) (p_masks w) (p_hints w) (p_calls w).
Definition with_node (f : Z -> option Z) (w : pworld) : pworld :=
  mkP (p_live w) (p_taken w) f (p_masks w) (p_hints w) (p_calls w).
Definition with_masks (k : Z) (w : pworld) : pworld :=
  mkP (p_live w) (p_taken w) (p_node w) k (p_hints w) (p_calls w).
Definition hinted (h : hint) (w : pworld) : pworld :=
  mkP (p_live w) (p_taken w) (p_node w) (p_masks w) (h :: p_hints w) (p_calls w).

(** The block that starts at [p] goes back. *)
Fixpoint drop_block (p : Z) (l : list (Z * Z)) : list (Z * Z) :=
  match l with [] => [] | b :: l' => if fst b =? p then l' else b :: drop_block p l' end.

Section Place.
  Context (c : opconfig).
  Context (page : Z).                            (** sysconf(_SC_PAGESIZE) *)
  Context (available : bool).                    (** 0 <= numa_available() *)
  Context (nodes : list Z).                      (** numa_all_nodes_ptr *)
  Context (cpus : Z -> option Z).                (** numa_node_to_cpus: its error, or how many CPUs the node has *)
  Context (usable : Z -> bool).                  (** nodes mbind accepts *)
  Context (binds : nat -> option (Z -> bool)).   (** mbind: fails after binding these pages *)
  Context (plat : Z -> platform).                (** getPlatform of the external allocators *)
  Context (place : nat -> Z -> Z -> option Z).   (** call, allocator, bytes *)
  Context (fails : nat -> bool).                 (** the call of the vendor reports an error *)
  Context (current : Z).                         (** cudaGetDevice *)
  Context (props : Z -> option bool).            (** cudaGetDeviceProperties: managed memory with concurrent access *)

  (** UMPIRE_ENABLE_DEVICE, src/umpire/CMakeLists.txt:163-184. *)
  Definition device_build : bool := oc_cuda c || oc_hip c || oc_sycl c || oc_omp c.

  (** The loop of numa.cpp:69-83 and 97-111; the mask of CPUs is not freed when it throws. *)
  Fixpoint nodes_with (want : Z -> bool) (l : list Z) (w : pworld) : outcome pworld (list Z) :=
    match l with
    | [] => Ok w []
    | i :: l' =>
        match cpus i with
        | None => Throw w RuntimeError
        | Some n => let* (w1, r) := nodes_with want l' w in Ok w1 (if want n then i :: r else r)
        end
    end.

  (** numa.cpp:61-87, with the mask of lines 67 and 85. *)
  Definition get_host_nodes (w : pworld) : outcome pworld (list Z) :=
    if negb available then Throw w RuntimeError
    else let* (w1, r) := nodes_with (fun n => 0 <? n) nodes (with_masks (p_masks w + 1) w) in
         Ok (with_masks (p_masks w1 - 1) w1) r.

  (** numa.cpp:89-115. *)
  Definition get_device_nodes (w : pworld) : outcome pworld (list Z) :=
    if negb available then Throw w RuntimeError
    else let* (w1, r) := nodes_with (fun n => n =? 0) nodes (with_masks (p_masks w + 1) w) in
         Ok (with_masks (p_masks w1 - 1) w1) r.

  (** The pages that hold a byte of [p, p + n). *)
  Definition in_pages (p n g : Z) : bool := (0 <? n) && (p / page <=? g) && (g <=? (p + n - 1) / page).

  (** mbind(ptr, bytes, MPOL_BIND, {node}, .., MPOL_MF_MOVE | MPOL_MF_STRICT). *)
  Definition mbind (p n node : Z) (w : pworld) : outcome pworld bool :=
    let bound (f : Z -> bool) :=
      with_node (fun g => if in_pages p n g && f g then Some node else p_node w g) (p_called w) in
    if negb (p mod page =? 0) || negb (usable node) then Ok (p_called w) false
    else match binds (p_calls w) with
         | Some f => Ok (bound f) false
         | None => Ok (bound (fun _ => true)) true
         end.

  (** numa.cpp:33-49: the mask is not freed when it throws. *)
  Definition move_to_node (p n node : Z) (w : pworld) : outcome pworld Z :=
    if negb available then Throw w RuntimeError
    else let* (w1, b) := mbind p n node (with_masks (p_masks w + 1) w) in
         if b then Ok (with_masks (p_masks w1 - 1) w1) 0 else Throw w1 RuntimeError.

  (** numa.cpp:51-59, for a page in use that is bound to a node. *)
  Definition get_location (p : Z) (w : pworld) : outcome pworld Z :=
    match p_node w (p / page) with Some k => Ok w k | None => Throw w RuntimeError end.

  (** CudaAdviseOperation.cpp:20-31, HipAdviseOperation.cpp:20-31, CudaMemPrefetchOperation.cpp:18-46,
      SyclMemPrefetchOperation.cpp:16-33 (without a record: the first line reads through a null pointer),
      MemoryOperation.cpp:33-37 for all others.  The strategies pass no record. *)
  Definition apply_op (op : operation) (p device n : Z) (w : pworld) : outcome pworld Z :=
    let vendor (a : option advice) :=
      if fails (p_calls w) then Throw (p_called w) RuntimeError else Ok (hinted (mkHint a p n device) (p_called w)) 0 in
    match op with
    | CudaAdviseOperation a | HipAdviseOperation a => vendor (Some a)
    | CudaMemPrefetchOperation =>
        match props (if device =? -1 then current else device) with
        | None => Throw w RuntimeError
        | Some false => Ok w 0
        | Some true => vendor None
        end
    | SyclMemPrefetchOperation => UB
    | _ => Throw w RuntimeError
    end.

  (** getPlatform: NumaPolicy.cpp:63-66, AllocationAdvisor.cpp:58-61, AllocationPrefetcher.cpp:40-43. *)
  Fixpoint platform_of (t : strat) : platform :=
    match t with
    | Source i => plat i
    | NumaPolicy _ pf _ => pf
    | Advisor _ _ t' | Prefetcher _ _ t' => platform_of t'
    end.

  (** The constructor of NumaPolicy, NumaPolicy.cpp:19-45. *)
  Definition new_numa (node : Z) (t : strat) (w : pworld) : outcome pworld strat :=
    if node <? 0 then Throw w RuntimeError
    else if negb (platform_eqb (platform_of t) PHost) then Throw w RuntimeError
    else if negb device_build then Ok w (NumaPolicy node PHost t)
    else
      let* (w1, hosts) := get_host_nodes w in
      if existsb (Z.eqb node) hosts then Ok w1 (NumaPolicy node PHost t)
      else if oc_cuda c then Ok w1 (NumaPolicy node PCuda t)
      else if oc_hip c then Ok w1 (NumaPolicy node PHip t)
      else Throw w1 RuntimeError.

  (** MemoryOperationRegistry::find with two strategies: by their platforms (C50). *)
  Definition find_op (name : string) (a b : platform) (w : pworld) : outcome pworld operation :=
    match find_operation name (a, b) (operators c []) with Ok _ op => Ok w op | _ => Throw w RuntimeError end.

  (** The constructors of AllocationAdvisor, AllocationAdvisor.cpp:20-43; -1 is cudaCpuDeviceId.  Without an accessing
      allocator it is the allocator itself. *)
  Definition new_advisor (name : string) (t accessing : strat) (device : Z) (w : pworld) : outcome pworld strat :=
    let* (w1, op) := find_op name (platform_of t) (platform_of t) w in
    Ok w1 (Advisor op (if oc_cuda c && platform_eqb (platform_of accessing) PHost then -1 else device) t).

  (** The constructor of AllocationPrefetcher, AllocationPrefetcher.cpp:16-24. *)
  Definition new_prefetcher (t : strat) (device : Z) (w : pworld) : outcome pworld strat :=
    let* (w1, op) := find_op "PREFETCH" (platform_of t) (platform_of t) w in Ok w1 (Prefetcher op device t).

  (** NumaPolicy.cpp:47-56, AllocationAdvisor.cpp:45-51, AllocationPrefetcher.cpp:26-33. *)
  Fixpoint s_allocate (t : strat) (n : Z) (w : pworld) : outcome pworld Z :=
    match t with
    | Source i =>
        match place (p_calls w) i n with
        | None => Throw (p_called w) OutOfMemory
        | Some q => Ok (with_taken ((q, n) :: p_taken w) (p_called w)) q
        end
    | NumaPolicy node _ t' =>
        let* (w1, q) := s_allocate t' n w in let* (w2, _) := move_to_node q n node w1 in Ok w2 q
    | Advisor op device t' | Prefetcher op device t' =>
        let* (w1, q) := s_allocate t' n w in let* (w2, _) := apply_op op q device n w1 in Ok w2 q
    end.

  (** NumaPolicy.cpp:58-61, AllocationAdvisor.cpp:53-56, AllocationPrefetcher.cpp:35-38: down to the external allocator. *)
  Fixpoint s_deallocate (t : strat) (p : Z) (w : pworld) : pworld :=
    match t with
    | Source _ => with_taken (drop_block p (p_taken w)) (p_called w)
    | NumaPolicy _ _ t' | Advisor _ _ t' | Prefetcher _ _ t' => s_deallocate t' p w
    end.

  Context (strat_of : Z -> strat).               (** the program's allocators *)

  (** AllocationMap::find: see C01. *)
  Definition p_find (p : Z) (w : pworld) : outcome pworld arec :=
    match find (fun r => r_ptr r =? p) (p_live w) with
    | Some r => Ok w r
    | None => match find (fun r => in_range (r_ptr r) (r_size r) p) (p_live w) with
              | Some r => Ok w r
              | None => Throw w UnknownPointer
              end
    end.

  (** Allocator.inl:20-48. *)
  Definition p_allocate (i n : Z) (w : pworld) : outcome pworld Z :=
    let* (w1, q) := s_allocate (strat_of i) n w in Ok (with_live (mkRec q n i 0 :: p_live w1) w1) q.

  (** ResourceManager::deallocate: the record of [p] and its allocator (C04). *)
  Definition p_deallocate (p : Z) (w : pworld) : outcome pworld Z :=
    match find (fun r => r_ptr r =? p) (p_live w) with
    | None => Throw w RuntimeError
    | Some r => Ok (s_deallocate (strat_of (r_strat r)) p (with_live (drop_rec p (p_live w)) w)) 0
    end.

  (** ResourceManager.cpp:758-832, NumaMoveOperation.cpp:20-28: strategies are compared by address, here by id. *)
  Definition p_move (p i : Z) (w : pworld) : outcome pworld Z :=
    let* (w1, r) := p_find p w in
    if r_strat r =? i then Ok w1 p
    else match oc_numa c, strat_of i with
         | true, NumaPolicy node _ _ =>
             if 0 <? r_size r then
               let* (w2, op) := find_op "MOVE" (platform_of (strat_of (r_strat r))) (platform_of (strat_of i)) w1 in
               match op with
               | NumaMoveOperation => let* (w3, _) := move_to_node p (r_size r) node w2 in Ok w3 p
               | _ => Throw w2 RuntimeError
               end
             else Ok w1 p
         | _, _ =>
             if negb (p =? r_ptr r) then Throw w1 RuntimeError
             else let* (w2, q) := p_allocate i (r_size r) w1 in
                  let* (w3, _) := p_deallocate p w2 in
                  Ok w3 q
         end.

  Inductive pop : Type :=
  | PAllocate (i n : Z)
  | PDeallocate (p : Z)
  | PMove (p i : Z).

  Definition p_do (o : pop) (w : pworld) : outcome pworld Z :=
    match o with
    | PAllocate i n => p_allocate i n w
    | PDeallocate p => p_deallocate p w
    | PMove p i => p_move p i w
    end.

  (** A program that catches what is thrown: the last world and the results, oldest first. *)
  Fixpoint p_run (l : list pop) (w : pworld) : outcome pworld (list (option Z)) :=
    match l with
    | [] => Ok w []
    | o :: l' =>
        match p_do o w with
        | Ok w1 a => let* (w2, rs) := p_run l' w1 in Ok w2 (Some a :: rs)
        | Throw w1 _ => let* (w2, rs) := p_run l' w1 in Ok w2 (None :: rs)
        | UB => UB
        | Abort => Abort
        | NoFuel => NoFuel
        end
    end.
End Place.
