(** Model of the functions that get memory from the system and the vendors (src/umpire/alloc/*.hpp) and of the resources
    over them that add nothing ([DefaultMemoryResource], [HipPinnedMemoryResource], [HipUnifiedMemoryResource],
    [SyclDeviceMemoryResource]); of the choice of a SYCL queue, and of [isAccessibleFrom], [getPlatform] and
    [umpire::is_accessible].

    What the system and the vendors answer is an oracle, an arbitrary function of the number of earlier calls.  An address is
    honoured only if it is that of fresh memory; otherwise the call fails for lack of memory.  A request for no bytes may
    succeed with the null pointer or with an address of its own.  One thread. *)
From Verif Require Import Base.

Inductive granularity : Type := GUnknown | GFine | GCoarse.

(** The functions called, with their flags. *)
Inductive vcall : Type :=
| C_malloc                        (** malloc *)
| C_memalign                      (** posix_memalign with the size of a page *)
| C_cudaMalloc | C_cudaMallocManaged | C_cudaMallocHost
| C_hipMalloc                     (** hipMalloc *)
| C_hipExt (fine : bool)          (** hipExtMallocWithFlags: hipDeviceMallocFinegrained or hipDeviceMallocDefault *)
| C_hipMallocManaged
| C_hipHostMalloc                 (** hipHostMalloc without flags *)
| C_hipHostMallocFlag (noncoherent : bool)  (** hipHostMallocDefault or hipHostMallocNonCoherent *)
| C_syclDevice | C_syclShared | C_syclHost
| C_omp.                          (** omp_target_alloc *)

(** Memory handed out: where, by which function, for which queue or device, whether advised to be coarse grained. *)
Record block : Type := mkBlock { b_at : Z; b_size : Z; b_call : vcall; b_place : Z; b_coarse : bool }.

Inductive verdict : Type := VAddr (p : Z) | VNull | VNoMemory | VOther.

Record vendors : Type := mkVendors {
  o_alloc : nat -> vcall -> Z -> Z -> verdict;     (** time, function, place, bytes *)
  o_free : nat -> bool;                            (** whether a legal deallocation succeeds *)
  o_device : nat -> option Z;                      (** hipGetDevice *)
  o_advise : nat -> bool                           (** hipMemAdvise *)
}.

Record vstate : Type := mkV {
  v_time : nat;
  v_live : list block;
  v_enomem : bool          (** errno is ENOMEM *)
}.

(** The allocators, with their members. *)
Inductive leaf : Type :=
| LMalloc | LMemalign | LCuda | LCudaManaged | LCudaPinned
| LHip (g : granularity) | LHipManaged (g : granularity) | LHipPinned (g : granularity)
| LSycl (queue : option Z) | LSyclManaged (queue : option Z) | LSyclPinned (queue : option Z)
| LOmp (device : Z).

Definition b_region (b : block) : region := (b_at b, b_size b).
Definition fresh (p n : Z) (l : list block) : bool :=
  (0 <? p) && (0 <=? n) && (p + n <=? ASP) &&
  forallb (fun b => negb (b_at b =? p) && ((p + n <=? b_at b) || (b_at b + b_size b <=? p))) l.

Section Leaf.
  Context (o : vendors).
  (** UMPIRE_ENABLE_HIP_COHERENCE_GRANULARITY *)
  Context (coherence : bool).

  (** A call for memory: what the vendor says, made honest.  [SaidNull]: success with the null pointer. *)
  Inductive said : Type := SaidMemory (p : Z) | SaidNull | SaidNoMemory | SaidOther.

  Definition ask (c : vcall) (place n : Z) (w : vstate) : vstate * said :=
    let w1 := mkV (S (v_time w)) (v_live w) (v_enomem w) in
    match o_alloc o (v_time w) c place n with
    | VAddr p =>
        if fresh p n (v_live w)
        then (mkV (S (v_time w)) (mkBlock p n c place false :: v_live w) (v_enomem w), SaidMemory p)
        else (w1, SaidNoMemory)
    | VNull => if n =? 0 then (w1, SaidNull) else (w1, SaidNoMemory)
    | VNoMemory => (w1, SaidNoMemory)
    | VOther => (w1, SaidOther)
    end.

  (** MallocAllocator.hpp:38-52: null is an error whose kind is told by errno; malloc sets errno when it fails,
      not when it answers a request for no bytes with null.  ([SaidOther]: failed with another errno.) *)
  Definition malloc_allocate (n : Z) (w : vstate) : outcome vstate Z :=
    let '(w1, s) := ask C_malloc 0 n w in
    match s with
    | SaidMemory p => Ok w1 p
    | SaidNull => Throw w1 (if v_enomem w1 then OutOfMemory else RuntimeError)
    | SaidNoMemory => Throw (mkV (v_time w1) (v_live w1) true) OutOfMemory
    | SaidOther => Throw (mkV (v_time w1) (v_live w1) false) RuntimeError
    end.

  (** PosixMemalignAllocator.hpp:33-52: the pointer stays null on failure; the kind is told by the result. *)
  Definition memalign_allocate (n : Z) (w : vstate) : outcome vstate Z :=
    let '(w1, s) := ask C_memalign 0 n w in
    match s with
    | SaidMemory p => Ok w1 p
    | SaidNull => Throw w1 RuntimeError
    | SaidNoMemory => Throw w1 OutOfMemory
    | SaidOther => Throw w1 RuntimeError
    end.

  (** CudaMallocAllocator.hpp:31-47, CudaMallocManagedAllocator.hpp:32-47, CudaPinnedAllocator.hpp:19-36 and, for the chosen
      call, HipMallocAllocator.hpp:66-79, HipMallocManagedAllocator.hpp:40-50, HipPinnedAllocator.hpp:55-67: only the error
      code is looked at. *)
  Definition coded_allocate (c : vcall) (n : Z) (w : vstate) : outcome vstate Z :=
    let '(w1, s) := ask c 0 n w in
    match s with
    | SaidMemory p => Ok w1 p
    | SaidNull => Ok w1 0
    | SaidNoMemory => Throw w1 OutOfMemory
    | SaidOther => Throw w1 RuntimeError
    end.

  (** HipMallocAllocator.hpp:40-64 *)
  Definition hip_allocate (g : granularity) (n : Z) (w : vstate) : outcome vstate Z :=
    match g with
    | GUnknown => coded_allocate C_hipMalloc n w
    | GFine => if coherence then coded_allocate (C_hipExt true) n w else Throw w RuntimeError
    | GCoarse => if coherence then coded_allocate (C_hipExt false) n w else Throw w RuntimeError
    end.

  (** HipPinnedAllocator.hpp:29-53 *)
  Definition hip_pinned_allocate (g : granularity) (n : Z) (w : vstate) : outcome vstate Z :=
    match g with
    | GUnknown => coded_allocate C_hipHostMalloc n w
    | GFine => if coherence then coded_allocate (C_hipHostMallocFlag false) n w else Throw w RuntimeError
    | GCoarse => if coherence then coded_allocate (C_hipHostMallocFlag true) n w else Throw w RuntimeError
    end.

  Definition advise (p : Z) (l : list block) : list block :=
    List.map (fun b => if b_at b =? p then mkBlock (b_at b) (b_size b) (b_call b) (b_place b) true else b) l.

  (** HipMallocManagedAllocator.hpp:36-70.  The result of hipGetDevice (56) is not looked at: [device] has no value if it
      failed. *)
  Definition hip_managed_allocate (g : granularity) (n : Z) (w : vstate) : outcome vstate Z :=
    let* (w1, p) := coded_allocate C_hipMallocManaged n w in
    match g, coherence with
    | GCoarse, true =>
        match o_device o (v_time w1) with
        | None => UB
        | Some _ =>
            if o_advise o (S (v_time w1)) then Ok (mkV (S (S (v_time w1))) (advise p (v_live w1)) (v_enomem w1)) p
            else Throw (mkV (S (S (v_time w1))) (v_live w1) (v_enomem w1)) RuntimeError
        end
    | _, _ => Ok w1 p
    end.

  (** SyclMallocAllocator.hpp:31-42, SyclMallocManagedAllocator.hpp:31-42, SyclPinnedAllocator.hpp:31-42,
      OpenMPTargetAllocator.hpp:33-43: null is an error. *)
  Definition pointer_allocate (c : vcall) (place n : Z) (w : vstate) : outcome vstate Z :=
    let '(w1, s) := ask c place n w in
    match s with
    | SaidMemory p => Ok w1 p
    | _ => Throw w1 RuntimeError
    end.

  (** SyclDeviceMemoryResource.inl:28-35: [*(m_traits.queue)] *)
  Definition on_queue (q : option Z) (c : vcall) (n : Z) (w : vstate) : outcome vstate Z :=
    match q with
    | None => UB
    | Some k => pointer_allocate c k n w
    end.

  (** DefaultMemoryResource.inl:35-42, HipUnifiedMemoryResource.cpp:24-31, HipPinnedMemoryResource.cpp:24-31 *)
  Definition leaf_allocate (k : leaf) (n : Z) (w : vstate) : outcome vstate Z :=
    match k with
    | LMalloc => malloc_allocate n w
    | LMemalign => memalign_allocate n w
    | LCuda => coded_allocate C_cudaMalloc n w
    | LCudaManaged => coded_allocate C_cudaMallocManaged n w
    | LCudaPinned => coded_allocate C_cudaMallocHost n w
    | LHip g => hip_allocate g n w
    | LHipManaged g => hip_managed_allocate g n w
    | LHipPinned g => hip_pinned_allocate g n w
    | LSycl q => on_queue q C_syclDevice n w
    | LSyclManaged q => on_queue q C_syclShared n w
    | LSyclPinned q => on_queue q C_syclHost n w
    | LOmp d => pointer_allocate C_omp d n w
    end.

  (** ** Giving memory back *)

  (** The functions that do it.  [free], [sycl::free] and [omp_target_free] are undefined for memory that is not theirs
      (of that queue, that device); cudaFree and the like answer with an error. *)
  Inductive vfree : Type := F_free | F_cudaFree | F_cudaFreeHost | F_hipFree | F_hipHostFree | F_sycl (queue : Z) | F_omp (device : Z).

  Definition takes (f : vfree) (b : block) : bool :=
    match f, b_call b with
    | F_free, (C_malloc | C_memalign) => true
    | F_cudaFree, (C_cudaMalloc | C_cudaMallocManaged) => true
    | F_cudaFreeHost, C_cudaMallocHost => true
    | F_hipFree, (C_hipMalloc | C_hipExt _ | C_hipMallocManaged) => true
    | F_hipHostFree, (C_hipHostMalloc | C_hipHostMallocFlag _) => true
    | F_sycl q, (C_syclDevice | C_syclShared | C_syclHost) => b_place b =? q
    | F_omp d, C_omp => b_place b =? d
    | _, _ => false
    end.

  Definition strict (f : vfree) : bool := match f with F_free | F_sycl _ | F_omp _ => true | _ => false end.

  Fixpoint take (f : vfree) (p : Z) (l : list block) : option (list block) :=
    match l with
    | [] => None
    | b :: t => if (b_at b =? p) && takes f b then Some t else option_map (cons b) (take f p t)
    end.

  (** CudaMallocAllocator.hpp:56-64 and the others: an error is thrown, where there is one to look at. *)
  Definition give (f : vfree) (p : Z) (w : vstate) : outcome vstate unit :=
    let w1 := mkV (S (v_time w)) (v_live w) (v_enomem w) in
    if p =? 0 then Ok w1 tt
    else match take f p (v_live w) with
         | Some l =>
             if strict f || o_free o (v_time w) then Ok (mkV (S (v_time w)) l (v_enomem w)) tt
             else Throw w1 RuntimeError
         | None => if strict f then UB else Throw w1 RuntimeError
         end.

  Definition leaf_deallocate (k : leaf) (p : Z) (w : vstate) : outcome vstate unit :=
    match k with
    | LMalloc | LMemalign => give F_free p w
    | LCuda | LCudaManaged => give F_cudaFree p w
    | LCudaPinned => give F_cudaFreeHost p w
    | LHip _ | LHipManaged _ => give F_hipFree p w
    | LHipPinned _ => give F_hipHostFree p w
    | LSycl q | LSyclManaged q | LSyclPinned q => match q with None => UB | Some k => give (F_sycl k) p w end
    | LOmp d => give (F_omp d) p w
    end.

  Definition leaf_parent (k : leaf) : Parent vstate := mkParent (leaf_allocate k) (fun p _ w => leaf_deallocate k p w).
End Leaf.

(** ** SYCL devices *)

(** A device: whether it is a GPU, and its sub-devices ([None]: partition_max_sub_devices is 0). *)
Record sdevice : Type := mkSd { sd_gpu : bool; sd_subs : option nat }.
Definition sd_units (d : sdevice) : nat :=
  if sd_gpu d then match sd_subs d with Some n => n | None => 1 end else 0.

(** MemoryResourceRegistry.cpp:192-218: the number of DEVICE::n offered; all platforms are looked at. *)
Definition sycl_count (platforms : list (list sdevice)) : nat :=
  fold_left (fun acc devices => fold_left (fun acc d => acc + sd_units d)%nat devices acc) platforms 0%nat.

(** SyclDeviceResourceFactory.cpp:44-69, SyclUnifiedMemoryResourceFactory.cpp:44-69, SyclPinnedMemoryResourceFactory.cpp:44-69:
    the queue is made for the unit that device_count reaches with traits.id; a unit is (device, sub-device). *)
Fixpoint sub_search (dev n sub : nat) (id : Z) (count : Z) (q : option (nat * nat)) : Z * option (nat * nat) :=
  match n with
  | O => (count, q)
  | S n' =>
      let count1 := count + 1 in
      sub_search dev n' (S sub) id count1 (if count1 - 1 =? id then Some (dev, sub) else q)
  end.
Fixpoint queue_search (dev : nat) (devices : list sdevice) (id count : Z) (q : option (nat * nat)) : option (nat * nat) :=
  match devices with
  | [] => q
  | d :: rest =>
      if sd_gpu d then
        match sd_subs d with
        | Some n => let '(count1, q1) := sub_search dev n 0 id count q in queue_search (S dev) rest id count1 q1
        | None => queue_search (S dev) rest id (count + 1) (if count + 1 - 1 =? id then Some (dev, 0%nat) else q)
        end
      else queue_search (S dev) rest id count q
  end.
(** [gpu_platform]: the devices of sycl::platform(sycl::gpu_selector) *)
Definition sycl_queue (gpu_platform : list sdevice) (id : Z) : option (nat * nat) := queue_search 0 gpu_platform id 0 None.

(** ResourceManager.cpp:942-964, with SYCL: each device comes with its partition_max_sub_devices. *)
Definition sycl_num_devices (gpu_platform : list (sdevice * nat)) : nat :=
  fold_left (fun acc x => if sd_gpu (fst x) then acc + (if Nat.ltb 0 (snd x) then snd x else 1) else acc)%nat gpu_platform 0%nat.

(** ** Who can access what *)

Inductive platform : Type := PUndefined | PHost | PCuda | POmp | PHip | PSycl.
Definition platform_eqb (p q : platform) : bool :=
  match p, q with
  | PUndefined, PUndefined | PHost, PHost | PCuda, PCuda | POmp, POmp | PHip, PHip | PSycl, PSycl => true
  | _, _ => false
  end.

Inductive rkind : Type :=
| RHost | RNoOp | RNull | RShared | RFile
| RCudaDevice | RCudaUm | RCudaPinned | RCudaConst
| RHipDevice | RHipUm | RHipPinned | RHipConst
| RSyclDevice | RSyclUm | RSyclPinned
| ROmpDevice.

(** Strategies over a resource: [getParent] of a resource is null (MemoryResource.cpp:13), that of a strategy is the allocator it
    was made over (the constructors in src/umpire/strategy/*.cpp).  [device_node]: the node of a [NumaPolicy] is not among the
    host's (numa::get_host_nodes). *)
Inductive strat : Type := SNuma (device_node : bool) | SOther (which : nat).
Inductive stack : Type := Resource (r : rkind) | Over (s : strat) (parent : stack).

Section Access.
  (** what [cudaDeviceGetAttribute(cudaDevAttrPageableMemoryAccess)] left in [pageableMem] (0 if it failed) in a build with
      CUDA; false in others (MallocAllocator.hpp:67-81) *)
  Context (pageable : bool).
  (** UMPIRE_ENABLE_NUMA: HOST is a [PosixMemalignAllocator] (HostResourceFactory.cpp:43-47) *)
  Context (numa_build : bool).

  (** MallocAllocator.hpp:83-91, PosixMemalignAllocator.hpp:67-73, NoOpMemoryResource.cpp:52-57, NullMemoryResource.cpp:72-77,
      HostSharedMemoryResource.cpp:67-75, FileMemoryResource.cpp:162-170, CudaDeviceMemoryResource.cpp:54-60,
      CudaMallocManagedAllocator.hpp:67-73, CudaPinnedAllocator.hpp:48-54, HipDeviceMemoryResource.cpp:54-60,
      HipUnifiedMemoryResource.cpp:40-46, HipPinnedMemoryResource.cpp:40-46, HipConstantMemoryResource.cpp:76-82,
      CudaConstantMemoryResource.cu:75-81, SyclMallocAllocator.hpp:59-65, SyclMallocManagedAllocator.hpp:58-64,
      SyclPinnedAllocator.hpp:59-65, OpenMPTargetAllocator.hpp:58-64 *)
  Definition accessible_from (r : rkind) (p : platform) : bool :=
    match r with
    | RHost =>
        if numa_build then platform_eqb p PHost
        else if platform_eqb p PHost || platform_eqb p POmp then true else if platform_eqb p PCuda then pageable else false
    | RNoOp | RNull => false
    | RShared | RFile => if platform_eqb p PHost then true else if platform_eqb p PCuda then pageable else false
    | RCudaDevice | RCudaConst => platform_eqb p PCuda
    | RCudaUm | RCudaPinned => platform_eqb p PCuda || platform_eqb p PHost
    | RHipDevice | RHipUm | RHipPinned => platform_eqb p PHip || platform_eqb p PHost
    | RHipConst => platform_eqb p PHip
    | RSyclDevice => platform_eqb p PSycl
    | RSyclUm | RSyclPinned => platform_eqb p PSycl || platform_eqb p PHost
    | ROmpDevice => platform_eqb p POmp
    end.

  (** Umpire.cpp:103-106 *)
  Fixpoint root (s : stack) : rkind :=
    match s with
    | Over _ parent => root parent
    | Resource r => r
    end.
  (** Umpire.cpp:100-111; the root is a MemoryResource, so unwrapping it does not throw. *)
  Definition is_accessible (p : platform) (s : stack) : bool := accessible_from (root s) p.
End Access.

(** The first argument of the constructors in src/umpire/resource/*Factory.cpp (HostResourceFactory.cpp:49,
    NoOpResourceFactory.cpp:33, NullMemoryResourceFactory.cpp:34, HostSharedMemoryResourceFactory.cpp:37,
    FileMemoryResourceFactory.cpp:33, CudaDeviceResourceFactory.cpp:36, ...). *)
Definition resource_platform (r : rkind) : platform :=
  match r with
  | RHost | RNoOp | RShared => PHost
  | RNull | RFile => PUndefined
  | RCudaDevice | RCudaUm | RCudaPinned | RCudaConst => PCuda
  | RHipDevice | RHipUm | RHipPinned | RHipConst => PHip
  | RSyclDevice | RSyclUm | RSyclPinned => PSycl
  | ROmpDevice => POmp
  end.

(** The strategies: [getPlatform] asks the parent; that of a [NumaPolicy] is host or, for a device node in a build with a
    device, the device's (NumaPolicy.cpp:19-45, 63-66).  [gpu]: UMPIRE_ENABLE_CUDA, UMPIRE_ENABLE_HIP or neither;
    simplified: a build with another device refuses device nodes (41), here it is as one without devices. *)
Fixpoint get_platform (gpu : option platform) (s : stack) : platform :=
  match s with
  | Resource r => resource_platform r
  | Over (SNuma d) _ => match d, gpu with true, Some g => g | _, _ => PHost end
  | Over (SOther _) parent => get_platform gpu parent
  end.

(** NumaPolicy.cpp:28-30: the constructor refuses a parent whose platform is not host. *)
Fixpoint constructible (gpu : option platform) (s : stack) : bool :=
  match s with
  | Resource _ => true
  | Over (SNuma _) parent => constructible gpu parent && platform_eqb (get_platform gpu parent) PHost
  | Over (SOther _) parent => constructible gpu parent
  end.
