(** What an allocator says about its memory: MemoryResourceTraits (src/umpire/util/MemoryResourceTraits.hpp), the
    getDefaultTraits and create functions of the factories, ResourceManager::makeResource and the getTraits functions. *)
From Coq Require Import String.
From Verif Require Import Base NamingModel RegistryModel CatalogModel VendModel.

(** MemoryResourceTraits.hpp:23-33 *)
Inductive optimized : Type := OAny | OLatency | OBandwidth | OAccess.
Inductive maker : Type := MUnknown | MAmd | MIbm | MIntel | MNvidia.
Inductive memkind : Type := KUnknown | KDdr | KGddr | KHbm | KNvme.
Inductive restype : Type := TUnknown | THost | TDevice | TDeviceConst | TPinned | TUm | TFile | TShared.
Inductive scopekind : Type := ScUnknown | ScNode | ScSocket.
Inductive grainkind : Type := GUnknown | GFine | GCoarse.

(** MemoryResourceTraits.hpp:20-54.  [t_id]: [None] is an int that was never given a value (35).  [t_queue]: the unit (device,
    sub-device) the SYCL queue was made for, [None] is the null pointer (39). *)
Record traits : Type := mkT {
  t_id : option Z; t_queue : option (nat * nat); t_unified : bool; t_ipc : bool; t_size : Z; t_vendor : maker; t_kind : memkind;
  t_used : optimized; t_resource : restype; t_scope : scopekind; t_grain : grainkind; t_tracking : bool
}.
Definition t_new : traits := mkT None None false false 0 MUnknown KUnknown OAny TUnknown ScUnknown GUnknown true.

Definition set_id (i : option Z) (t : traits) : traits :=
  mkT i (t_queue t) (t_unified t) (t_ipc t) (t_size t) (t_vendor t) (t_kind t) (t_used t) (t_resource t) (t_scope t) (t_grain t) (t_tracking t).
Definition set_queue (q : option (nat * nat)) (t : traits) : traits :=
  mkT (t_id t) q (t_unified t) (t_ipc t) (t_size t) (t_vendor t) (t_kind t) (t_used t) (t_resource t) (t_scope t) (t_grain t) (t_tracking t).
Definition set_scope (s : scopekind) (t : traits) : traits :=
  mkT (t_id t) (t_queue t) (t_unified t) (t_ipc t) (t_size t) (t_vendor t) (t_kind t) (t_used t) (t_resource t) s (t_grain t) (t_tracking t).
Definition set_grain (g : grainkind) (t : traits) : traits :=
  mkT (t_id t) (t_queue t) (t_unified t) (t_ipc t) (t_size t) (t_vendor t) (t_kind t) (t_used t) (t_resource t) (t_scope t) g (t_tracking t).
(** The assignments in the getDefaultTraits functions. *)
Definition with_ (unified : bool) (size : Z) (v : maker) (k : memkind) (u : optimized) (r : restype) : traits :=
  mkT None None unified false size v k u r ScUnknown GUnknown true.

Inductive cpu : Type := X86 | PowerPc | OtherCpu.
(** util/detect_vendor.cpp:12-21 *)
Definition cpu_vendor_type (c : cpu) : maker := match c with X86 => MIntel | PowerPc => MIbm | OtherCpu => MUnknown end.

(** The machine.  [s_mem d]: the bytes of device [d], [None]: cudaGetDeviceProperties (hipGetDeviceProperties) fails.
    [s_sycl]: global_mem_size of the device sycl::gpu_selector chooses or of its first sub-device, [None]: it is not a GPU.
    [s_units]: the devices of the platform of the selector. *)
Record system : Type := mkSys {
  s_cpu : cpu; s_mem : Z -> option Z; s_sycl : option Z; s_units : list sdevice;
  s_omp : bool;                (** UMPIRE_ENABLE_OPENMP_TARGET *)
  s_initial : Z;               (** omp_get_initial_device *)
  s_default : Z;               (** omp_get_default_device *)
  s_cuda : bool;               (** UMPIRE_ENABLE_CUDA *)
  s_current : Z                (** the current device, 0 without CUDA and HIP *)
}.

Section Traits.
  Context (b : build) (sys : system).

  (** The functions getDefaultTraits: HostResourceFactory.cpp:52-77, NoOpResourceFactory.cpp:36-51, NullMemoryResourceFactory.cpp:37-50,
      HostSharedMemoryResourceFactory.cpp:40-55, FileMemoryResourceFactory.cpp:36-49, CudaDeviceResourceFactory.cpp:39-62,
      CudaUnifiedMemoryResourceFactory.cpp:40-61, CudaPinnedMemoryResourceFactory.cpp:37-50, CudaConstantMemoryResourceFactory.cpp:36-49,
      HipDeviceResourceFactory.cpp:37-57, HipUnifiedMemoryResourceFactory.cpp:36-56, HipPinnedMemoryResourceFactory.cpp:34-47,
      HipConstantMemoryResourceFactory.cpp:36-49, SyclDeviceResourceFactory.cpp:75-87, SyclUnifiedMemoryResourceFactory.cpp:75-105,
      SyclPinnedMemoryResourceFactory.cpp:75-89, OpenMPTargetMemoryResourceFactory.cpp:38-47.  The other pairs do not exist
      ([factories] does not list them). *)
  Definition default_traits (f : factory) : outcome unit traits :=
    let props (k : Z -> traits) : outcome unit traits :=
      match s_mem sys 0 with Some m => Ok tt (k m) | None => Throw tt RuntimeError end in
    match f with
    | FHost =>
        let t := with_ false 0 (cpu_vendor_type (s_cpu sys)) KUnknown OAny THost in
        Ok tt (if s_omp sys then set_id (Some (s_initial sys)) t else t)
    | FNoOp => Ok tt (set_id (Some 0) (with_ false 0 MUnknown KUnknown OAny TUnknown))
    | FNull => Ok tt (with_ false 0 MUnknown KUnknown OAny TUnknown)
    | FShared => Ok tt (set_scope ScNode (with_ false (16 * 1024 * 1024) MUnknown KUnknown OAny TShared))
    | FFile => Ok tt (with_ false 0 MUnknown KUnknown OAny TFile)
    | FDevice VCuda => props (fun m => set_id (Some 0) (with_ false m MNvidia KGddr OAny TDevice))
    | FUnified VCuda => props (fun m => with_ true m MNvidia KGddr OAny TUm)
    | FPinned VCuda => Ok tt (with_ false 0 MNvidia KDdr OAccess TPinned)
    | FConst VCuda => Ok tt (with_ false (64 * 1024) MNvidia KGddr OAny TDeviceConst)
    | FDevice VHip => props (fun m => with_ false m MAmd KGddr OAny TDevice)
    | FUnified VHip => props (fun m => with_ true m MAmd KGddr OAny TUm)
    | FPinned VHip => Ok tt (with_ false 0 MAmd KDdr OAccess TPinned)
    | FConst VHip => Ok tt (with_ false (64 * 1024) MAmd KGddr OAny TDeviceConst)
    | FDevice VSycl => Ok tt (set_id (Some 0) (with_ false 0 MIntel KGddr OAny TDevice))
    | FUnified VSycl =>
        match s_sycl sys with
        | Some m => Ok tt (set_id (Some 0) (with_ true m MIntel KGddr OAny TUm))
        | None => Ok tt t_new
        end
    | FPinned VSycl => Ok tt (set_id (Some 0) (with_ false 0 MIntel KDdr OAccess TPinned))
    | FDevice VOmp => Ok tt (set_id (Some (s_default sys)) (with_ false 0 MUnknown KGddr OAny TDevice))
    | FConst VSycl | FUnified VOmp | FPinned VOmp | FConst VOmp => Ok tt t_new
    end.

  (** The functions create(name, id, traits): HostSharedMemoryResourceFactory.cpp:31-38 refuses all scopes but the node;
      SyclDeviceResourceFactory.cpp:30-73 (unified and pinned the same) makes the queue of the unit number [t_id];
      OpenMPTargetMemoryResourceFactory.cpp:31-36 gives the id to the allocator; the others keep the traits (HostResourceFactory.cpp:40-50,
      CudaDeviceResourceFactory.cpp:33-37, ...).  Simplified: copying traits whose id has no value is not undefined, reading
      the id is. *)
  Definition create (f : factory) (t : traits) : outcome unit traits :=
    match f with
    | FShared => match t_scope t with ScNode => Ok tt t | _ => Throw tt RuntimeError end
    | FDevice VSycl | FUnified VSycl | FPinned VSycl =>
        match t_id t with
        | Some i => Ok tt (match sycl_queue (s_units sys) i with Some u => set_queue (Some u) t | None => t end)
        | None => UB
        end
    | FDevice VOmp => match t_id t with Some _ => Ok tt t | None => UB end
    | _ => Ok tt t
    end.

  (** MemoryResourceRegistry.cpp:276-285, Umpire.cpp:202-207 (get_default_resource_traits) *)
  Definition get_default_resource_traits (x : string) : outcome unit traits :=
    match make_memory_resource b x with
    | Some f => default_traits f
    | None => Throw tt RuntimeError
    end.

  (** ResourceManager.cpp:138-161 and MemoryResourceRegistry.cpp:263-274: the traits the new resource keeps.  The names and
      ids are RegistryModel.v; [x] is not in use.  The exceptions of std::stoi are a RuntimeError here. *)
  Definition make_resource_with_traits (x : string) (t : traits) : outcome unit traits :=
    let* (w, t) :=
      if contains x "DEVICE" then
        match device_id (s_cuda sys) (s_current sys) x with
        | Some i => Ok tt (set_id (Some i) t)
        | None => Throw tt RuntimeError
        end
      else Ok tt t in
    let t := if contains x "::COARSE" then set_grain GCoarse t else t in
    let t := if contains x "::FINE" then set_grain GFine t else t in
    match make_memory_resource b x with
    | Some f => create f t
    | None => Throw tt RuntimeError
    end.

  (** ResourceManager.cpp:132-136 *)
  Definition make_resource_traits (x : string) : outcome unit traits :=
    let* (w, t) := get_default_resource_traits x in make_resource_with_traits x t.
End Traits.

(** An allocator: a resource with its traits (MemoryResource.cpp:17-20), or one of the strategies in src/umpire/strategy over
    another. *)
Inductive which : Type :=
| WAligned | WAdvisor | WPrefetcher | WDynamicPoolList | WFixedPool | WMixedPool | WMonotonic | WNamed | WNamingShim | WNuma
| WQuickPool | WSizeLimiter | WSlotPool | WThreadSafe.
Inductive holder : Type := HResource (t : traits) | HOver (s : which) (parent : holder).

(** AlignedAllocator.cpp:61, AllocationAdvisor.cpp:63, AllocationPrefetcher.cpp:45, DynamicPoolList.cpp:115, FixedPool.cpp:209,
    MixedPool.cpp:115, MonotonicAllocationStrategy.cpp:67, NamedAllocationStrategy.cpp:35, NamingShim.cpp:43, NumaPolicy.cpp:68,
    QuickPool.cpp:293, SizeLimiter.cpp:46, SlotPool.cpp:91, ThreadSafeAllocator.cpp:38 *)
Fixpoint get_traits (a : holder) : traits :=
  match a with
  | HResource t => t
  | HOver (WAligned | WAdvisor | WPrefetcher | WDynamicPoolList | WFixedPool | WMixedPool | WMonotonic | WNamed | WNamingShim | WNuma) p => get_traits p
  | HOver (WQuickPool | WSizeLimiter | WSlotPool | WThreadSafe) p => get_traits p
  end.

(** ** Who looks at them *)

(** ResourceManager.cpp:842-844: does [prefetch] throw? *)
Definition prefetch_refused (a : holder) : bool := match t_resource (get_traits a) with TUm => false | _ => true end.
(** Umpire.cpp:251: does the allocator get a communicator? *)
Definition has_communicator (a : holder) : bool := match t_scope (get_traits a) with ScNode => true | _ => false end.
(** OpenMPTargetCopyOperation.cpp:18-37: the destination's and the source's device given to omp_target_memcpy *)
Definition omp_copy (src dst : holder) : outcome unit (Z * Z) :=
  match t_id (get_traits src), t_id (get_traits dst) with
  | Some s, Some d => Ok tt (d, s)
  | _, _ => UB
  end.
(** OpenMPTargetMemsetOperation.cpp:18-29: the device *)
Definition omp_memset (a : holder) : outcome unit Z := match t_id (get_traits a) with Some i => Ok tt i | None => UB end.
(** SyclMemPrefetchOperation.cpp:16-24: the unit whose queue is used; a null queue is dereferenced. *)
Definition sycl_prefetch (a : holder) (device : Z) : outcome unit (nat * nat) :=
  match t_id (get_traits a) with
  | Some i =>
      if i =? device then match t_queue (get_traits a) with Some u => Ok tt u | None => UB end
      else Throw tt RuntimeError
  | None => UB
  end.
