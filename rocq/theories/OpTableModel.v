(** Model of op::MemoryOperationRegistry (src/umpire/op/MemoryOperationRegistry.cpp): the operations
    registered by the constructor in every build configuration, [registerOperation] and [find].  Operations are
    told apart by their class and constructor argument.  The singleton's initialisation and memory
    exhaustion inside the [noexcept] functions are left out. *)
From Coq Require Import String.
From Verif Require Import Base RegistryModel.

(** camp::resources::Platform *)
Inductive platform : Type := PUndefined | PHost | PCuda | POmp | PHip | PSycl.

Definition platform_eqb (a b : platform) : bool :=
  match a, b with
  | PUndefined, PUndefined | PHost, PHost | PCuda, PCuda | POmp, POmp | PHip, PHip | PSycl, PSycl => true
  | _, _ => false
  end.

Definition pair_eqb (a b : platform * platform) : bool := platform_eqb (fst a) (fst b) && platform_eqb (snd a) (snd b).

(** cudaMemcpyKind, hipMemcpyKind *)
Inductive direction : Type := HostToDevice | DeviceToHost | DeviceToDevice.

(** cudaMemoryAdvise, hipMemoryAdvise *)
Inductive advice : Type :=
| SetReadMostly | UnsetReadMostly | SetPreferredLocation | UnsetPreferredLocation | SetAccessedBy | UnsetAccessedBy
| SetCoarseGrain | UnsetCoarseGrain.

Inductive operation : Type :=
| HostCopyOperation | HostMemsetOperation | HostReallocateOperation | GenericReallocateOperation
| NumaMoveOperation
| CudaCopyOperation (d : direction) | CudaAdviseOperation (a : advice) | CudaMemsetOperation | CudaMemPrefetchOperation
| HipCopyOperation (d : direction) | HipAdviseOperation (a : advice) | HipMemsetOperation
| OpenMPTargetCopyOperation | OpenMPTargetMemsetOperation
| SyclCopyToOperation | SyclCopyFromOperation | SyclCopyOperation | SyclMemsetOperation | SyclMemPrefetchOperation
| UserOperation (n : Z).

(** MemoryOperationRegistry.hpp:105-107 [m_operators]: two nested unordered maps. *)
Definition optable : Type := list (string * list ((platform * platform) * operation)).

(** std::unordered_map::insert: an existing entry stays. *)
Definition ainsert {K V : Type} (eqb : K -> K -> bool) (k : K) (v : V) (l : list (K * V)) : list (K * V) :=
  match alook eqb k l with Some _ => l | None => aput eqb k v l end.

(** MemoryOperationRegistry.cpp:194-208. *)
Definition register_operation (name : string) (pl : platform * platform) (op : operation) (t : optable) : optable :=
  let t1 := ainsert String.eqb name [] t in
  match alook String.eqb name t1 with
  | Some ops => aput String.eqb name (ainsert pair_eqb pl op ops) t1
  | None => t1
  end.

(** MemoryOperationRegistry.cpp:216-235. *)
Definition find_operation (name : string) (pl : platform * platform) (t : optable) : outcome optable operation :=
  match alook String.eqb name t with
  | None => Throw t RuntimeError
  | Some ops => match alook pair_eqb pl ops with None => Throw t RuntimeError | Some op => Ok t op end
  end.

(** The macros of umpire/config.hpp. *)
Record opconfig : Type := mkOpconfig {
  oc_numa : bool; oc_cuda : bool; oc_hip : bool;
  oc_hip5 : bool;     (** HIP_VERSION_MAJOR >= 5 *)
  oc_omp : bool; oc_sycl : bool
}.

Definition registration : Type := (string * (platform * platform) * operation)%type.

Definition when (b : bool) {A : Type} (l : list A) : list A := if b then l else [].

Section Builtin.
  Local Open Scope string_scope.

  (** MemoryOperationRegistry.cpp:60-68 *)
  Definition reg_host : list registration :=
    [("COPY", (PHost, PHost), HostCopyOperation);
     ("MEMSET", (PHost, PHost), HostMemsetOperation);
     ("REALLOCATE", (PHost, PHost), HostReallocateOperation);
     ("REALLOCATE", (PUndefined, PUndefined), GenericReallocateOperation)].

  (** 71-76 *)
  Definition reg_numa : list registration :=
    [("MOVE", (PHost, PHost), NumaMoveOperation);
     ("MOVE", (PHost, PCuda), NumaMoveOperation);
     ("MOVE", (PCuda, PHost), NumaMoveOperation)].

  (** 80-90 *)
  Definition cuda_advice_operations : list (string * advice * platform) :=
    [("SET_READ_MOSTLY", SetReadMostly, PCuda);
     ("UNSET_READ_MOSTLY", UnsetReadMostly, PCuda);
     ("SET_PREFERRED_LOCATION", SetPreferredLocation, PCuda);
     ("UNSET_PREFERRED_LOCATION", UnsetPreferredLocation, PCuda);
     ("SET_ACCESSED_BY", SetAccessedBy, PCuda);
     ("UNSET_ACCESSED_BY", UnsetAccessedBy, PCuda);
     ("SET_PREFERRED_LOCATION", SetPreferredLocation, PHost);
     ("UNSET_PREFERRED_LOCATION", UnsetPreferredLocation, PHost);
     ("SET_ACCESSED_BY", SetAccessedBy, PHost);
     ("UNSET_ACCESSED_BY", UnsetAccessedBy, PHost)].

  (** 92-95 *)
  Definition cuda_copy_operations : list (platform * platform * direction) :=
    [(PHost, PCuda, HostToDevice); (PCuda, PHost, DeviceToHost); (PCuda, PCuda, DeviceToDevice)].

  (** 97-117 *)
  Definition reg_cuda : list registration :=
    (map (fun '(s, d, k) => ("COPY", (s, d), CudaCopyOperation k)) cuda_copy_operations ++
     map (fun '(n, a, p) => (n, (p, p), CudaAdviseOperation a)) cuda_advice_operations ++
     [("MEMSET", (PCuda, PCuda), CudaMemsetOperation);
      ("REALLOCATE", (PCuda, PCuda), GenericReallocateOperation);
      ("PREFETCH", (PCuda, PCuda), CudaMemPrefetchOperation)])%list.

  (** 121-133 *)
  Definition hip_advice_operations (hip5 : bool) : list (string * advice) :=
    ([("SET_READ_MOSTLY", SetReadMostly);
      ("UNSET_READ_MOSTLY", UnsetReadMostly);
      ("SET_PREFERRED_LOCATION", SetPreferredLocation);
      ("UNSET_PREFERRED_LOCATION", UnsetPreferredLocation);
      ("SET_ACCESSED_BY", SetAccessedBy);
      ("UNSET_ACCESSED_BY", UnsetAccessedBy)] ++
     when hip5 [("SET_COARSE_GRAIN", SetCoarseGrain); ("UNSET_COARSE_GRAIN", UnsetCoarseGrain)])%list.

  (** 135-138 *)
  Definition hip_copy_operations : list (platform * platform * direction) :=
    [(PHost, PHip, HostToDevice); (PHip, PHost, DeviceToHost); (PHip, PHip, DeviceToDevice)].

  (** 140-156 *)
  Definition reg_hip (hip5 : bool) : list registration :=
    (map (fun '(s, d, k) => ("COPY", (s, d), HipCopyOperation k)) hip_copy_operations ++
     map (fun '(n, a) => (n, (PHip, PHip), HipAdviseOperation a)) (hip_advice_operations hip5) ++
     [("MEMSET", (PHip, PHip), HipMemsetOperation);
      ("REALLOCATE", (PHip, PHip), GenericReallocateOperation)])%list.

  (** 160-172 *)
  Definition reg_omp : list registration :=
    [("COPY", (PHost, POmp), OpenMPTargetCopyOperation);
     ("COPY", (POmp, PHost), OpenMPTargetCopyOperation);
     ("COPY", (POmp, POmp), OpenMPTargetCopyOperation);
     ("MEMSET", (POmp, POmp), OpenMPTargetMemsetOperation);
     ("REALLOCATE", (POmp, POmp), GenericReallocateOperation)].

  (** 176-187 *)
  Definition reg_sycl : list registration :=
    [("COPY", (PHost, PSycl), SyclCopyToOperation);
     ("COPY", (PSycl, PHost), SyclCopyFromOperation);
     ("COPY", (PSycl, PSycl), SyclCopyOperation);
     ("MEMSET", (PSycl, PSycl), SyclMemsetOperation);
     ("REALLOCATE", (PSycl, PSycl), GenericReallocateOperation);
     ("PREFETCH", (PSycl, PSycl), SyclMemPrefetchOperation)].

  (** MemoryOperationRegistry.cpp:58-189: the calls of [registerOperation] in their order. *)
  Definition builtin (c : opconfig) : list registration :=
    (reg_host ++ when (oc_numa c) reg_numa ++ when (oc_cuda c) reg_cuda ++ when (oc_hip c) (reg_hip (oc_hip5 c)) ++
     when (oc_omp c) reg_omp ++ when (oc_sycl c) reg_sycl)%list.
End Builtin.

Definition register_all (l : list registration) (t : optable) : optable :=
  fold_left (fun t '(n, pl, op) => register_operation n pl op t) l t.

(** The table after construction and the program's own registrations [l], in their order. *)
Definition operators (c : opconfig) (l : list registration) : optable := register_all l (register_all (builtin c) []).
