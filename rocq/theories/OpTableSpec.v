(** What the operation registry should contain, by platform. *)
From Coq Require Import String.
From Verif Require Import Base OpTableModel.

(** The first registration for a name and a pair of platforms. *)
Fixpoint first_for (name : string) (pl : platform * platform) (l : list registration) : option operation :=
  match l with
  | [] => None
  | (n, p, op) :: t => if (n =? name)%string && pair_eqb p pl then Some op else first_for name pl t
  end.

(** The platforms of a build. *)
Definition enabled (c : opconfig) (p : platform) : bool :=
  match p with
  | PHost => true
  | PCuda => oc_cuda c
  | PHip => oc_hip c
  | POmp => oc_omp c
  | PSycl => oc_sycl c
  | PUndefined => false
  end.

Definition devices : list platform := [PCuda; PHip; POmp; PSycl].

(** The operation that copies to, from or within a device. *)
Definition copy_of (p : platform) (d : direction) : operation :=
  match p, d with
  | PCuda, _ => CudaCopyOperation d
  | PHip, _ => HipCopyOperation d
  | POmp, _ => OpenMPTargetCopyOperation
  | PSycl, HostToDevice => SyclCopyToOperation
  | PSycl, DeviceToHost => SyclCopyFromOperation
  | PSycl, DeviceToDevice => SyclCopyOperation
  | _, _ => HostCopyOperation
  end.

Definition memset_of (p : platform) : operation :=
  match p with
  | PCuda => CudaMemsetOperation | PHip => HipMemsetOperation | POmp => OpenMPTargetMemsetOperation
  | PSycl => SyclMemsetOperation | _ => HostMemsetOperation
  end.

(** The name of a piece of advice. *)
Definition advice_name (a : advice) : string :=
  match a with
  | SetReadMostly => "SET_READ_MOSTLY" | UnsetReadMostly => "UNSET_READ_MOSTLY"
  | SetPreferredLocation => "SET_PREFERRED_LOCATION" | UnsetPreferredLocation => "UNSET_PREFERRED_LOCATION"
  | SetAccessedBy => "SET_ACCESSED_BY" | UnsetAccessedBy => "UNSET_ACCESSED_BY"
  | SetCoarseGrain => "SET_COARSE_GRAIN" | UnsetCoarseGrain => "UNSET_COARSE_GRAIN"
  end.

(** Who can give it: CUDA for device memory and, but for the first two, on behalf of the host; HIP for device
    memory, the last two since version 5. *)
Definition advisable (c : opconfig) (a : advice) : list (platform * operation) :=
  match a with
  | SetReadMostly | UnsetReadMostly =>
      (when (oc_cuda c) [(PCuda, CudaAdviseOperation a)] ++ when (oc_hip c) [(PHip, HipAdviseOperation a)])%list
  | SetCoarseGrain | UnsetCoarseGrain => when (oc_hip c && oc_hip5 c) [(PHip, HipAdviseOperation a)]
  | _ => (when (oc_cuda c) [(PCuda, CudaAdviseOperation a); (PHost, CudaAdviseOperation a)] ++
          when (oc_hip c) [(PHip, HipAdviseOperation a)])%list
  end.

Definition all_advice : list advice :=
  [SetReadMostly; UnsetReadMostly; SetPreferredLocation; UnsetPreferredLocation; SetAccessedBy; UnsetAccessedBy;
   SetCoarseGrain; UnsetCoarseGrain].

(** All operations: "COPY", "MEMSET" and "REALLOCATE" for the host and for every device of the build, advice,
    "PREFETCH" and "MOVE". *)
Definition documented (c : opconfig) : list registration :=
  ([("COPY", (PHost, PHost), HostCopyOperation); ("MEMSET", (PHost, PHost), HostMemsetOperation);
    ("REALLOCATE", (PHost, PHost), HostReallocateOperation);
    ("REALLOCATE", (PUndefined, PUndefined), GenericReallocateOperation)] ++
   flat_map (fun p => if enabled c p
                      then [("COPY", (PHost, p), copy_of p HostToDevice); ("COPY", (p, PHost), copy_of p DeviceToHost);
                            ("COPY", (p, p), copy_of p DeviceToDevice); ("MEMSET", (p, p), memset_of p);
                            ("REALLOCATE", (p, p), GenericReallocateOperation)]
                      else []) devices ++
   flat_map (fun a => map (fun '(p, o) => (advice_name a, (p, p), o)) (advisable c a)) all_advice ++
   when (oc_cuda c) [("PREFETCH", (PCuda, PCuda), CudaMemPrefetchOperation)] ++
   when (oc_sycl c) [("PREFETCH", (PSycl, PSycl), SyclMemPrefetchOperation)] ++
   when (oc_numa c) [("MOVE", (PHost, PHost), NumaMoveOperation); ("MOVE", (PHost, PCuda), NumaMoveOperation);
                     ("MOVE", (PCuda, PHost), NumaMoveOperation)])%list%string.
