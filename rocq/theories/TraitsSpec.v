(** What is expected of the traits of an allocator. *)
From Coq Require Import String.
From Verif Require Import Base NamingModel RegistryModel RegistrySpec CatalogModel CatalogSpec VendModel TraitsModel.

(** The kinds of memory in the traits (there is none for NO_OP). *)
Definition said : list (rtype * restype) :=
  [(Host, THost); (Device, TDevice); (Constant, TDeviceConst); (Unified, TUm); (Pinned, TPinned); (File, TFile); (Shared, TShared)].

(** The makers of the devices. *)
Definition makers : list (vendor * maker) := [(VCuda, MNvidia); (VHip, MAmd); (VSycl, MIntel); (VOmp, MUnknown)].
Definition of_device (ty : rtype) : Prop := ty = Device \/ ty = Unified \/ ty = Pinned \/ ty = Constant.
(** The vendor whose library and devices are there. *)
Definition has_vendor (b : build) (v : vendor) : Prop :=
  match v with
  | VCuda => b_cuda b <> None
  | VHip => b_hip b <> None
  | VSycl => b_sycl b <> None
  | VOmp => b_omp b <> None
  end.

(** The names without a granularity, and the granularity of the others. *)
Inductive bare : string -> Prop :=
| bare_kind ty x : In (ty, x) documented -> bare x
| bare_device d : 0 <= d -> bare ("DEVICE::" ++ dec d)%string.
Inductive grain_named : string -> grainkind -> Prop :=
| gn_bare x : bare x -> grain_named x GUnknown
| gn_fine x : bare x -> grain_named (x ++ "::FINE") GFine
| gn_coarse x : bare x -> grain_named (x ++ "::COARSE") GCoarse.

(** All but the id, the queue and the granularity. *)
Definition alike (t t' : traits) : Prop :=
  t_unified t = t_unified t' /\ t_ipc t = t_ipc t' /\ t_size t = t_size t' /\ t_vendor t = t_vendor t' /\ t_kind t = t_kind t' /\
  t_used t = t_used t' /\ t_resource t = t_resource t' /\ t_scope t = t_scope t' /\ t_tracking t = t_tracking t'.

(** The vendor's library answers, and the SYCL selector finds a GPU (if there is SYCL). *)
Definition working (b : build) (sys : system) : Prop :=
  s_mem sys 0 <> None /\ (b_sycl b <> None -> s_sycl sys <> None) /\ (s_cuda sys = true -> b_hip b = None) /\
  Z.of_nat (devices b) <= INT_MAX.

(** The traits are those of the resource below. *)
Inductive over : holder -> traits -> Prop :=
| over_resource t : over (HResource t) t
| over_strategy s p t : over p t -> over (HOver s p) t.

(** [a] rests on a resource made from the name [x] with the default traits. *)
Definition rests_on_name (b : build) (sys : system) (a : holder) (x : string) : Prop :=
  exists t, make_resource_traits b sys x = Ok tt t /\ over a t.

(** The size in the traits: of device 0, or of the unit the selector of SYCL chooses; constant memory has 64 KiB, a segment of shared memory 16 MiB,
    elsewhere the size is not told (0). *)
Definition size_said (b : build) (sys : system) (ty : rtype) (n : Z) : Prop :=
  match ty with
  | Constant => n = 2 ^ 16
  | Shared => n = 2 ^ 24
  | Device => s_mem sys 0 = Some n /\ (b_cuda b <> None \/ b_hip b <> None) \/ n = 0 /\ (b_sycl b <> None \/ b_omp b <> None)
  | Unified => s_mem sys 0 = Some n /\ (b_cuda b <> None \/ b_hip b <> None) \/ s_sycl sys = Some n /\ b_sycl b <> None
  | _ => n = 0
  end.
(** The kind of memory chips and what the memory is best for. *)
Definition chips_said (ty : rtype) (k : memkind) (u : optimized) : Prop :=
  match ty with
  | Device | Unified | Constant => k = KGddr /\ u = OAny
  | Pinned => k = KDdr /\ u = OAccess
  | _ => k = KUnknown /\ u = OAny
  end.
