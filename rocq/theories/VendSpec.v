(** What is expected of the functions that get memory from the system and the vendors, of the choice of a SYCL device and of
    the answers about who can access what. *)
From Verif Require Import Base VendModel.

(** ** The memory the vendors' functions hand out, after their manuals *)

Inductive maker : Type := System | Cuda | Hip | Sycl | Omp.
Inductive residence : Type := Pageable | PageAligned | OnDevice | Managed | Pinned.

Definition maker_of (c : vcall) : maker :=
  match c with
  | C_malloc | C_memalign => System
  | C_cudaMalloc | C_cudaMallocManaged | C_cudaMallocHost => Cuda
  | C_hipMalloc | C_hipExt _ | C_hipMallocManaged | C_hipHostMalloc | C_hipHostMallocFlag _ => Hip
  | C_syclDevice | C_syclShared | C_syclHost => Sycl
  | C_omp => Omp
  end.
Definition residence_of (c : vcall) : residence :=
  match c with
  | C_malloc => Pageable
  | C_memalign => PageAligned
  | C_cudaMalloc | C_hipMalloc | C_hipExt _ | C_syclDevice | C_omp => OnDevice
  | C_cudaMallocManaged | C_hipMallocManaged | C_syclShared => Managed
  | C_cudaMallocHost | C_hipHostMalloc | C_hipHostMallocFlag _ | C_syclHost => Pinned
  end.
(** Coherence of HIP memory; [GUnknown] where the caller said nothing. *)
Definition grain_of (b : block) : granularity :=
  match b_call b with
  | C_hipExt fine => if fine then GFine else GCoarse
  | C_hipHostMallocFlag noncoherent => if noncoherent then GCoarse else GFine
  | C_hipMallocManaged => if b_coarse b then GCoarse else GFine
  | _ => GUnknown
  end.

(** ** What a leaf is for *)

Definition wants_maker (k : leaf) : maker :=
  match k with
  | LMalloc | LMemalign => System
  | LCuda | LCudaManaged | LCudaPinned => Cuda
  | LHip _ | LHipManaged _ | LHipPinned _ => Hip
  | LSycl _ | LSyclManaged _ | LSyclPinned _ => Sycl
  | LOmp _ => Omp
  end.
Definition wants_residence (k : leaf) : residence :=
  match k with
  | LMalloc => Pageable
  | LMemalign => PageAligned
  | LCuda | LHip _ | LSycl _ | LOmp _ => OnDevice
  | LCudaManaged | LHipManaged _ | LSyclManaged _ => Managed
  | LCudaPinned | LHipPinned _ | LSyclPinned _ => Pinned
  end.
Definition wants_grain (k : leaf) : granularity :=
  match k with LHip g | LHipManaged g | LHipPinned g => g | _ => GUnknown end.
(** The queue or device. *)
Definition wants_place (k : leaf) : option Z :=
  match k with
  | LSycl q | LSyclManaged q | LSyclPinned q => q
  | LOmp d => Some d
  | _ => Some 0
  end.

Definition of_leaf (k : leaf) (b : block) : Prop :=
  maker_of (b_call b) = wants_maker k /\ residence_of (b_call b) = wants_residence k /\ Some (b_place b) = wants_place k.
Definition grained (k : leaf) (b : block) : Prop := wants_grain k = GUnknown \/ grain_of b = wants_grain k.

(** ** Memory handed out is apart *)

Definition ok_block (b : block) : Prop := 0 < b_at b /\ 0 <= b_size b /\ b_at b + b_size b <= ASP.
Definition apart (a b : block) : Prop := b_at a <> b_at b /\ disj (b_region a) (b_region b).
Definition tidy (l : list block) : Prop := (forall b, In b l -> ok_block b) /\ pairwise apart l.

(** ** Hypotheses *)

(** There is a queue. *)
Definition usable (k : leaf) : Prop := wants_place k <> None.
(** Managed memory that is to be coarse grained takes two more calls. *)
Definition reliable (o : vendors) (coherence : bool) (k : leaf) : Prop :=
  k = LHipManaged GCoarse -> coherence = true -> forall t, o_device o t <> None /\ o_advise o t = true.
(** The build without coherence cannot advise. *)
Definition can_grain (coherence : bool) (k : leaf) : Prop := k = LHipManaged GCoarse -> coherence = true.
(** The leaf takes its granularity in this build. *)
Definition supported (coherence : bool) (k : leaf) : Prop :=
  match k with
  | LHip g | LHipPinned g => g = GUnknown \/ coherence = true
  | _ => True
  end.

(** ** Programs over several leaves *)

(** [vhist w H]: after some allocations and deallocations (failed ones included) the program holds [H], memory with the leaf
    it came from. *)
Section Hist.
  Context (o : vendors) (coherence : bool).
  Inductive vhist : vstate -> list (leaf * region) -> Prop :=
  | vh_start t e : vhist (mkV t [] e) []
  | vh_alloc w H k n w' p : vhist w H -> usable k -> reliable o coherence k -> 0 < n ->
      leaf_allocate o coherence k n w = Ok w' p -> vhist w' ((k, (p, n)) :: H)
  | vh_refused w H k n w' e : vhist w H -> usable k -> reliable o coherence k -> 0 < n ->
      leaf_allocate o coherence k n w = Throw w' e -> vhist w' H
  | vh_free w H1 H2 k p n w' u : vhist w (H1 ++ (k, (p, n)) :: H2) ->
      leaf_deallocate o k p w = Ok w' u -> vhist w' (H1 ++ H2)
  | vh_not_freed w H1 H2 k p n w' e : vhist w (H1 ++ (k, (p, n)) :: H2) ->
      leaf_deallocate o k p w = Throw w' e -> vhist w' (H1 ++ (k, (p, n)) :: H2).
End Hist.

(** ** SYCL devices: the units in order, and how many there are *)

Definition units_of (i : nat) (d : sdevice) : list (nat * nat) :=
  if sd_gpu d then List.map (fun j => (i, j)) (seq 0 (match sd_subs d with Some n => n | None => 1%nat end)) else [].
Fixpoint units_from (i : nat) (l : list sdevice) : list (nat * nat) :=
  match l with [] => [] | d :: t => units_of i d ++ units_from (S i) t end.
Definition units (l : list sdevice) : list (nat * nat) := units_from 0 l.
(** partition_max_sub_devices is not 0 for those that are divided; it bounds the parts. *)
Definition bounded (x : sdevice * nat) : Prop :=
  match sd_subs (fst x) with Some n => (0 < snd x)%nat /\ (n <= snd x)%nat | None => snd x = 0%nat end.
(** There are as many parts as there may be. *)
Definition exhausted (x : sdevice * nat) : Prop := sd_subs (fst x) = None \/ sd_subs (fst x) = Some (snd x).

(** ** Who can access what *)

(** A machine: whether the device reads pageable host memory (CUDA: pageable access; HIP and SYCL likewise; OpenMP: unified
    shared memory), and whether the host reads the memory of HIP devices. *)
Record machine : Type := mkMachine {
  m_cuda_pageable : bool;
  m_hip_pageable : bool;
  m_sycl_pageable : bool;
  m_omp_unified : bool;
  m_hip_host : bool
}.

(** Where the memory of a resource is. *)
Inductive whereis : Type := Nowhere | InHost | OnlyDevice (p : platform) | Shared (p : platform).
Definition where_is (r : rkind) : whereis :=
  match r with
  | RNoOp | RNull => Nowhere
  | RHost | RShared | RFile => InHost
  | RCudaDevice | RCudaConst => OnlyDevice PCuda
  | RHipDevice | RHipConst => OnlyDevice PHip
  | RSyclDevice => OnlyDevice PSycl
  | ROmpDevice => OnlyDevice POmp
  | RCudaUm | RCudaPinned => Shared PCuda
  | RHipUm | RHipPinned => Shared PHip
  | RSyclUm | RSyclPinned => Shared PSycl
  end.
Definition can_reach (m : machine) (p : platform) (x : whereis) : Prop :=
  match x with
  | Nowhere => False
  | InHost =>
      match p with
      | PHost => True
      | PCuda => m_cuda_pageable m = true
      | PHip => m_hip_pageable m = true
      | PSycl => m_sycl_pageable m = true
      | POmp => m_omp_unified m = true
      | PUndefined => False
      end
  | OnlyDevice q => p = q \/ p = PHost /\ q = PHip /\ m_hip_host m = true
  | Shared q => p = q \/ p = PHost
  end.

(** The resource below a stack of strategies. *)
Inductive rests_on : stack -> rkind -> Prop :=
| ro_resource r : rests_on (Resource r) r
| ro_over s x r : rests_on x r -> rests_on (Over s x) r.

(** No [NumaPolicy] for the node of a device. *)
Inductive host_nodes : stack -> Prop :=
| hn_resource r : host_nodes (Resource r)
| hn_numa x : host_nodes x -> host_nodes (Over (SNuma false) x)
| hn_other i x : host_nodes x -> host_nodes (Over (SOther i) x).
