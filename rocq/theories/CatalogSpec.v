(** What a resource name means. *)
From Coq Require Import String.
From Verif Require Import Base NamingModel RegistryModel RegistrySpec CatalogModel.

(** A granularity may be added to the names of three kinds of memory. *)
Definition grain (g : string) : Prop := g = "::FINE"%string \/ g = "::COARSE"%string.

(** [x] names device number [d]. *)
Inductive names_device (d : Z) : string -> Prop :=
| nd_plain : names_device d ("DEVICE::" ++ dec d)%string
| nd_grain g : grain g -> names_device d ("DEVICE::" ++ dec d ++ g)%string.

(** [x] names memory of kind [ty]. *)
Inductive names_kind : string -> rtype -> Prop :=
| nk_plain ty x : In (ty, x) documented -> names_kind x ty
| nk_grain ty x g : In (ty, x) documented -> ty = Device \/ ty = Unified \/ ty = Pinned -> grain g ->
    names_kind (x ++ g)%string ty
| nk_device d x : 0 <= d -> names_device d x -> names_kind x Device.

(** The kind of memory a factory makes. *)
Definition made_kind (f : factory) : rtype :=
  match f with
  | FHost => Host | FNoOp => NoOp | FNull => Unknown | FShared => Shared | FFile => File
  | FDevice _ => Device | FUnified _ => Unified | FPinned _ => Pinned | FConst _ => Constant
  end.

Definition no_gpu (b : build) : Prop := b_cuda b = None /\ b_hip b = None /\ b_sycl b = None /\ b_omp b = None.

(** At most one of the vendors is present. *)
Definition one_vendor (b : build) : Prop :=
  (b_cuda b = None \/ (b_hip b = None /\ b_sycl b = None /\ b_omp b = None)) /\
  (b_hip b = None \/ (b_sycl b = None /\ b_omp b = None)) /\
  (b_sycl b = None \/ b_omp b = None).

(** A call of the resource manager by a user who has the handles they pass and creates resources under their listed
    names only. *)
Definition ordinary (R : list string) (st : registry) (c : rcall) : Prop :=
  match c with
  | RMakeResource x | RMakeResourceWith x => In x R
  | _ => owned st c
  end.

(** The number of devices. *)
Definition devices (b : build) : nat :=
  Nat.max (Nat.max (match b_cuda b with Some n => n | None => 0 end) (match b_hip b with Some (n, _) => n | None => 0 end))
          (Nat.max (match b_sycl b with Some n => n | None => 0 end) (match b_omp b with Some n => n | None => 0 end)).
