(** Property C81: what an allocator says about its memory. *)
From Coq Require Import String.
From Verif Require Import VendSpec Base NamingModel RegistryModel RegistrySpec CatalogModel CatalogSpec VendModel TraitsModel TraitsSpec TraitsFacts.

(** An allocator says of its memory what the resource it rests on says, through any strategies. *)
Theorem C81_tower : forall a t, over a t -> get_traits a = t.
Proof. exact get_over. Qed.
Print Assumptions C81_tower.

(** Every listed resource can be made with its default traits. *)
Theorem C81_made : forall b sys x, working b sys -> In x (names b) -> exists t, make_resource_traits b sys x = Ok tt t.
Proof. exact listed_made. Qed.
Print Assumptions C81_made.

(** The traits name the kind of memory that the name of the resource names, except for NO_OP (below). *)
Theorem C81_kind_partial : forall b sys x ty t, names_kind x ty -> ty <> NoOp -> (b_sycl b <> None -> s_sycl sys <> None) ->
  make_resource_traits b sys x = Ok tt t -> In (ty, t_resource t) said.
Proof. exact made_is_kind. Qed.
Print Assumptions C81_kind_partial.

Theorem C81_unified : forall b sys x ty t, names_kind x ty -> (b_sycl b <> None -> s_sycl sys <> None) ->
  make_resource_traits b sys x = Ok tt t -> t_unified t = true <-> ty = Unified.
Proof. exact made_unified. Qed.
Print Assumptions C81_unified.

(** ... how large it is, what it is made of and what it is best for.  (The size is that of device 0: [C81_size_refuted].) *)
Theorem C81_size_partial : forall b sys x ty t, names_kind x ty -> (b_sycl b <> None -> s_sycl sys <> None) ->
  make_resource_traits b sys x = Ok tt t -> size_said b sys ty (t_size t) /\ chips_said ty (t_kind t) (t_used t).
Proof. exact made_size. Qed.
Print Assumptions C81_size_partial.

(** A resource that cannot be made, with or without traits of the user's, or has no default traits, is a runtime_error (so are, in the model,
    the exceptions of std::stoi for a device number that does not fit). *)
Theorem C81_error : forall b sys x t e, (make_resource_traits b sys x = Throw t e \/ (exists u, make_resource_with_traits b sys x u = Throw t e) \/
  get_default_resource_traits b sys x = Throw t e) -> e = RuntimeError.
Proof. exact made_error. Qed.
Print Assumptions C81_error.

(** ... and the maker of the devices. *)
Theorem C81_vendor : forall b sys x ty v t, one_vendor b -> has_vendor b v -> of_device ty -> names_kind x ty -> (b_sycl b <> None -> s_sycl sys <> None) ->
  make_resource_traits b sys x = Ok tt t -> In (v, t_vendor t) makers.
Proof. exact made_vendor. Qed.
Print Assumptions C81_vendor.

(** The device in the name is the device in the traits; without a number it is the current device. *)
Theorem C81_device : forall b sys d t, 0 <= d <= INT_MAX -> make_resource_traits b sys ("DEVICE::" ++ dec d) = Ok tt t -> t_id t = Some d.
Proof. exact made_id_device. Qed.
Print Assumptions C81_device.

Theorem C81_current : forall b sys x t, x = "DEVICE"%string \/ x = "DEVICE_CONST"%string -> make_resource_traits b sys x = Ok tt t ->
  t_id t = Some (s_current sys).
Proof. exact made_id_current. Qed.
Print Assumptions C81_current.

(** A SYCL queue in the traits is that of the device in the traits: of its unit, in the order of the platform (C68). *)
Theorem C81_queue : forall b sys x t, make_resource_traits b sys x = Ok tt t ->
  forall u, t_queue t = Some u -> exists d, t_id t = Some d /\ 0 <= d /\ nth_error (units (s_units sys)) (Z.to_nat d) = Some u.
Proof. exact made_queue. Qed.
Print Assumptions C81_queue.

(** The granularity in the name is the one in the traits, and allocations are tracked. *)
Theorem C81_grain : forall b sys x g t, grain_named x g -> make_resource_traits b sys x = Ok tt t -> t_grain t = g /\ t_tracking t = true.
Proof. exact made_grain. Qed.
Print Assumptions C81_grain.

(** Traits given by the user are kept, but for the device and the granularity in the name. *)
Theorem C81_given : forall b sys x t t', make_resource_with_traits b sys x t = Ok tt t' ->
  alike t t' /\ (forall ty, names_kind x ty -> ty <> Device -> ty <> Constant -> t_id t' = t_id t) /\
  (forall g, grain_named x g -> t_grain t' = if match g with GUnknown => true | _ => false end then t_grain t else g).
Proof. exact given_kept. Qed.
Print Assumptions C81_given.

(** get_default_resource_traits tells beforehand what the resource will say, except the device, the queue and the granularity (below). *)
Theorem C81_default_partial : forall b sys x u t, get_default_resource_traits b sys x = Ok tt u -> make_resource_traits b sys x = Ok tt t -> alike u t.
Proof. exact default_same. Qed.
Print Assumptions C81_default_partial.

(** Shared memory is for the node, whatever the user asks for. *)
Theorem C81_scope : forall b sys x t, names_kind x Shared -> b_shared b = true ->
  (t_scope t = ScNode -> make_resource_with_traits b sys x t = Ok tt t) /\
  (t_scope t <> ScNode -> make_resource_with_traits b sys x t = Throw tt RuntimeError).
Proof. exact shared_scope. Qed.
Print Assumptions C81_scope.

(** Prefetching is for unified memory only, through any strategies; a communicator is for shared memory only. *)
Theorem C81_prefetch : forall b sys a x ty, rests_on_name b sys a x -> names_kind x ty -> (b_sycl b <> None -> s_sycl sys <> None) ->
  prefetch_refused a = false <-> ty = Unified.
Proof. exact prefetch_um. Qed.
Print Assumptions C81_prefetch.

Theorem C81_communicator : forall b sys a x ty, rests_on_name b sys a x -> names_kind x ty -> has_communicator a = true <-> ty = Shared.
Proof. exact communicator_shared. Qed.
Print Assumptions C81_communicator.

(** A copy with OpenMP is between the devices of the two allocators; HOST is the initial device. *)
Theorem C81_omp_partial : forall b sys h a d, s_omp sys = true -> 0 <= d <= INT_MAX ->
  rests_on_name b sys h "HOST" -> rests_on_name b sys a ("DEVICE::" ++ dec d) ->
  omp_copy h a = Ok tt (d, s_initial sys) /\ omp_copy a h = Ok tt (s_initial sys, d) /\ omp_memset a = Ok tt d.
Proof. exact omp_devices. Qed.
Print Assumptions C81_omp_partial.

Theorem C81_omp_two : forall b sys a a' d d', 0 <= d <= INT_MAX -> 0 <= d' <= INT_MAX ->
  rests_on_name b sys a ("DEVICE::" ++ dec d) -> rests_on_name b sys a' ("DEVICE::" ++ dec d') -> omp_copy a a' = Ok tt (d', d).
Proof. exact omp_two. Qed.
Print Assumptions C81_omp_two.

(** Examples: machines with two devices each. *)
Definition ex_mem (d : Z) : option Z := if d =? 0 then Some 16000000000 else Some 8000000000.
Definition ex_cuda : build := mkBuild true true true true (Some 2%nat) None None None.
Definition ex_cuda_sys : system := mkSys X86 ex_mem None [] false 0 0 true 0.
Definition ex_hip : build := mkBuild false true true true None (Some (2%nat, true)) None None.
Definition ex_hip_sys : system := mkSys OtherCpu ex_mem None [] false 0 0 false 0.
Definition ex_sycl : build := mkBuild false true false false None None (Some 2%nat) None.
Definition ex_sycl_sys : system := mkSys X86 ex_mem (Some 4000) [mkSd true (Some 2%nat)] false 0 0 false 0.
Definition ex_omp : build := mkBuild true true true false None None None (Some 2%nat).
Definition ex_omp_sys : system := mkSys PowerPc ex_mem None [] true 2 0 false 0.

Example C81_case : working ex_cuda ex_cuda_sys /\ one_vendor ex_cuda /\ has_vendor ex_cuda VCuda /\ In "DEVICE::1"%string (names ex_cuda) /\
  make_resource_traits ex_cuda ex_cuda_sys "DEVICE::1" = Ok tt (mkT (Some 1) None false false 16000000000 MNvidia KGddr OAny TDevice ScUnknown GUnknown true) /\
  make_resource_traits ex_hip ex_hip_sys "UM::FINE" = Ok tt (mkT None None true false 16000000000 MAmd KGddr OAny TUm ScUnknown GFine true) /\
  make_resource_traits ex_sycl ex_sycl_sys "DEVICE::1" = Ok tt (mkT (Some 1) (Some (0%nat, 1%nat)) false false 0 MIntel KGddr OAny TDevice ScUnknown GUnknown true).
Proof.
  split; [repeat split; try discriminate; vm_compute; congruence|]. split; [unfold one_vendor; cbn; auto 6|]. split; [discriminate|].
  split; [vm_compute; tauto|]. repeat split.
Qed.

Example C81_error_case : get_default_resource_traits ex_cuda ex_cuda_sys "PAPER" = Throw tt RuntimeError /\
  make_resource_traits ex_cuda (mkSys X86 (fun _ => None) None [] false 0 0 true 0) "UM" = Throw tt RuntimeError.
Proof. split; reflexivity. Qed.

Example C81_tower_case : exists a, rests_on_name ex_cuda ex_cuda_sys a "UM" /\ prefetch_refused a = false /\ names_kind "UM" Unified /\
  rests_on_name ex_omp ex_omp_sys (HOver WQuickPool (HResource (mkT (Some 2) None false false 0 MIbm KUnknown OAny THost ScUnknown GUnknown true))) "HOST".
Proof.
  eexists (HOver WThreadSafe (HOver WQuickPool (HResource _))). split; [|split; [|split]].
  - eexists. split; [vm_compute; reflexivity|]. repeat constructor.
  - reflexivity.
  - constructor. cbn. tauto.
  - eexists. split; [vm_compute; reflexivity|]. repeat constructor.
Qed.

Example C81_names_case : grain_named "DEVICE::1::FINE" GFine /\ grain_named "UM" GUnknown /\ names_kind "SHARED" Shared /\ b_shared ex_cuda = true.
Proof.
  split; [apply (gn_fine ("DEVICE::" ++ dec 1)); constructor; lia|]. split; [constructor; apply (bare_kind Unified); cbn; tauto|].
  split; [constructor; cbn; tauto|reflexivity].
Qed.

(** NO_OP does not say what it is. *)
Theorem C81_noop_refuted : exists b sys t, names_kind "NO_OP" NoOp /\ make_resource_traits b sys "NO_OP" = Ok tt t /\ t_resource t = TUnknown.
Proof. exists ex_cuda, ex_cuda_sys. eexists. split; [constructor; cbn; tauto|]. split; reflexivity. Qed.
Print Assumptions C81_noop_refuted.

(** The id of other resources has no value at all: HOST without OpenMP, unified and pinned memory of CUDA and HIP, FILE, SHARED. *)
Theorem C81_id_refuted : exists b sys, working b sys /\ forall x, In x ["HOST"; "UM"; "PINNED"; "FILE"; "SHARED"]%string ->
  In x (names b) /\ exists t, make_resource_traits b sys x = Ok tt t /\ t_id t = None.
Proof.
  exists ex_cuda, ex_cuda_sys. split; [repeat split; try discriminate; vm_compute; congruence|].
  intros x H. cbn in H. decompose [or] H; clear H; try contradiction; subst x; (split; [vm_compute; tauto|]); eexists; split; reflexivity.
Qed.
Print Assumptions C81_id_refuted.

(** Copying between SHARED and a device with OpenMP reads an id without a value: the operation is found, as SHARED is memory of the
    host. *)
Theorem C81_omp_refuted : exists b sys s a, working b sys /\ rests_on_name b sys s "SHARED" /\ rests_on_name b sys a "DEVICE::1" /\
  resource_platform RShared = PHost /\ resource_platform ROmpDevice = POmp /\ omp_copy s a = UB /\ omp_copy a s = UB.
Proof.
  exists ex_omp, ex_omp_sys. eexists (HResource _), (HResource _). split; [repeat split; try discriminate; vm_compute; congruence|].
  split; [eexists; split; [vm_compute; reflexivity|constructor]|]. split; [eexists; split; [vm_compute; reflexivity|constructor]|]. repeat split.
Qed.
Print Assumptions C81_omp_refuted.

(** The default traits of "DEVICE::1" are those of device 0, also after the resource is made: the size is not that of device 1. *)
Theorem C81_default_refuted : exists b sys u, working b sys /\ In "DEVICE::1"%string (names b) /\
  get_default_resource_traits b sys "DEVICE::1" = Ok tt u /\ t_id u = Some 0.
Proof.
  exists ex_cuda, ex_cuda_sys. eexists. split; [repeat split; try discriminate; vm_compute; congruence|]. split; [vm_compute; tauto|]. split; reflexivity.
Qed.
Print Assumptions C81_default_refuted.

Theorem C81_size_refuted : exists b sys t d, working b sys /\ make_resource_traits b sys ("DEVICE::" ++ dec d) = Ok tt t /\
  t_id t = Some d /\ s_mem sys d <> Some (t_size t).
Proof.
  exists ex_cuda, ex_cuda_sys. eexists. exists 1. split; [repeat split; try discriminate; vm_compute; congruence|].
  split; [vm_compute; reflexivity|]. split; [reflexivity|]. vm_compute. congruence.
Qed.
Print Assumptions C81_size_refuted.

(** Unified memory of SYCL can be prefetched to device 0 only. *)
Theorem C81_sycl_prefetch_refuted : exists b sys a, working b sys /\ rests_on_name b sys a "UM" /\ In "DEVICE::1"%string (names b) /\
  sycl_prefetch a 0 = Ok tt (0%nat, 0%nat) /\ sycl_prefetch a 1 = Throw tt RuntimeError.
Proof.
  exists ex_sycl, ex_sycl_sys. eexists (HResource _). split; [repeat split; try discriminate; vm_compute; congruence|].
  split; [eexists; split; [vm_compute; reflexivity|constructor]|]. split; [vm_compute; tauto|]. split; reflexivity.
Qed.
Print Assumptions C81_sycl_prefetch_refuted.
