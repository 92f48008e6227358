(** Property C53: the catalogue of memory resources and the device a resource name stands for. *)
From Coq Require Import String.
From Verif Require Import Base NamingModel RegistryModel RegistrySpec RegistryFacts RegistryThms RegistryRun CatalogModel CatalogSpec CatalogFacts CatalogIds.

(** Every listed name is served, by a factory of the kind of memory the name stands for. *)
Theorem C53_listed : forall b x, In x (names b) ->
  exists f, make_memory_resource b x = Some f /\ names_kind x (made_kind f).
Proof. exact listed_served. Qed.
Print Assumptions C53_listed.

(** A name of a kind of memory, listed or not, is never served by a factory of another kind; no name stands for two
    kinds. *)
Theorem C53_right_kind : forall b x ty f, names_kind x ty -> make_memory_resource b x = Some f -> made_kind f = ty.
Proof. exact make_right_kind. Qed.
Print Assumptions C53_right_kind.

Theorem C53_one_kind : forall x ty ty', names_kind x ty -> names_kind x ty' -> ty = ty'.
Proof. exact names_kind_fun. Qed.
Print Assumptions C53_one_kind.

(** Of every kind of memory that can be made the plain name is listed, so that getAllocator(type) can work. *)
Theorem C53_types : forall b f, In f (factories b) -> f <> FNull ->
  exists x, In (made_kind f, x) documented /\ In x (names b).
Proof. intros b f H N. destruct (types_listed b f H N) as (x & E & I). exists x. split; [now apply documented_is|exact I]. Qed.
Print Assumptions C53_types.

(** No name is listed twice. *)
Theorem C53_names_differ : forall b, one_vendor b -> NoDup (names b).
Proof. exact names_nodup. Qed.
Print Assumptions C53_names_differ.

(** "DEVICE::" and a number is that device, in both versions of the code. *)
Theorem C53_device_id : forall cuda cur d, 0 <= d <= INT_MAX -> device_id cuda cur ("DEVICE::" ++ dec d)%string = Some d.
Proof. exact device_id_device. Qed.
Print Assumptions C53_device_id.

(** The device id of a listed name never throws; it is a device that is there, and the one in the name, or
    the current device. *)
Theorem C53_listed_id : forall b cuda cur x,
  (cuda = true -> b_hip b = None) -> Z.of_nat (devices b) <= INT_MAX -> In x (names b) ->
  exists i, device_id cuda cur x = Some i /\ (i = cur \/ 0 <= i < Z.of_nat (devices b) /\ names_device i x).
Proof. exact device_id_listed. Qed.
Print Assumptions C53_listed_id.

(** Without a GPU: a program that creates resources under listed names only gets C27 and C28 without further restriction ... *)
Theorem C53_host_registry : forall b valid prep st, no_gpu b -> rhist (names b) valid prep (ordinary (names b)) st ->
  (forall h h' x x' i i', is_alloc st h x i -> is_alloc st h' x' i' -> (i = i' -> h = h') /\ (public h -> public h' -> x = x' -> h = h')) /\
  (forall h x i, public h -> is_alloc st h x i -> stands_for (names b) valid prep st x h /\ (i <> invalid_allocator_id -> id_stands_for st i h)) /\
  (forall fl c st' x k, ordinary (names b) st c -> left_by (rexec (names b) valid prep fl c st) st' -> stands_for (names b) valid prep st x k ->
     (forall h, c <> RRemoveAlias x h) -> stands_for (names b) valid prep st' x k).
Proof.
  intros b valid prep st Hb H. apply ordinary_hist in H; [|exact Hb]. split; [intros; now eapply t_unique; eauto|]. split; [intros; now apply t_agree|].
  intros fl c st' x k Hc. apply t_stable; [exact H|]. now apply ordinary_allowed.
Qed.
Print Assumptions C53_host_registry.

(** ... and getAllocator of a listed name gives an allocator of that name. *)
Theorem C53_get_listed : forall b prep st x, no_gpu b -> rhist (names b) (any_valid b) prep (ordinary (names b)) st ->
  In x (names b) -> prep x = None -> rg_next st <> INT_MAX ->
  exists st' h i, rexec (names b) (any_valid b) prep None (RGet x) st = Ok st' h /\ is_alloc st' h x i.
Proof. intros b prep st x Hb. exact (get_listed b Hb prep st x). Qed.
Print Assumptions C53_get_listed.

(** A CUDA build with two devices, an HIP build with granularities. *)
Definition cuda2 : build := mkBuild false true true true (Some 2%nat) None None None.
Definition hip2 : build := mkBuild false false false true None (Some (2%nat, true)) None None.
Definition plain : build := mkBuild false true true false None None None None.

Example C53_case_cuda : names cuda2 = ["HOST"; "SHARED"; "FILE"; "DEVICE"; "DEVICE::0"; "DEVICE::1"; "UM"; "PINNED"; "DEVICE_CONST"]%string /\
  make_memory_resource cuda2 "DEVICE_CONST" = Some (FConst VCuda) /\ make_memory_resource cuda2 "DEVICE::1" = Some (FDevice VCuda) /\
  device_id true 0 "DEVICE::1" = Some 1 /\ one_vendor cuda2 /\ names_kind "DEVICE::1" Device.
Proof.
  split; [reflexivity|]. split; [reflexivity|]. split; [reflexivity|]. split; [reflexivity|]. split; [unfold one_vendor; cbn; auto 6|].
  apply (nk_device 1); [lia|]. apply (nd_plain 1).
Qed.

Example C53_case_hip : In "DEVICE::1::COARSE"%string (names hip2) /\ make_memory_resource hip2 "UM::FINE" = Some (FUnified VHip) /\
  device_id false 0 "DEVICE::1" = Some 1 /\ device_id false 1 "DEVICE::FINE" = Some 1 /\ devices hip2 = 2%nat /\ one_vendor hip2.
Proof. split; [vm_compute; tauto|]. repeat split; cbn; auto. Qed.

Example C53_case_host : no_gpu plain /\ exists st,
  rhist (names plain) (any_valid plain) no_prep (ordinary (names plain)) st /\ is_alloc st 2 "SHARED" 2 /\ is_alloc st 3 "pool" 3.
Proof.
  split; [repeat split|]. eexists. split.
  - eapply (rp_step _ _ _ _ _ None (RMake "pool"%string));
      [eapply (rp_step _ _ _ _ _ None (RMakeResource "SHARED"%string)); [constructor|vm_compute; tauto|left; eexists; vm_compute; reflexivity]|exact I|left; eexists; vm_compute; reflexivity].
  - split; eexists; vm_compute; auto.
Qed.

(** Not so for the devices with a granularity: the regular expression wants the number at the end. *)
Theorem C53_fine_device_refuted : exists b x d cur i,
  one_vendor b /\ In x (names b) /\ names_device d x /\ 0 <= d < Z.of_nat (devices b) /\ device_id false cur x = Some i /\ i <> d.
Proof.
  exists hip2, "DEVICE::1::FINE"%string, 1, 0, 0. split; [unfold one_vendor; cbn; auto|]. split; [vm_compute; tauto|].
  split; [apply (nd_grain 1 "::FINE"); now left|]. split; [vm_compute; split; congruence|]. split; [reflexivity|discriminate].
Qed.
Print Assumptions C53_fine_device_refuted.

(** "DEVICE::0" can stand for another device: asking for "DEVICE" binds it to the current device. *)
Theorem C53_device_zero_refuted : exists b cur st h x i d,
  one_vendor b /\ rhist (names b) (any_valid b) no_prep (ordinary (names b)) st /\
  stands_for (names b) (any_valid b) no_prep st "DEVICE::0" h /\ is_alloc st h x i /\ device_id true cur x = Some d /\ d <> 0.
Proof.
  exists cuda2, 1. eexists. exists 2%nat, "DEVICE"%string, 2, 1. split; [unfold one_vendor; cbn; auto 6|]. split.
  - eapply (rp_step _ _ _ _ _ None (RGet "DEVICE"%string)); [constructor|exact I|left; eexists; vm_compute; reflexivity].
  - split; [intros fl; vm_compute; reflexivity|]. split; [eexists; vm_compute; auto|]. split; [reflexivity|discriminate].
Qed.
Print Assumptions C53_device_zero_refuted.

(** A name no kind of memory has is served all the same, so that a misspelt name gives memory of some kind. *)
Theorem C53_only_names_refuted : exists b x f, make_memory_resource b x = Some f /\ ~ exists ty, names_kind x ty.
Proof.
  exists cuda2, "NUMBER"%string, (FUnified VCuda). split; [reflexivity|]. intros (ty & H).
  pose proof (make_right_kind cuda2 _ ty (FUnified VCuda) H eq_refl) as E. cbn in E. subst ty.
  inversion H as [? ? H1 H2|? ? g H1 _ Hg H2|? ? _ Hd H2]; subst.
  - apply documented_is in H1. discriminate.
  - apply documented_is in H1. injection H1 as <-. discriminate.
Qed.
Print Assumptions C53_only_names_refuted.
