(** Properties C27, C28, C45: names, ids and aliases of allocators, names of memory resources. *)
From Coq Require Import String.
From Verif Require Import Base RegistryModel RegistrySpec RegistryFacts RegistryThms RegistryRun.

(** ** C45 *)
Theorem C45_round_trip : forall ty x, resource_to_string ty = Some x <-> string_to_resource x = Some ty.
Proof. intros ty x. split; [exact (resource_to_string_back ty x)|exact (string_to_resource_back x ty)]. Qed.
Print Assumptions C45_round_trip.

(** The names are the documented ones. *)
Theorem C45_documented : forall ty x, resource_to_string ty = Some x <-> In (ty, x) documented.
Proof. exact documented_is. Qed.
Print Assumptions C45_documented.

Theorem C45_known_names : forall x,
  string_to_resource x <> None <->
  In x ["HOST"; "DEVICE"; "UM"; "PINNED"; "DEVICE_CONST"; "FILE"; "NO_OP"; "SHARED"]%string.
Proof. exact t_known_names. Qed.
Print Assumptions C45_known_names.

Theorem C45_types_named : forall ty, ty <> Unknown <-> resource_to_string ty <> None.
Proof. exact t_types_named. Qed.
Print Assumptions C45_types_named.

Theorem C45_names_differ : forall a b x, resource_to_string a = Some x -> resource_to_string b = Some x -> a = b.
Proof. exact t_names_differ. Qed.
Print Assumptions C45_names_differ.

Example C45_case : string_to_resource "PINNED" = Some Pinned /\ string_to_resource "pinned" = None /\ string_to_resource "DEVICE::0" = None.
Proof. vm_compute. auto. Qed.

(** ** C27 *)
(** No two allocators have the same id, and no two public ones the same name. *)
Theorem C27_unique : forall R valid prep st h h' x x' i i',
  rhist R valid prep (allowed R valid prep) st -> is_alloc st h x i -> is_alloc st h' x' i' ->
  (i = i' -> h = h') /\ (public h -> public h' -> x = x' -> h = h').
Proof. exact t_unique. Qed.
Print Assumptions C27_unique.

(** getAllocator(name) and getAllocator(id) give the allocator with that name and id. *)
Theorem C27_lookups_agree : forall R valid prep st h x i,
  rhist R valid prep (allowed R valid prep) st -> public h -> is_alloc st h x i ->
  stands_for R valid prep st x h /\ (i <> invalid_allocator_id -> id_stands_for st i h).
Proof. exact t_agree. Qed.
Print Assumptions C27_lookups_agree.

(** Names and ids never change, and later allocators have larger ids. *)
Theorem C27_ids_never_reused : forall R valid prep st st' h x i,
  rhist R valid prep (allowed R valid prep) st -> rpath R valid prep (allowed R valid prep) st st' -> is_alloc st h x i ->
  is_alloc st' h x i /\
  (forall h' x' i', is_alloc st' h' x' i' -> (forall y j, ~ is_alloc st h' y j) -> i < i').
Proof. exact t_never_reused. Qed.
Print Assumptions C27_ids_never_reused.

(** makeAllocator: what a success and a failure mean. *)
Theorem C27_make_allocator : forall R valid prep st fl x,
  rhist R valid prep (allowed R valid prep) st ->
  match rexec R valid prep fl (RMake x) st with
  | Ok st' h =>
      fl = None /\ unused R valid prep st x /\ ~ In x R /\ public h /\ stands_for R valid prep st' x h /\
      (forall y j, ~ is_alloc st h y j) /\
      (exists i, is_alloc st' h x i /\ (forall h0 y j, is_alloc st h0 y j -> j < i)) /\
      (forall h0 y j, h0 <> h -> is_alloc st h0 y j <-> is_alloc st' h0 y j) /\
      (forall y k, y <> x -> stands_for R valid prep st y k <-> stands_for R valid prep st' y k)
  | Throw st' e =>
      (st' = st /\ ((exists h, stands_for R valid prep st x h) \/ In x R \/ rg_next st + 1 = invalid_allocator_id) \/ fl = Some e) /\
      (forall h0 y j, is_alloc st h0 y j <-> is_alloc st' h0 y j) /\
      (forall y k, stands_for R valid prep st y k <-> stands_for R valid prep st' y k)
  | UB => rg_next st = INT_MAX
  | _ => False
  end.
Proof. exact t_make. Qed.
Print Assumptions C27_make_allocator.

(** Creating under a name in use throws and changes nothing. *)
Theorem C27_duplicate_name : forall R valid prep st fl x,
  rhist R valid prep (allowed R valid prep) st ->
  ((exists h, stands_for R valid prep st x h) \/ In x R -> rexec R valid prep fl (RMake x) st = Throw st RuntimeError) /\
  ((exists h, stands_for R valid prep st x h) ->
     rexec R valid prep fl (RMakeResource x) st = Throw st RuntimeError /\ rexec R valid prep fl (RMakeResourceWith x) st = Throw st RuntimeError).
Proof. exact t_duplicate. Qed.
Print Assumptions C27_duplicate_name.

(** With two GPUs: pools, aliases, lazily created resources, a constructor that throws. *)
Example C27_case : exists st,
  rhist gpu_names gpu_valid no_prep (allowed gpu_names gpu_valid no_prep) st /\
  is_alloc st 2 "pool" 2 /\ is_alloc st 3 "HOST" 4 /\ is_alloc st 4 "DEVICE" 5 /\ is_alloc st 5 "DEVICE::1" 6 /\
  by_name "p" st = Some 2%nat /\ by_name "DEVICE::0" st = Some 4%nat.
Proof.
  eexists. split.
  - eapply (rrun_allowed _ _ _ [(None, RMake "pool"); (Some OutOfMemory, RMake "bad"); (None, RGet "HOST"); (None, RAddAlias "p" 2); (None, RMake "p"); (None, RGetType Device);
                        (None, RAddAlias "DEVICE::1" 2); (None, RAddAlias "q" 3); (None, RRemoveAlias "q" 3)])%string.
    vm_compute. reflexivity.
  - repeat split; try (eexists; vm_compute; auto; fail).
Qed.

(** Without the restriction on the creation of resources names are not unique: makeResource("HOST::0")
    also binds "HOS", whatever it stood for. *)
Theorem C27_unique_refuted : exists R valid prep st h h' x i i',
  rhist R valid prep owned st /\ is_alloc st h x i /\ is_alloc st h' x i' /\ public h /\ public h' /\ h <> h'.
Proof.
  exists cpu_names, host_valid, no_prep. eexists. exists 2%nat, 4%nat, "HOS"%string. eexists. eexists. split.
  - eapply (rrun_hist _ _ _ (calls [RMake "HOS"; RMakeResource "HOST::0"; RRemoveAlias "HOS" 3; RMake "HOS"]))%string. vm_compute. reflexivity.
  - split; [eexists; vm_compute; auto|]. split; [eexists; vm_compute; auto|]. unfold public. repeat split; auto.
Qed.
Print Assumptions C27_unique_refuted.

(** ** C28 *)
Theorem C28_add_alias : forall R valid prep st fl x h y i,
  rhist R valid prep (allowed R valid prep) st -> is_alloc st h y i ->
  (unused R valid prep st x -> ~ In x R ->
     exists st', rexec R valid prep fl (RAddAlias x h) st = Ok st' h /\ stands_for R valid prep st' x h /\
       (forall z k, z <> x -> stands_for R valid prep st z k <-> stands_for R valid prep st' z k) /\
       (forall h0 z j, is_alloc st h0 z j <-> is_alloc st' h0 z j) /\ (forall j k, id_stands_for st j k -> id_stands_for st' j k)) /\
  (forall k, stands_for R valid prep st x k -> rexec R valid prep fl (RAddAlias x h) st = Throw st RuntimeError).
Proof. exact t_add_alias. Qed.
Print Assumptions C28_add_alias.

Theorem C28_remove_alias : forall R valid prep st fl x h y i,
  rhist R valid prep (allowed R valid prep) st -> is_alloc st h y i ->
  (stands_for R valid prep st x h -> x <> y ->
     exists st', rexec R valid prep fl (RRemoveAlias x h) st = Ok st' h /\ unused R valid prep st' x /\
       (forall z k, z <> x -> stands_for R valid prep st z k <-> stands_for R valid prep st' z k) /\
       (forall h0 z j, is_alloc st h0 z j <-> is_alloc st' h0 z j)) /\
  (stands_for R valid prep st x h -> x = y -> rexec R valid prep fl (RRemoveAlias x h) st = Throw st RuntimeError) /\
  (forall k, stands_for R valid prep st x k -> k <> h -> rexec R valid prep fl (RRemoveAlias x h) st = Throw st RuntimeError) /\
  (unused R valid prep st x -> ~ In x R -> rexec R valid prep fl (RRemoveAlias x h) st = Throw st RuntimeError).
Proof. exact t_remove_alias. Qed.
Print Assumptions C28_remove_alias.

(** No call but removeAlias of that name changes what a name stands for. *)
Theorem C28_never_rebound : forall R valid prep st fl c st' x k,
  rhist R valid prep (allowed R valid prep) st -> allowed R valid prep st c -> left_by (rexec R valid prep fl c st) st' ->
  stands_for R valid prep st x k -> (forall h, c <> RRemoveAlias x h) -> stands_for R valid prep st' x k.
Proof. exact t_stable. Qed.
Print Assumptions C28_never_rebound.

(** Every call returns or throws, but removeAlias of the name of a resource that has not been created. *)
Theorem C28_defined : forall R valid prep st fl c,
  rhist R valid prep (allowed R valid prep) st -> allowed R valid prep st c -> rg_next st <> INT_MAX ->
  (forall x h, c = RRemoveAlias x h -> unused R valid prep st x -> ~ In x R) ->
  exists st', left_by (rexec R valid prep fl c st) st'.
Proof. exact t_defined. Qed.
Print Assumptions C28_defined.

(** Two aliases of one pool, one removed again. *)
Example C28_case : exists st,
  rhist cpu_names host_valid no_prep (allowed cpu_names host_valid no_prep) st /\
  stands_for cpu_names host_valid no_prep st "b" 2 /\ unused cpu_names host_valid no_prep st "a" /\
  is_alloc st 2 "pool" 2.
Proof.
  eexists. assert (Hr : rrun cpu_names host_valid no_prep (allowedb cpu_names) (calls [RMake "pool"; RAddAlias "a" 2; RAddAlias "b" 2; RGetDefault; RRemoveAlias "a" 3; RRemoveAlias "a" 2; RRemoveAlias "pool" 2])%string reg_start = Some _) by (vm_compute; reflexivity).
  apply rrun_allowed in Hr. split; [exact Hr|]. pose proof (rhist_inv _ _ _ _ Hr) as I.
  split; [apply by_name_handle; [exact I|reflexivity]|]. split; [apply unused_none; [exact I|reflexivity]|]. eexists. vm_compute. auto.
Qed.

(** removeAlias of a resource name before the resource is created dereferences end(). *)
Theorem C28_remove_resource_name_refuted : exists R valid prep st fl x h,
  rhist R valid prep (allowed R valid prep) st /\ allowed R valid prep st (RRemoveAlias x h) /\
  rexec R valid prep fl (RRemoveAlias x h) st = UB.
Proof.
  exists cpu_names, host_valid, no_prep. eexists. exists None, "HOST"%string, 2%nat. split.
  - eapply (rrun_allowed _ _ _ (calls [RMake "pool"]))%string. vm_compute. reflexivity.
  - split; [|vm_compute; reflexivity]. exists "pool"%string, 2. eexists. vm_compute. auto.
Qed.
Print Assumptions C28_remove_resource_name_refuted.

(** Asking for "DEVICE" after "DEVICE::0" rebinds "DEVICE::0". *)
Theorem C28_device_rebound_refuted : exists R valid prep st st' k k',
  rhist R valid prep owned st /\ stands_for R valid prep st "DEVICE::0" k /\
  left_by (rexec R valid prep None (RGet "DEVICE") st) st' /\ stands_for R valid prep st' "DEVICE::0" k' /\ k <> k'.
Proof.
  exists gpu_names, gpu_valid, no_prep. eexists. eexists. exists 2%nat, 3%nat. split.
  - eapply (rrun_hist _ _ _ (calls [RGet "DEVICE::0"]))%string. vm_compute. reflexivity.
  - split; [intros fl; vm_compute; reflexivity|]. split; [left; eexists; vm_compute; reflexivity|].
    split; [intros fl; vm_compute; reflexivity|]. discriminate.
Qed.
Print Assumptions C28_device_rebound_refuted.

(** makeResource of a name that a factory accepts but string_to_resource does not know throws, yet leaves
    the name bound to the destroyed object; the next use of the name is undefined. *)
Theorem C28_dangling_entry_refuted : exists R valid prep st st' e x,
  rhist R valid prep owned st /\ rexec R valid prep None (RMakeResource x) st = Throw st' e /\
  rexec R valid prep None (RGet x) st' = UB.
Proof.
  exists cpu_names, host_valid, no_prep, reg_start. eexists. exists RuntimeError, "MYHOST"%string.
  split; [constructor|]. split; vm_compute; reflexivity.
Qed.
Print Assumptions C28_dangling_entry_refuted.
