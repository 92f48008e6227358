(** Property C54: memory of GPUs and the current device. *)
From Coq Require Import String.
From Verif Require Import Base BaseFacts CatalogModel GpuModel GpuSpec GpuFacts.

(** An allocation is on the device of the resource, is apart from all others, and leaves the current device as it was; a failed one
    takes nothing (but see below). *)
Theorem C54_allocate : forall v count id n g, 0 <= id < count -> 0 <= g_cur g < count ->
  match gpu_allocate v count id n g with
  | Ok g' p => g_cur g' = g_cur g /\ g_live g' = ((p, n), id) :: g_live g /\ 0 < n /\ 0 < p /\ p + n <= ASP /\
               (forall x, In x (g_live g) -> disj (p, n) (fst x))
  | Throw g' e => g_live g' = g_live g /\ g_cur g' = id
  | _ => False
  end.
Proof. exact allocate_spec. Qed.
Print Assumptions C54_allocate.

(** The library is asked for the bytes requested, on the device of the resource: fresh memory is handed out, errors are passed on. *)
Theorem C54_answers : forall v count id n g, 0 <= id < count ->
  (forall e, v_malloc v (g_time g) id n = inr e -> exists g', gpu_allocate v count id n g = Throw g' e) /\
  (forall p, v_malloc v (g_time g) id n = inl p -> 0 < n -> 0 < p -> p + n <= ASP -> (forall x, In x (g_live g) -> disj (p, n) (fst x)) ->
     exists g', gpu_allocate v count id n g = Ok g' p).
Proof. exact allocate_answers. Qed.
Print Assumptions C54_answers.

(** Device 1 has no memory left, device 0 has; the thread is at the other one. *)
Example C54_answers_case : let v := mkVendor (fun _ d n => if d =? 0 then inl 4096 else inr OutOfMemory) (fun _ => true) in
  (exists g, gpu_allocate v 2 1 64 (mkGpu 0 0 []) = Throw g OutOfMemory) /\ (exists g, gpu_allocate v 2 0 64 (mkGpu 0 1 []) = Ok g 4096).
Proof. split; eexists; vm_compute; reflexivity. Qed.

Theorem C54_deallocate : forall v count id p g, 0 <= id < count -> 0 <= g_cur g < count ->
  match gpu_deallocate v count id p g with
  | Ok g' _ => g_cur g' = g_cur g /\ g_live g' = filter (fun x => negb (fst (fst x) =? p)) (g_live g) /\ exists n d, In ((p, n), d) (g_live g)
  | Throw g' e => g_live g' = g_live g /\ g_cur g' = id /\ ((forall n d, ~ In ((p, n), d) (g_live g)) \/ v_free v (g_time g) = false)
  | _ => False
  end.
Proof. exact deallocate_spec. Qed.
Print Assumptions C54_deallocate.

(** After any history, failures included: what the program holds is what the library has given out, each on the device of the
    resource it came from, and no two overlap. *)
Theorem C54_placement : forall v count strict g G c, ghist v count strict g G c ->
  Permutation (g_live g) G /\ good (map fst G).
Proof. intros v count strict g G c H. destruct (hist_inv v count strict g G c H) as [(_ & H1 & H2 & _) _]. auto. Qed.
Print Assumptions C54_placement.

(** As long as nothing failed the current device is the one the program chose.  Missing: failures, see the refutation. *)
Theorem C54_current_partial : forall v count g G c, ghist v count true g G c -> g_cur g = c.
Proof. intros v count g G c H. destruct (hist_inv v count true g G c H) as [_ [_ H1]]. auto. Qed.
Print Assumptions C54_current_partial.

(** The resource of a device meets the contract of a parent, so that all theorems about strategies hold over it. *)
Theorem C54_parent : forall v count id, 0 <= id < count -> (forall t, v_free v t = true) ->
  ParentSpec (gpu_parent v count id) (M64 - 1) (held_from count id).
Proof. exact gpu_contract. Qed.
Print Assumptions C54_parent.

(** Two devices; memory of device [d] starts at 2^40 * (d + 1), requests above 1000 bytes are refused. *)
Definition two : Vendor :=
  mkVendor (fun t d n => if n <=? 1000 then inl (2 ^ 40 * (d + 1) + 4096 * Z.of_nat t) else inr OutOfMemory) (fun _ => true).

Example C54_case : exists g, ghist two 2 true g [((2 ^ 40 + 4096, 50), 0); ((2 ^ 41, 100), 1)] 1.
Proof.
  assert (H : ghist two 2 true (mkGpu 0 0 []) [] 0) by (constructor; lia).
  eapply (gh_alloc two 2 true _ _ _ 1 100) in H; [|lia|vm_compute; reflexivity].
  eapply (gh_alloc two 2 true _ _ _ 0 50) in H; [|lia|vm_compute; reflexivity].
  eapply (gh_alloc two 2 true _ _ _ 1 7) in H; [|lia|vm_compute; reflexivity].
  eapply (gh_free two 2 true _ [] _ _ _ 7 1) in H; [|vm_compute; reflexivity].
  eapply (gh_choose two 2 true _ _ _ 1) in H; [|lia]. eexists. exact H.
Qed.

(** A history with a refused request. *)
Lemma refused : exists g, ghist two 2 false g [((2 ^ 40, 50), 0)] 0 /\ g_cur g = 1.
Proof.
  assert (H : ghist two 2 false (mkGpu 0 0 []) [] 0) by (constructor; lia).
  eapply (gh_alloc two 2 false _ _ _ 0 50) in H; [|lia|vm_compute; reflexivity].
  eapply (gh_alloc_fail two 2 false _ _ _ 1 2000) in H; [|reflexivity|lia|vm_compute; reflexivity].
  eexists. split; [exact H|reflexivity].
Qed.

(** The full statement, with failures, is false: a request that throws leaves the current device changed. *)
Theorem C54_current_refuted : exists v count g G c, ghist v count false g G c /\ g_cur g <> c.
Proof. destruct refused as (g & H & E). exists two, 2, g, [((2 ^ 40, 50), 0)], 0. rewrite E. split; [exact H|lia]. Qed.
Print Assumptions C54_current_refuted.

(** It matters: a resource "DEVICE" made afterwards is for another device than the one the program chose. *)
Theorem C54_later_resource_refuted : exists v count g G c,
  ghist v count false g G c /\ device_id true (g_cur g) "DEVICE" = Some 1 /\ c = 0.
Proof. destruct refused as (g & H & E). exists two, 2, g, [((2 ^ 40, 50), 0)], 0. rewrite E. repeat split. exact H. Qed.
Print Assumptions C54_later_resource_refuted.

(** A resource for a device that is not there (DEVICE::7 of 2) hands out memory of the current device, and reports nothing. *)
Theorem C54_absent_device_refuted : exists v count id n g g' p,
  ~ 0 <= id < count /\ gpu_allocate v count id n g = Ok g' p /\ In ((p, n), g_cur g) (g_live g') /\ ~ In ((p, n), id) (g_live g').
Proof.
  exists two, 2, 7, 10, (mkGpu 0 1 []), (mkGpu 1 1 [((2 ^ 41, 10), 1)]), (2 ^ 41).
  repeat split; [lia|vm_compute; auto|]. intros [H|[]]. inversion H.
Qed.
Print Assumptions C54_absent_device_refuted.
