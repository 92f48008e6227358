(** Properties C68 (the functions that get memory from the system and the vendors) and C69 (platforms and accessibility). *)
From Verif Require Import Base BaseFacts QuickPoolModel QuickPoolMain VendModel VendSpec VendFacts.

(** ** C68 *)

(** An allocation that succeeds gives fresh memory of the size, maker, residence, queue and granularity asked for, or, for no
    bytes only, the null pointer; one that fails takes nothing.  Missing: managed memory that is to be coarse grained where the
    calls for that fail or are not in the build, leaves without a queue, see the refutations. *)
Theorem C68_allocate_partial : forall o coherence k n w, usable k -> reliable o coherence k -> 0 <= n -> tidy (v_live w) ->
  match leaf_allocate o coherence k n w with
  | Ok w' p =>
      (p = 0 /\ n = 0 /\ v_live w' = v_live w) \/
      exists b, v_live w' = b :: v_live w /\ b_region b = (p, n) /\ of_leaf k b /\ (can_grain coherence k -> grained k b) /\
                tidy (v_live w')
  | Throw w' e => v_live w' = v_live w
  | _ => False
  end.
Proof. exact allocate_spec. Qed.
Print Assumptions C68_allocate_partial.

(** Lack of memory is told apart from other failures.  Missing: SYCL and OpenMP, see the refutation. *)
Theorem C68_shortage_partial : forall o coherence k n w, supported coherence k ->
  wants_maker k = System \/ wants_maker k = Cuda \/ wants_maker k = Hip ->
  (forall c place, o_alloc o (v_time w) c place n = VNoMemory) ->
  exists w', leaf_allocate o coherence k n w = Throw w' OutOfMemory /\ v_live w' = v_live w.
Proof. exact shortage. Qed.
Print Assumptions C68_shortage_partial.

Theorem C68_other_failure : forall o coherence k n w, usable k -> (forall c place, o_alloc o (v_time w) c place n = VOther) ->
  exists w', leaf_allocate o coherence k n w = Throw w' RuntimeError /\ v_live w' = v_live w.
Proof. exact other_failure. Qed.
Print Assumptions C68_other_failure.

(** Memory goes back to the leaf it came from: exactly that block, unless the vendor fails; the null pointer is ignored. *)
Theorem C68_deallocate : forall o k w b, tidy (v_live w) -> In b (v_live w) -> of_leaf k b ->
  match leaf_deallocate o k (b_at b) w with
  | Ok w' _ => Permutation (v_live w) (b :: v_live w')
  | Throw w' e => v_live w' = v_live w /\ e = RuntimeError /\ o_free o (v_time w) = false
  | _ => False
  end.
Proof. exact deallocate_spec. Qed.
Print Assumptions C68_deallocate.

Theorem C68_null : forall o k w, usable k -> exists w', leaf_deallocate o k 0 w = Ok w' tt /\ v_live w' = v_live w.
Proof. exact deallocate_null. Qed.
Print Assumptions C68_null.

(** The leaves of CUDA and HIP refuse memory of others and leave it alone. *)
Theorem C68_foreign_partial : forall o k p w, wants_maker k = Cuda \/ wants_maker k = Hip -> p <> 0 ->
  (forall b, In b (v_live w) -> b_at b = p -> maker_of (b_call b) <> wants_maker k) ->
  exists w', leaf_deallocate o k p w = Throw w' RuntimeError /\ v_live w' = v_live w.
Proof. exact foreign. Qed.
Print Assumptions C68_foreign_partial.

(** After any history over any number of leaves: what the program holds is what was handed out, each block of the leaf it came
    from, no two overlap, and each can be given back. *)
Theorem C68_history : forall o coherence w H, vhist o coherence w H ->
  good (map snd H) /\
  exists l, Permutation (v_live w) l /\ Forall2 (fun b h => of_leaf (fst h) b /\ b_region b = snd h) l H.
Proof. intros o coherence w H X. split; [exact (hist_apart o coherence w H X)|exact (hist_held o coherence w H X)]. Qed.
Print Assumptions C68_history.

Theorem C68_history_free : forall o coherence w H1 H2 k p n, vhist o coherence w (H1 ++ (k, (p, n)) :: H2) ->
  match leaf_deallocate o k p w with
  | Ok w' _ => True
  | Throw w' e => e = RuntimeError /\ o_free o (v_time w) = false
  | _ => False
  end.
Proof. exact hist_free. Qed.
Print Assumptions C68_history_free.

(** Every leaf meets the contract of a parent, so that all theorems about strategies hold over it; for one, a [QuickPool]. *)
Theorem C68_parent : forall o coherence k, usable k -> reliable o coherence k -> (forall t, o_free o t = true) ->
  ParentSpec (leaf_parent o coherence k) (M64 - 1) (leaf_inv k).
Proof. exact leaf_contract. Qed.
Print Assumptions C68_parent.

Theorem C68_pool : forall o coherence k cfg fuel, usable k -> reliable o coherence k -> (forall t, o_free o t = true) ->
  qcfg_ok cfg (M64 - 1) ->
  exists Inv, ParentSpec (q_parent (leaf_parent o coherence k) cfg fuel) (M64 - 1 - 2 * cf_align cfg) Inv.
Proof.
  intros o coherence k cfg fuel Hu Hr Hf Hc. eexists. exact (q_parent_spec _ _ _ (leaf_contract o coherence k Hu Hr Hf) cfg Hc fuel).
Qed.
Print Assumptions C68_pool.

(** The queue of DEVICE::n is that of the n-th unit of the platform, a unit being a GPU or, of one that is divided, a part;
    different numbers have different units; and with one platform every number that is offered has one. *)
Theorem C68_queue : forall l id, sycl_queue l id = if id <? 0 then None else nth_error (units l) (Z.to_nat id).
Proof. exact queue_is. Qed.
Print Assumptions C68_queue.

Theorem C68_queue_apart : forall l a b u, sycl_queue l a = Some u -> sycl_queue l b = Some u -> a = b.
Proof. exact queue_apart. Qed.
Print Assumptions C68_queue_apart.

Theorem C68_offered : forall ps, sycl_count ps = list_sum (map (fun l => length (units l)) ps).
Proof. exact count_is. Qed.
Print Assumptions C68_offered.

Theorem C68_queue_offered_partial : forall l id, 0 <= id < Z.of_nat (sycl_count [l]) -> exists u, sycl_queue l id = Some u.
Proof. exact queue_offered. Qed.
Print Assumptions C68_queue_offered_partial.

(** With one platform, getNumDevices is at least the number of units; it is that number if and only if every GPU that is divided has as many
    parts as it may have.  Missing: the other cases, see below. *)
Theorem C68_num_devices_partial : forall l, Forall bounded l ->
  (sycl_count [map fst l] <= sycl_num_devices l)%nat /\
  (sycl_num_devices l = sycl_count [map fst l] <-> Forall (fun x => sd_gpu (fst x) = true -> exhausted x) l).
Proof. exact num_devices. Qed.
Print Assumptions C68_num_devices_partial.

Example C68_num_devices_case : let l := [(mkSd true (Some 2%nat), 2%nat); (mkSd false (Some 1%nat), 8%nat); (mkSd true None, 0%nat)] in
  Forall bounded l /\ Forall (fun x => sd_gpu (fst x) = true -> exhausted x) l /\ sycl_num_devices l = 3%nat.
Proof.
  cbv zeta. split; [repeat constructor; cbn; lia|]. split; [|reflexivity]. constructor; [right; reflexivity|]. constructor; [discriminate|]. constructor; [left; reflexivity|constructor].
Qed.

(** Vendors that place the t-th block at 2^20 * (t + 1) and have no more than 1000 bytes. *)
Definition plain : vendors :=
  mkVendors (fun t _ _ n => if n =? 0 then VNull else if n <=? 1000 then VAddr (2 ^ 20 * (Z.of_nat t + 1)) else VNoMemory)
            (fun _ => true) (fun _ => Some 0) (fun _ => true).
Definition start : vstate := mkV 0 [] false.

Example C68_case : exists w, vhist plain true w [(LHipManaged GCoarse, (2 ^ 20 * 4, 300)); (LSycl (Some 7), (2 ^ 20 * 3, 200)); (LMalloc, (2 ^ 20, 10))].
Proof.
  assert (R : forall k, reliable plain true k) by (intros k _ _ t; split; [discriminate|reflexivity]).
  assert (H : vhist plain true start []) by constructor.
  eapply (vh_alloc plain true _ _ LMalloc 10) in H; [|discriminate|apply R|lia|vm_compute; reflexivity].
  eapply (vh_refused plain true _ _ LCuda 5000) in H; [|discriminate|apply R|lia|vm_compute; reflexivity].
  eapply (vh_alloc plain true _ _ (LSycl (Some 7)) 200) in H; [|discriminate|apply R|lia|vm_compute; reflexivity].
  eapply (vh_alloc plain true _ _ (LHipManaged GCoarse) 300) in H; [|discriminate|apply R|lia|vm_compute; reflexivity].
  eapply (vh_alloc plain true _ _ LCudaPinned 8) in H; [|discriminate|apply R|lia|vm_compute; reflexivity].
  eapply (vh_free plain true _ [] _ _ _ 8) in H; [|vm_compute; reflexivity]. eexists. exact H.
Qed.
Example C68_queue_case :
  sycl_queue [mkSd true (Some 2%nat); mkSd false None; mkSd true None] 2 = Some (2%nat, 0%nat) /\
  sycl_queue [mkSd true (Some 2%nat); mkSd false None; mkSd true None] 1 = Some (0%nat, 1%nat) /\
  sycl_count [[mkSd true (Some 2%nat); mkSd false None; mkSd true None]] = 3%nat.
Proof. vm_compute. auto. Qed.

(** Managed memory is lost if it cannot be made coarse grained: the allocation fails and the memory stays. *)
Theorem C68_leak_refuted : exists o n w, tidy (v_live w) /\ 0 < n /\
  match leaf_allocate o true (LHipManaged GCoarse) n w with
  | Throw w' e => e = RuntimeError /\ length (v_live w') = S (length (v_live w))
  | _ => False
  end.
Proof.
  exists (mkVendors (o_alloc plain) (o_free plain) (o_device plain) (fun _ => false)), 10, start. split; [split; [intros b []|exact I]|]. split; [lia|].
  vm_compute. auto.
Qed.
Print Assumptions C68_leak_refuted.

(** Whether there is a current device is not asked. *)
Theorem C68_device_refuted : exists o n w, tidy (v_live w) /\ 0 < n /\ leaf_allocate o true (LHipManaged GCoarse) n w = UB.
Proof.
  exists (mkVendors (o_alloc plain) (o_free plain) (fun _ => None) (fun _ => true)), 10, start. split; [split; [intros b []|exact I]|]. split; [lia|].
  vm_compute. reflexivity.
Qed.
Print Assumptions C68_device_refuted.

(** The build without coherence hands out managed memory that is not coarse grained to one who asked for that, without a word
    (the other HIP leaves throw). *)
Theorem C68_grain_refuted : exists o n w w' p b, tidy (v_live w) /\ 0 < n /\ (forall t, o_device o t <> None /\ o_advise o t = true) /\
  leaf_allocate o false (LHipManaged GCoarse) n w = Ok w' p /\ In b (v_live w') /\ b_region b = (p, n) /\ grain_of b = GFine /\
  leaf_allocate o false (LHipPinned GCoarse) n w = Throw w RuntimeError.
Proof.
  exists plain, 10, start, (mkV 1 [mkBlock (2 ^ 20) 10 C_hipMallocManaged 0 false] false), (2 ^ 20), (mkBlock (2 ^ 20) 10 C_hipMallocManaged 0 false).
  split; [split; [intros b []|exact I]|]. split; [lia|]. split; [intros t; split; [discriminate|reflexivity]|]. vm_compute. auto 8.
Qed.
Print Assumptions C68_grain_refuted.

(** SYCL and OpenMP: lack of memory is reported as any other failure. *)
Theorem C68_shortage_refuted : exists o n w, (forall c place, o_alloc o (v_time w) c place n = VNoMemory) /\
  (exists w', leaf_allocate o true (LSycl (Some 0)) n w = Throw w' RuntimeError) /\
  (exists w', leaf_allocate o true (LOmp 0) n w = Throw w' RuntimeError).
Proof. exists plain, 5000, start. split; [reflexivity|]. split; eexists; vm_compute; reflexivity. Qed.
Print Assumptions C68_shortage_refuted.

(** The same request for no bytes: null and success from CUDA, an exception from malloc whose kind depends on an earlier failure. *)
Theorem C68_empty_refuted : exists o w1 w2, v_time w1 = v_time w2 /\ v_live w1 = v_live w2 /\
  (exists w', leaf_allocate o true LCuda 0 w1 = Ok w' 0) /\
  (exists w', leaf_allocate o true LMalloc 0 w1 = Throw w' RuntimeError) /\
  (exists w', leaf_allocate o true LMalloc 0 w2 = Throw w' OutOfMemory).
Proof. exists plain, start, (mkV 0 [] true). split; [reflexivity|]. split; [reflexivity|]. repeat split; eexists; vm_compute; reflexivity. Qed.
Print Assumptions C68_empty_refuted.

(** The leaves of the system free what they are given: memory of CUDA is not refused. *)
Theorem C68_foreign_refuted : exists o w b, tidy (v_live w) /\ In b (v_live w) /\ maker_of (b_call b) = Cuda /\ leaf_deallocate o LMalloc (b_at b) w = UB.
Proof.
  exists plain, (mkV 1 [mkBlock 4096 10 C_cudaMalloc 0 false] false), (mkBlock 4096 10 C_cudaMalloc 0 false).
  split; [|split; [now left|split; vm_compute; reflexivity]]. apply tidy_cons. split; [unfold ok_block, ASP; cbn [b_at b_size]; lia|]. split; [intros x []|]. split; [intros x []|exact I].
Qed.
Print Assumptions C68_foreign_refuted.

(** With two platforms with GPUs there are numbers that are offered and have no queue; using them is undefined. *)
Theorem C68_queue_refuted : exists ps l id, In l ps /\ 0 <= id < Z.of_nat (sycl_count ps) /\ sycl_queue l id = None /\
  forall o coherence n w, leaf_allocate o coherence (LSycl (option_map (fun _ => id) (sycl_queue l id))) n w = UB.
Proof.
  exists [[mkSd true None]; [mkSd true None]], [mkSd true None], 1. split; [now left|]. split; [vm_compute; auto; split; congruence|]. split; [reflexivity|].
  intros o coherence n w. reflexivity.
Qed.
Print Assumptions C68_queue_refuted.

(** getNumDevices counts parts that a GPU may have but has not: the number below it is a device that is not offered and has no queue. *)
Theorem C68_num_devices_refuted : exists l, Forall bounded l /\
  let id := Z.of_nat (sycl_num_devices l) - 1 in Z.of_nat (sycl_count [map fst l]) <= id /\ sycl_queue (map fst l) id = None.
Proof. exists [(mkSd true (Some 2%nat), 4%nat)]. split; [repeat constructor; cbn; lia|]. vm_compute. split; [discriminate|reflexivity]. Qed.
Print Assumptions C68_num_devices_refuted.

(** It looks at one platform: with two it misses devices that are offered. *)
Theorem C68_num_platforms_refuted : exists l1 l2, Forall bounded l1 /\ Forall bounded l2 /\
  (sycl_num_devices l1 < sycl_count [map fst l1; map fst l2])%nat.
Proof. exists [(mkSd true None, 0%nat)], [(mkSd true None, 0%nat)]. split; [repeat constructor|]. split; [repeat constructor|]. vm_compute. lia. Qed.
Print Assumptions C68_num_platforms_refuted.

(** ** C69 *)

(** Where [is_accessible] says yes the memory can be reached, whatever strategies lie above the resource.  Missing: HIP device
    memory from the host and host memory from OpenMP devices, where it says yes on every machine. *)
Theorem C69_sound_partial : forall m numa s r p, rests_on s r ->
  (r = RHipDevice -> p = PHost -> m_hip_host m = true) -> (r = RHost -> p = POmp -> numa = false -> m_omp_unified m = true) ->
  is_accessible (m_cuda_pageable m) numa p s = true -> can_reach m p (where_is r).
Proof. intros m numa s r p Hs H1 H2. exact (access_sound m numa s r p Hs (conj H1 H2)). Qed.
Print Assumptions C69_sound_partial.

(** It says yes for the platform the memory belongs to, and for the host where both share it. *)
Theorem C69_complete : forall pageable numa s r p, rests_on s r ->
  (match where_is r with Nowhere => False | InHost => p = PHost | OnlyDevice q => p = q | Shared q => p = q \/ p = PHost end) ->
  is_accessible pageable numa p s = true.
Proof. exact access_complete. Qed.
Print Assumptions C69_complete.

(** The platform of an allocator is that of its resource.  Missing: [NumaPolicy] for the node of a device. *)
Theorem C69_platform_partial : forall gpu s r, rests_on s r -> host_nodes s -> constructible gpu s = true ->
  get_platform gpu s = resource_platform r.
Proof. exact platform_is. Qed.
Print Assumptions C69_platform_partial.

(** The memory of an allocator is accessible from its own platform.  Missing: FILE, NO_OP and the null resource. *)
Theorem C69_own_partial : forall pageable numa gpu s r, rests_on s r -> host_nodes s -> constructible gpu s = true ->
  r <> RNoOp -> r <> RNull -> r <> RFile -> is_accessible pageable numa (get_platform gpu s) s = true.
Proof. exact own_platform. Qed.
Print Assumptions C69_own_partial.

Example C69_case : exists s, rests_on s RHost /\ host_nodes s /\ constructible (Some PCuda) s = true /\ get_platform (Some PCuda) s = PHost /\
  is_accessible false false PHost s = true /\ is_accessible false false PCuda s = false /\ is_accessible true false PCuda s = true.
Proof.
  exists (Over (SOther 3) (Over (SNuma false) (Over (SOther 1) (Resource RHost)))). split; [repeat constructor|]. split; [repeat constructor|].
  vm_compute. auto 8.
Qed.
Example C69_device_case : exists s, rests_on s RCudaUm /\ host_nodes s /\ constructible (Some PCuda) s = true /\ get_platform (Some PCuda) s = PCuda /\
  is_accessible false false PHost s = true /\ is_accessible false false PHip s = false.
Proof. exists (Over (SOther 2) (Resource RCudaUm)). split; [repeat constructor|]. split; [repeat constructor|]. vm_compute. auto 8. Qed.

(** It says yes where the memory cannot be reached. *)
Theorem C69_hip_refuted : exists m s, rests_on s RHipDevice /\ is_accessible (m_cuda_pageable m) false PHost s = true /\
  ~ can_reach m PHost (where_is RHipDevice).
Proof.
  exists (mkMachine false false false false false), (Resource RHipDevice). split; [constructor|]. split; [reflexivity|]. cbn. intros [H|(_ & _ & H)]; discriminate.
Qed.
Print Assumptions C69_hip_refuted.

Theorem C69_omp_refuted : exists m s, rests_on s RHost /\ is_accessible (m_cuda_pageable m) false POmp s = true /\
  ~ can_reach m POmp (where_is RHost).
Proof. exists (mkMachine false false false false false), (Resource RHost). split; [constructor|]. split; [reflexivity|]. cbn. discriminate. Qed.
Print Assumptions C69_omp_refuted.

(** It says no where the memory can be reached: by HIP and SYCL devices that read the host's memory, by an OpenMP device on memory
    that is shared or of a file, and, in the build for NUMA, by CUDA devices. *)
Theorem C69_missed_refuted : exists m, let no numa p r := is_accessible (m_cuda_pageable m) numa p (Resource r) = false /\ can_reach m p (where_is r) in
  no false PHip RHost /\ no false PSycl RHost /\ no false POmp RFile /\ no false POmp RShared /\ no true PCuda RHost /\ no true POmp RHost.
Proof. exists (mkMachine true true true true false). cbn. auto 12. Qed.
Print Assumptions C69_missed_refuted.

(** FILE memory is the host's but its platform is none, so it is not accessible from its own platform; NO_OP claims the host as
    platform and is not accessible from it. *)
Theorem C69_own_refuted : forall pageable numa gpu,
  (get_platform gpu (Resource RFile) = PUndefined /\ is_accessible pageable numa (get_platform gpu (Resource RFile)) (Resource RFile) = false /\
   is_accessible pageable numa PHost (Resource RFile) = true) /\
  (get_platform gpu (Resource RNoOp) = PHost /\ is_accessible pageable numa (get_platform gpu (Resource RNoOp)) (Resource RNoOp) = false).
Proof. intros pageable numa gpu. repeat split. Qed.
Print Assumptions C69_own_refuted.

(** A [NumaPolicy] for the node of a device has the device's platform, yet its memory is not reported as accessible from there,
    and no [NumaPolicy] can be made over it. *)
Theorem C69_numa_refuted : exists s, rests_on s RHost /\ constructible (Some PCuda) s = true /\ get_platform (Some PCuda) s = PCuda /\
  (forall pageable, is_accessible pageable true (get_platform (Some PCuda) s) s = false) /\
  constructible (Some PCuda) (Over (SNuma false) s) = false.
Proof. exists (Over (SNuma true) (Resource RHost)). split; [repeat constructor|]. vm_compute. auto 8. Qed.
Print Assumptions C69_numa_refuted.
