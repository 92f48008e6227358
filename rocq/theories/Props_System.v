(** C04, C05, C06, C07, C35: deallocation checks, statistics, zero-byte allocations and
    ResourceManager::deallocate in every history of the whole system ([shist], SystemSpec.v): any
    allocators, created at any time on any earlier ones, over any operating system, all calls, failing
    or not.  [any_keys]: no condition on the addresses in use; [sparse56]: no 57 of them differ in the
    last byte only. *)
From Verif Require Import Base BaseFacts HeapModel StratModel WrapModel QuickPoolModel QuickPoolRun DynPoolModel DynPoolMain DynPoolRun GlobalModel GlobalSpec GlobalRun
  MapModel MapSpec MapThms JudyModel JudyFacts MapMain MapRun SystemModel SystemSpec SystemMain SystemThms SystemRun.

(** C04: a pointer [p] that is not a live allocation of [i] is rejected by [i.deallocate]; all
    strategies and all statistics are exactly as before, and every live allocation (in particular the
    one at [p]) is still found with its size, owner and name. *)
Theorem C04_wrong_allocator :
  forall C sw g q t i p, shist JR any_keys C sw g q t -> usable (C ++ boot) i -> addr_ok p -> p <> 0 ->
    (forall r, In r g -> r_ptr r = p -> r_strat r <> Z.of_nat i) ->
    exists a', sys_deallocate JR (C ++ boot) i p sw = Throw (fst sw, a') RuntimeError /\
      shist JR any_keys C (fst sw, a') g q (snap (C ++ boot) (fst sw) :: t) /\
      forall r, In r g -> exists a'', am_find JR (r_ptr r) a' = Ok a'' r.
Proof. exact (sy_wrong any_keys any_keys_monotone). Qed.
Print Assumptions C04_wrong_allocator.

(** C04: the owner, on the other hand, always takes it back.  Only a DynamicPoolList that coalesces can throw
    then, after the memory has been given back. *)
Theorem C04_right_allocator :
  forall C sw g q t r, shist JR any_keys C sw g q t -> In r g ->
    post (sys_deallocate JR (C ++ boot) (Z.to_nat (r_strat r)) (r_ptr r) sw)
      (fun sw' _ => shist JR any_keys C sw' (forget (r_ptr r) g) q (snap (C ++ boot) (fst sw') :: t))
      (fun sw' _ => coalescing (kind_at (C ++ boot) (Z.to_nat (r_strat r))) /\
         shist JR any_keys C sw' (forget (r_ptr r) g) q (snap (C ++ boot) (fst sw') :: t)).
Proof. exact (sy_right any_keys any_keys_monotone). Qed.
Print Assumptions C04_right_allocator.

(** Such a deallocation: a DynamicPoolList with the default heuristic, two blocks, the last allocation given back by its
    owner while malloc fails.  It throws, and yet the allocation is gone from the registry and from the statistics:
    trying again fails for another reason. *)
Theorem C04_right_allocator_throws_refuted :
  exists C sw g q t r sw', shist JR any_keys C sw g q t /\ In r g /\
    sys_deallocate JR (C ++ boot) (Z.to_nat (r_strat r)) (r_ptr r) sw = Throw sw' OutOfMemory /\
    (exists a', am_find JR (r_ptr r) (snd sw') = Throw a' UnknownPointer) /\
    current_size (C ++ boot) (Z.to_nat (r_strat r)) (fst sw') = 0 /\
    exists sw'', sys_deallocate JR (C ++ boot) (Z.to_nat (r_strat r)) (r_ptr r) sw' = Throw sw'' RuntimeError.
Proof.
  set (again := fun C (sw : sworld JR (C ++ boot)) =>
         match sys_deallocate JR (C ++ boot) 4 2176 sw with
         | Throw sw' OutOfMemory =>
             match am_find JR 2176 (snd sw'), sys_deallocate JR (C ++ boot) 4 2176 sw' with
             | Throw _ UnknownPointer, Throw _ RuntimeError => Some (current_size (C ++ boot) 4 (fst sw'))
             | _, _ => None
             end
         | _ => None
         end).
  destruct (yobs_hist any_addr any_keys any_addr_ok (bump_failing [3; 4]%nat)
              [YCreate (mkNode (KDynamic (mkDcfg 64 64 16 dh_percent_100)) 1); YAlloc 4 64; YAlloc 4 64; YFree 4 2080]
              (fun C sw g q t => option_map (fun x => (g, x)) (again C sw))
              ([mkRec 2176 64 4 0], 0)) as (C & sw & g & q & t & Hh & E).
  - intros d [H|[H|[H|[H|[]]]]]; inversion H; subst. apply dheur_ok_all.
  - vm_compute. reflexivity.
  - destruct (again C sw) as [n|] eqn:E1; [|discriminate]. unfold again in E1. cbn [option_map] in E. injection E as -> ->.
    destruct (sys_deallocate JR (C ++ boot) 4 2176 sw) as [|sw' []| | |] eqn:E3; try discriminate.
    destruct (am_find JR 2176 (snd sw')) as [|a' []| | |] eqn:E4; try discriminate.
    destruct (sys_deallocate JR (C ++ boot) 4 2176 sw') as [|s2 []| | |] eqn:E5; try discriminate. injection E1 as E6.
    exists C, sw, [mkRec 2176 64 4 0], q, t, (mkRec 2176 64 4 0), sw'.
    split; [exact Hh|]. split; [now left|]. split; [exact E3|]. split; [eauto|]. split; [exact E6|eauto].
Qed.
Print Assumptions C04_right_allocator_throws_refuted.

(** C04: the registry holds exactly the live allocations, which do not overlap. *)
Theorem C04_registry :
  forall C sw g q t, shist JR any_keys C sw g q t ->
    (forall r, In r g -> exists a', am_find JR (r_ptr r) (snd sw) = Ok a' r) /\
    am_size JR (snd sw) = Z.of_nat (length g) /\
    (forall fuel addr, (length g < fuel)%nat -> addr <> 0 -> exists a' l, am_records JR fuel addr (snd sw) = Ok a' l /\ Permutation l g) /\
    pairwise (fun r r' => disj (rreg r) (rreg r')) g /\
    forall r, In r g -> 0 < r_ptr r /\ 0 <= r_size r /\ usable (C ++ boot) (Z.to_nat (r_strat r)).
Proof. exact (sy_registered any_keys any_keys_monotone). Qed.
Print Assumptions C04_registry.

(** HOST and a SizeLimiter over it, each with live allocations, one of them of zero bytes; the wrong
    allocator for 2160, for 2080 and for an unknown address. *)
Definition two : list ycall := [YAlloc 1 64; YCreate (mkNode (KSizeLimiter 100) 1); YAlloc 4 50; YAlloc 4 0].
Example C04_case :
  yobs any_addr bump two yview =
    Some ([(2162, 2162, 3); (114, 114, 2); (2048, 2048, 1); (1, 1, 0); (50, 50, 2)], [(4, 16, 0); (4, 2160, 50); (1, 2080, 64)]) /\
  yobs any_addr bump (two ++ [YFree 1 2160; YFree 4 2080; YFree 1 99999]) yview = yobs any_addr bump two yview /\
  yobs any_addr bump (two ++ [YFree 4 2160; YFree 1 2080; YFree 4 16]) yview =
    Some ([(2048, 2162, 1); (0, 114, 0); (2048, 2048, 1); (0, 1, 0); (0, 50, 0)], []).
Proof. vm_compute. auto. Qed.

(** C05: an allocator no other was created on ([q] does not contain it). *)
Theorem C05_current_size :
  forall C sw g q t i, shist JR any_keys C sw g q t -> (i <= length (C ++ boot))%nat -> ~ In i q ->
    never_null (kind_at (C ++ boot) i) -> own_stats (kind_at (C ++ boot) i) ->
    current_size (C ++ boot) i (fst sw) = bytes (mine i g).
Proof. exact (sy_current_size any_keys any_keys_monotone). Qed.
Print Assumptions C05_current_size.

Theorem C05_allocation_count :
  forall C sw g q t i, shist JR any_keys C sw g q t -> (i <= length (C ++ boot))%nat -> ~ In i q ->
    never_null (kind_at (C ++ boot) i) ->
    allocation_count (C ++ boot) i (fst sw) = Z.of_nat (length (mine i g)).
Proof. exact (sy_count any_keys any_keys_monotone). Qed.
Print Assumptions C05_allocation_count.

(** The hypotheses hold of allocator 4 above, which has an allocation of 50 and one of 0 bytes. *)
Example C05_case :
  exists C sw g q t, shist JR any_keys C sw g q t /\ (4 <= length (C ++ boot))%nat /\ ~ In 4%nat q /\
    never_null (kind_at (C ++ boot) 4) /\ own_stats (kind_at (C ++ boot) 4) /\ bytes (mine 4 g) = 50 /\ length (mine 4 g) = 2%nat.
Proof.
  destruct (yobs_hist any_addr any_keys any_addr_ok bump two
              (fun C sw g q t => Some (C, q, bytes (mine 4 g), length (mine 4 g)))
              ([mkNode (KSizeLimiter 100) 1], [1; 2; 0]%nat, 50, 2%nat)) as (C & sw & g & q & t & Hh & E).
  - intros d [H|[H|[H|[H|[]]]]]; inversion H; subst; exact I.
  - vm_compute. reflexivity.
  - injection E as -> -> E1 E2. exists [mkNode (KSizeLimiter 100) 1], sw, g, [1; 2; 0]%nat, t.
    repeat split; auto. intros [H|[H|[H|[]]]]; discriminate H.
Qed.

(** C05 does not hold of an allocator under others: when the memory for a new allocator cannot be had,
    its parent has counted the request all the same (AllocationStrategy.cpp:20-37).  Here HOST holds
    nothing, nobody else exists, and it reports 1000 bytes in one allocation. *)
Theorem C05_failed_creation_refuted :
  exists sw q t, shist JR any_keys [] sw [] q t /\
    current_size boot host_id (fst sw) = 1000 /\ allocation_count boot host_id (fst sw) = 1.
Proof.
  destruct (yobs_hist any_addr any_keys any_addr_ok (bump_failing [1%nat]) [YCreate (mkNode (KMonotonic 1000) 1)]
              (fun C sw g q t => Some (C, g, current_size (C ++ boot) host_id (fst sw), allocation_count (C ++ boot) host_id (fst sw)))
              ([], [], 1000, 1)) as (C & sw & g & q & t & Hh & E).
  - intros d [H|[]]; inversion H; subst; exact I.
  - vm_compute. reflexivity.
  - injection E as -> -> E1 E2. exists sw, q, t. auto.
Qed.
Print Assumptions C05_failed_creation_refuted.

(** C05 does not hold of SlotPool: when it is full its [allocate] returns the null pointer, whose
    registration throws after the statistics were updated (Inspector.cpp:17-39).  Two live allocations
    of 8 bytes, three counted. *)
Theorem C05_slot_pool_refuted :
  exists C sw g q t, shist JR any_keys C sw g q t /\ ~ In 4%nat q /\
    bytes (mine 4 g) = 16 /\ current_size (C ++ boot) 4 (fst sw) = 24 /\ allocation_count (C ++ boot) 4 (fst sw) = 3.
Proof.
  destruct (yobs_hist any_addr any_keys any_addr_ok bump [YCreate (mkNode (KSlotPool 2) 1); YAlloc 4 8; YAlloc 4 8; YAlloc 4 8]
              (fun C sw g q t => Some (q, bytes (mine 4 g), current_size (C ++ boot) 4 (fst sw), allocation_count (C ++ boot) 4 (fst sw)))
              ([1; 2; 0]%nat, 16, 24, 3)) as (C & sw & g & q & t & Hh & E).
  - intros d [H|[H|[H|[H|[]]]]]; inversion H; subst; exact I.
  - vm_compute. reflexivity.
  - injection E as E1 E2 E3 E4. exists C, sw, g, q, t. repeat split; auto. rewrite E1. intros [H|[H|[H|[]]]]; discriminate H.
Qed.
Print Assumptions C05_slot_pool_refuted.

(** C05 does not hold of FixedPool, which reports whole slots (10 bytes requested, 64 reported), and of
    MonotonicAllocationStrategy, which reports the bytes consumed since creation (0 live, 10 reported). *)
Theorem C05_overridden_refuted :
  (exists C sw g q t, shist JR any_keys C sw g q t /\ bytes (mine 4 g) = 10 /\ current_size (C ++ boot) 4 (fst sw) = 64) /\
  (exists C sw g q t, shist JR any_keys C sw g q t /\ g = [] /\ current_size (C ++ boot) 4 (fst sw) = 10 /\
     allocation_count (C ++ boot) 4 (fst sw) = 0).
Proof.
  split.
  - destruct (yobs_hist any_addr any_keys any_addr_ok bump [YCreate (mkNode (KFixed 64 64 1) 1); YAlloc 4 10]
              (fun C sw g q t => Some (bytes (mine 4 g), current_size (C ++ boot) 4 (fst sw)))
              (10, 64)) as (C & sw & g & q & t & Hh & E).
    + intros d [H|[H|[]]]; inversion H; subst; exact I.
    + vm_compute. reflexivity.
    + injection E as E1 E2. exists C, sw, g, q, t. auto.
  - destruct (yobs_hist any_addr any_keys any_addr_ok bump [YCreate (mkNode (KMonotonic 1000) 1); YAlloc 4 10; YFree 4 2080]
              (fun C sw g q t => Some (g, current_size (C ++ boot) 4 (fst sw), allocation_count (C ++ boot) 4 (fst sw)))
              ([], 10, 0)) as (C & sw & g & q & t & Hh & E).
    + intros d [H|[H|[H|[]]]]; inversion H; subst; exact I.
    + vm_compute. reflexivity.
    + injection E as E1 E2 E3. exists C, sw, g, q, t. auto.
Qed.
Print Assumptions C05_overridden_refuted.

(** C06: the watermark is at least the current size now and at every earlier observation, and is the
    current size of one of them. *)
Theorem C06_watermark :
  forall C sw g q t i, shist JR any_keys C sw g q t -> (i <= length (C ++ boot))%nat -> ~ In i q ->
    never_null (kind_at (C ++ boot) i) -> own_stats (kind_at (C ++ boot) i) ->
    current_size (C ++ boot) i (fst sw) <= high_watermark (C ++ boot) i (fst sw) /\
    (forall s st, In s t -> s i = Some st -> st_cur st <= high_watermark (C ++ boot) i (fst sw)) /\
    exists s st, In s t /\ s i = Some st /\ st_cur st = high_watermark (C ++ boot) i (fst sw).
Proof. exact (sy_watermark any_keys any_keys_monotone). Qed.
Print Assumptions C06_watermark.

(** C06: it never decreases, also for allocators under others. *)
Theorem C06_watermark_grows :
  forall C sw g q t i, shist JR any_keys C sw g q t -> (i <= length (C ++ boot))%nat -> own_stats (kind_at (C ++ boot) i) ->
    forall s st, In s t -> s i = Some st -> st_hwm st <= high_watermark (C ++ boot) i (fst sw).
Proof. exact (sy_watermark_grows any_keys any_keys_monotone). Qed.
Print Assumptions C06_watermark_grows.

(** After freeing everything: current size 0, watermark 50; all observations of allocator 4, newest first. *)
Example C06_case :
  yobs any_addr bump (two ++ [YFree 4 2160; YAlloc 4 30; YFree 4 16; YFree 4 2160; YFree 4 2224])
    (fun C sw g q t => Some (map (fun s => option_map (fun st => (st_cur st, st_hwm st)) (s 4%nat)) t)) =
  Some [Some (0, 50); Some (0, 50); Some (30, 50); Some (30, 50); Some (0, 50); Some (50, 50); Some (50, 50); Some (0, 0); None; None].
Proof. vm_compute. reflexivity. Qed.

(** C06 does not hold of MonotonicAllocationStrategy, whose watermark is its capacity: never reached here. *)
Theorem C06_monotonic_refuted :
  exists C sw g q t, shist JR any_keys C sw g q t /\ high_watermark (C ++ boot) 4 (fst sw) = 1000 /\
    forall s st, In s t -> s 4%nat = Some st -> st_cur st <= 10.
Proof.
  destruct (yobs_hist any_addr any_keys any_addr_ok bump [YCreate (mkNode (KMonotonic 1000) 1); YAlloc 4 10]
              (fun C sw g q t => Some (high_watermark (C ++ boot) 4 (fst sw), map (fun s : snapshot => s 4%nat) t))
              (1000, [Some (mkStats 10 1000 1); Some (mkStats 0 1000 0); None])) as (C & sw & g & q & t & Hh & E).
  - intros d [H|[H|[]]]; inversion H; subst; exact I.
  - vm_compute. reflexivity.
  - injection E as E1 E2. exists C, sw, g, q, t. split; [auto|]. split; [auto|]. intros s st Hs Es.
    apply (in_map (fun s : snapshot => s 4%nat)) in Hs. rewrite E2, Es in Hs.
    destruct Hs as [H|[H|[H|[]]]]; inversion H; cbn; lia.
Qed.
Print Assumptions C06_monotonic_refuted.

(** C07: whatever is allocated, also zero bytes, is at an address of its own and recorded. *)
Theorem C07_allocate :
  forall C sw g q t i n nm, shist JR any_keys C sw g q t -> usable (C ++ boot) i -> n = 0 \/ user_guard (C ++ boot) i n (fst sw) ->
    post (sys_allocate JR (C ++ boot) i n nm sw)
      (fun sw' p => addr_ok p /\ p <> 0 /\ (forall r, In r g -> r_ptr r <> p) /\
         exists a', am_find JR p (snd sw') = Ok a' (mkRec p n (Z.of_nat i) nm))
      (fun sw' _ => forall r, In r g -> exists a', am_find JR (r_ptr r) (snd sw') = Ok a' r).
Proof. exact sy_alloc_any. Qed.
Print Assumptions C07_allocate.

(** C07: allocating zero bytes leaves every strategy object as it was, and all statistics except that
    the allocator used counts one more allocation of zero bytes. *)
Theorem C07_zero_allocate :
  forall C sw g q t i nm, shist JR any_keys C sw g q t -> usable (C ++ boot) i ->
    post (sys_allocate JR (C ++ boot) i 0 nm sw)
      (fun sw' p => forall j, usable (C ++ boot) j -> gnode (C ++ boot) j (fst sw') = gnode (C ++ boot) j (fst sw) /\
         gstats (C ++ boot) j (fst sw') = if Nat.eqb j i then stats_add 0 (gstats (C ++ boot) j (fst sw)) else gstats (C ++ boot) j (fst sw))
      (fun sw' _ => forall j, usable (C ++ boot) j -> untouched (C ++ boot) j (fst sw) (fst sw')).
Proof. exact (sy_zero_alloc any_keys any_keys_monotone). Qed.
Print Assumptions C07_zero_allocate.

(** C07: freeing them succeeds and touches no strategy object. *)
Theorem C07_zero_deallocate :
  forall C sw g q t r, shist JR any_keys C sw g q t -> In r g -> r_size r = 0 ->
    post (sys_deallocate JR (C ++ boot) (Z.to_nat (r_strat r)) (r_ptr r) sw)
      (fun sw' _ => forall j, usable (C ++ boot) j -> gnode (C ++ boot) j (fst sw') = gnode (C ++ boot) j (fst sw) /\
         gstats (C ++ boot) j (fst sw') = if Z.of_nat j =? r_strat r then stats_sub 0 (gstats (C ++ boot) j (fst sw)) else gstats (C ++ boot) j (fst sw))
      (fun _ _ => False).
Proof. exact (sy_zero_free any_keys any_keys_monotone). Qed.
Print Assumptions C07_zero_deallocate.

(** Three zero-byte allocations of two allocators; the second one is freed and its address used again. *)
Example C07_case :
  yobs any_addr bump [YAlloc 1 0; YCreate (mkNode (KQuick (mkCfg 1024 512 16 h_percent_0) 3) 1); YAlloc 4 0; YAlloc 4 48; YAlloc 4 0; YFree 4 17; YAlloc 1 0] yview =
    Some ([(3088, 3088, 2); (1040, 1040, 3); (2048, 2048, 1); (3, 3, 0); (48, 48, 2)], [(1, 17, 0); (4, 18, 0); (4, 2080, 48); (1, 16, 0)]).
Proof. vm_compute. reflexivity. Qed.
Example C07_null : yobs any_addr bump (two ++ [YFree 1 0; YFree 4 0]) yview = yobs any_addr bump two yview.
Proof. vm_compute. reflexivity. Qed.

(** C35: the allocation at [r_ptr r] is deallocated through its owner. *)
Theorem C35_owner :
  forall C sw g q t r, shist JR any_keys C sw g q t -> In r g ->
    exists a', rm_deallocate JR (C ++ boot) (r_ptr r) sw = sys_deallocate JR (C ++ boot) (Z.to_nat (r_strat r)) (r_ptr r) (fst sw, a') /\
      shist JR any_keys C (fst sw, a') g q t.
Proof. exact sy_rm_owner. Qed.
Print Assumptions C35_owner.

(** C35: any other address is rejected, and nothing changes. *)
Theorem C35_other :
  forall C sw g q t p, shist JR sparse56 C sw g q t -> addr_ok p -> (forall r, In r g -> r_ptr r <> p) ->
    exists a' e, rm_deallocate JR (C ++ boot) p sw = Throw (fst sw, a') e /\
      shist JR sparse56 C (fst sw, a') g q (snap (C ++ boot) (fst sw) :: t) /\
      ((exists r, In r g /\ covers r p) -> e = RuntimeError) /\
      ((forall r, In r g -> ~ covers r p) -> e = UnknownPointer).
Proof. exact sy_rm_other. Qed.
Print Assumptions C35_other.

(** Freed through the manager: an interior address, an unknown one and the null pointer (which, unlike
    with [Allocator::deallocate], is an error) are rejected; the base addresses are accepted. *)
Example C35_case :
  yobs any_addr bump (two ++ [YRmFree 2161; YRmFree 2143; YRmFree 70000; YRmFree 0]) yview = yobs any_addr bump two yview /\
  yobs any_addr bump (two ++ [YRmFree 2160; YRmFree 2080; YRmFree 16]) yview =
    Some ([(2048, 2162, 1); (0, 114, 0); (2048, 2048, 1); (0, 1, 0); (0, 50, 0)], []).
Proof. vm_compute. auto. Qed.
