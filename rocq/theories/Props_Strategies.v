(** Properties C22, C23, C24, C26, C36, C44: the wrapping strategies and their compositions.
    Histories of calls on one strategy: [runs] (StratSpec.v); histories of a whole collection
    of allocators: [ghist] (GlobalSpec.v). *)
From Coq Require Import String.
From Verif Require Import Base AlignedModel AlignedFacts HeapModel HeapFacts StratModel StratSpec StratThms StratRun
  WrapModel QuickPoolModel QuickPoolMain QuickPoolRun QuickPoolThms4 DynPoolModel DynPoolMain DynPoolRun GlobalModel GlobalSpec GlobalFacts GlobalRun
  NamingModel NamingSpec NamingFacts GlobalIdle.

(** C22: the live bytes never exceed the limit (requests of less than 2^64 - limit bytes). *)
Theorem C22_size_limiter_limit :
  forall limit, 0 <= limit < M64 ->
  forall (W : Type) (P : Parent W) (Inv : W -> list region -> Prop) t sw,
    runs (SizeLimiter limit) P Inv t sw ->
    (forall n, In n (requests t) -> n < M64 - limit) ->
    total (map snd (live t)) <= limit.
Proof. exact @sl_limit. Qed.
Print Assumptions C22_size_limiter_limit.

(** C22: a request that would exceed the limit is refused, without calling the parent. *)
Theorem C22_size_limiter_refuses :
  forall limit, 0 <= limit < M64 ->
  forall (W : Type) (P : Parent W) (Inv : W -> list region -> Prop) t sw n,
    runs (SizeLimiter limit) P Inv t sw ->
    (forall m, In m (requests t) -> m < M64 - limit) -> 0 < n < M64 - limit ->
    limit < total (map snd (live t)) + n ->
    exists s', st_alloc (SizeLimiter limit) W P n sw = Throw (s', snd sw) OutOfMemory.
Proof. exact @sl_refuses. Qed.
Print Assumptions C22_size_limiter_refuses.

(** C22: a request that fits is answered by the parent, provided the parent never failed a
    request that fitted.  Missing: histories in which it did; see
    [C22_parent_failure_refuted]. *)
Theorem C22_size_limiter_forwards_partial :
  forall limit, 0 <= limit < M64 ->
  forall (W : Type) (P : Parent W) (Inv : W -> list region -> Prop) t sw n,
    runs (SizeLimiter limit) P Inv t sw ->
    (forall m, In m (requests t) -> m < M64 - limit) -> 0 < n < M64 - limit ->
    only_excess_refused limit t -> total (map snd (live t)) + n <= limit ->
    exists s', st_alloc (SizeLimiter limit) W P n sw = omap (pair s') (fun p => p) (p_alloc P n (snd sw)).
Proof. exact @sl_forwards. Qed.
Print Assumptions C22_size_limiter_forwards_partial.

(** A history with a refusal and a deallocation that makes room again. *)
Example C22_ex :
  sobs (sfrom (SizeLimiter 100) bump [SAlloc 60; SAlloc 41; SAlloc 40; SFree 16; SAlloc 50]) =
  Some ([Got 50 128; Returned 16 60; Got 40 80; Refused 41; Got 60 16], [(128, 50); (80, 40)]).
Proof. vm_compute. reflexivity. Qed.

(** The hypotheses of the three theorems hold after it, for a request of 11 bytes that is refused and one of 10 that is not. *)
Example C22_ex_hyps :
  let t := [Got 50 128; Returned 16 60; Got 40 80; Refused 41; Got 60 16] in
  (exists sw, runs (SizeLimiter 100) host heap_inv t sw) /\ (forall n, In n (requests t) -> n < M64 - 100) /\ only_excess_refused 100 t /\
  100 < total (map snd (live t)) + 11 /\ total (map snd (live t)) + 10 <= 100.
Proof.
  cbv zeta. split; [destruct (sobs_runs _ _ _ _ C22_ex) as (sw & H & _); eauto|]. split; [|vm_compute; repeat split; discriminate].
  cbn. intros n [<-|[<-|[<-|[<-|[]]]]]; reflexivity.
Qed.


(** Requests near 2^64 wrap the running total: the refused 2^64-50 lowers it, and 150 bytes become
    live under a limit of 100. *)
Theorem C22_huge_request_refuted :
  exists t sw, runs (SizeLimiter 100) host heap_inv t sw /\ 100 < total (map snd (live t)).
Proof.
  destruct (sfrom (SizeLimiter 100) bump [SAlloc 60; SAlloc (M64 - 50); SAlloc 90]) as [[t sw]|] eqn:E;
    [|vm_compute in E; discriminate].
  exists t, sw. split; [exact (sfrom_runs _ _ _ _ _ E)|].
  vm_compute in E. injection E as <- <-. vm_compute. reflexivity.
Qed.
Print Assumptions C22_huge_request_refuted.

(** The bytes of a request the parent failed stay charged: with nothing live, 60 bytes are
    refused under a limit of 100 although malloc would succeed. *)
Theorem C22_parent_failure_refuted :
  exists t sw, runs (SizeLimiter 100) host heap_inv t sw /\ live t = [] /\
    (exists w p, p_alloc host 60 (snd sw) = Ok w p) /\
    exists sw', st_alloc (SizeLimiter 100) heap host 60 sw = Throw sw' OutOfMemory.
Proof.
  destruct (sfrom (SizeLimiter 100) (bump_failing [0%nat]) [SAlloc 60]) as [[t sw]|] eqn:E;
    [|vm_compute in E; discriminate].
  exists t, sw. split; [exact (sfrom_runs _ _ _ _ _ E)|].
  vm_compute in E. injection E as <- <-. split; [reflexivity|].
  split; [do 2 eexists; vm_compute; reflexivity|eexists; vm_compute; reflexivity].
Qed.
Print Assumptions C22_parent_failure_refuted.

(** C23: everything a monotonic strategy ever returned is pairwise disjoint and inside its one
    block, as long as the sizes ever requested add up to less than 2^64. *)
Theorem C23_monotonic_disjoint :
  forall capacity (W : Type) (P : Parent W) limP Inv, ParentSpec P limP Inv ->
  0 < capacity <= limP ->
  forall t sw, runs (Monotonic capacity) P Inv t sw -> total (requests t) < M64 ->
    pairwise disj (ever t) /\
    exists b, Inv (snd sw) [(b, capacity)] /\ forall r, In r (ever t) -> inside r (b, capacity).
Proof. exact @mo_disjoint. Qed.
Print Assumptions C23_monotonic_disjoint.

(** C23: a request is served iff it fits in what all earlier requests, granted or
    not, have left.  Missing for the full claim: "granted or not" should be "granted"; see
    [C23_refused_request_refuted]. *)
Theorem C23_monotonic_refuses_partial :
  forall capacity (W : Type) (P : Parent W) limP Inv, ParentSpec P limP Inv ->
  0 < capacity <= limP ->
  forall t sw n, runs (Monotonic capacity) P Inv t sw -> 0 < n -> total (requests t) + n < M64 ->
    (total (requests t) + n <= capacity -> exists sw' p, st_alloc (Monotonic capacity) W P n sw = Ok sw' p) /\
    (capacity < total (requests t) + n -> exists sw', st_alloc (Monotonic capacity) W P n sw = Throw sw' RuntimeError).
Proof. exact @mo_refuses. Qed.
Print Assumptions C23_monotonic_refuses_partial.

Example C23_ex :
  sobs (sfrom (Monotonic 100) bump [SAlloc 60; SAlloc 30; SFree 16; SAlloc 10]) =
  Some ([Got 10 106; Returned 16 60; Got 30 76; Got 60 16], [(16, 100)]).
Proof. vm_compute. reflexivity. Qed.

Example C23_ex_hyps :
  let t := [Got 10 106; Returned 16 60; Got 30 76; Got 60 16] in
  (exists sw, runs (Monotonic 100) host heap_inv t sw) /\ total (requests t) = 100 /\ total (requests t) + 1 < M64 /\ 0 < 100 <= M64 - 1.
Proof. cbv zeta. split; [destruct (sobs_runs _ _ _ _ C23_ex) as (sw & H & _); eauto|]. vm_compute. repeat split; discriminate. Qed.


(** A refused request is not without effect: 40 of 100 bytes are unused, yet 40 bytes are
    refused after a refused 50. *)
Theorem C23_refused_request_refuted :
  exists t sw sw', runs (Monotonic 100) host heap_inv t sw /\ total (map snd (ever t)) = 60 /\
    st_alloc (Monotonic 100) heap host 40 sw = Throw sw' RuntimeError.
Proof.
  destruct (sfrom (Monotonic 100) bump [SAlloc 60; SAlloc 50]) as [[t sw]|] eqn:E; [|vm_compute in E; discriminate].
  exists t, sw. eexists. split; [exact (sfrom_runs _ _ _ _ _ E)|].
  vm_compute in E. injection E as <- <-. split; vm_compute; reflexivity.
Qed.
Print Assumptions C23_refused_request_refuted.

(** The byte counter wraps: after a refused request of 2^64-60 bytes the same memory is handed
    out again. *)
Theorem C23_wrap_refuted :
  exists t sw, runs (Monotonic 100) host heap_inv t sw /\ ~ pairwise disj (live t).
Proof.
  destruct (sfrom (Monotonic 100) bump [SAlloc 60; SAlloc 60; SAlloc (M64 - 120); SAlloc 40]) as [[t sw]|] eqn:E;
    [|vm_compute in E; discriminate].
  exists t, sw. split; [exact (sfrom_runs _ _ _ _ _ E)|].
  vm_compute in E. injection E as <- <-. cbn [live pairwise]. intros [H _].
  specialize (H (16, 60) ltac:(simpl; auto)). unfold disj in H. cbn [fst snd] in H. lia.
Qed.
Print Assumptions C23_wrap_refuted.

(** C24: live allocations of a SlotPool are disjoint, at most as many as there are slots, and
    each is exactly a block obtained from the parent (a slot is reused only for requests of its own size). *)
Theorem C24_slot_pool_disjoint :
  forall nslots (W : Type) (P : Parent W) limP Inv, ParentSpec P limP Inv ->
  forall t sw, runs (SlotPool nslots) P Inv t sw -> (forall n, In n (requests t) -> n <= limP) ->
    good (live t) /\ (length (live t) <= nslots)%nat /\ exists L, Inv (snd sw) L /\ incl (live t) L.
Proof. exact @sp_disjoint. Qed.
Print Assumptions C24_slot_pool_disjoint.

(** C24: with requests of one size and a parent that never fails, null is returned exactly
    when all slots are in use.  Missing: requests of several sizes and failing parents, where
    the claim is false; see the next two theorems. *)
Theorem C24_slot_pool_exhausted_partial :
  forall nslots (W : Type) (P : Parent W) limP Inv, ParentSpec P limP Inv ->
  forall n t sw, 0 < n < 2 ^ 63 -> n <= limP ->
    runs (SlotPool nslots) P Inv t sw -> uniform n t ->
    ((exists sw', st_alloc (SlotPool nslots) W P n sw = Ok sw' 0) <-> length (live t) = nslots).
Proof. exact @sp_exhausted. Qed.
Print Assumptions C24_slot_pool_exhausted_partial.

Example C24_ex :
  sobs (sfrom (SlotPool 2) bump [SAlloc 8; SAlloc 8; SAlloc 8; SFree 16; SAlloc 8]) =
  Some ([Got 8 16; Returned 16 8; Null 8; Got 8 32; Got 8 16], [(32, 8); (16, 8)]).
Proof. vm_compute. reflexivity. Qed.

(** All slots are in use and all requests were of 8 bytes. *)
Example C24_ex_hyps :
  let t := [Got 8 16; Returned 16 8; Null 8; Got 8 32; Got 8 16] in
  (exists sw, runs (SlotPool 2) host heap_inv t sw) /\ uniform 8 t /\ length (live t) = 2%nat.
Proof.
  cbv zeta. split; [destruct (sobs_runs _ _ _ _ C24_ex) as (sw & H & _); eauto|]. split; [|reflexivity].
  split; [cbn; intros m [<-|[<-|[<-|[<-|[]]]]]; reflexivity|]. intros m [H|[H|[H|[H|[H|[]]]]]]; discriminate.
Qed.


(** A freed slot never serves another size: nothing is live and one slot is free, yet null
    is returned. *)
Theorem C24_other_size_refuted :
  exists t sw sw', runs (SlotPool 1) host heap_inv t sw /\ live t = [] /\
    st_alloc (SlotPool 1) heap host 16 sw = Ok sw' 0.
Proof.
  destruct (sfrom (SlotPool 1) bump [SAlloc 8; SFree 16]) as [[t sw]|] eqn:E; [|vm_compute in E; discriminate].
  exists t, sw. eexists. split; [exact (sfrom_runs _ _ _ _ _ E)|].
  vm_compute in E. injection E as <- <-. split; vm_compute; reflexivity.
Qed.
Print Assumptions C24_other_size_refuted.

(** A slot whose parent allocation failed is lost for good. *)
Theorem C24_parent_failure_refuted :
  exists t sw sw', runs (SlotPool 1) host heap_inv t sw /\ live t = [] /\
    (exists w p, p_alloc host 8 (snd sw) = Ok w p) /\
    st_alloc (SlotPool 1) heap host 8 sw = Ok sw' 0.
Proof.
  destruct (sfrom (SlotPool 1) (bump_failing [0%nat]) [SAlloc 8]) as [[t sw]|] eqn:E; [|vm_compute in E; discriminate].
  exists t, sw. eexists. split; [exact (sfrom_runs _ _ _ _ _ E)|].
  vm_compute in E. injection E as <- <-. split; [reflexivity|].
  split; [do 2 eexists; vm_compute; reflexivity|vm_compute; reflexivity].
Qed.
Print Assumptions C24_parent_failure_refuted.

(** C26: pointers are aligned, live ranges are disjoint, and each lies inside its own parent
    block, at least the 8 header bytes above its start. *)
Theorem C26_aligned_allocator :
  forall A, pow2_align A ->
  forall (W : Type) (P : Parent W) limP Inv, ParentSpec P limP Inv -> limP < M64 ->
  forall t sw, runs (AlignedAllocator A) P Inv t sw -> (forall n, In n (requests t) -> n <= limP - (8 + A - 1)) ->
    good (live t) /\
    exists L, Inv (snd sw) L /\ length L = length (live t) /\
      forall p n, In (p, n) (live t) -> p mod A = 0 /\
        exists b, In (b, n + 8 + A - 1) L /\ b + 8 <= p /\ p + n <= b + (n + 8 + A - 1).
Proof. exact @al_aligned. Qed.
Print Assumptions C26_aligned_allocator.

(** C26: [p] was returned for a request of [n] bytes and not deallocated since: then
    deallocating it hands the parent the pointer [b] and the size the parent allocated for it. *)
Theorem C26_aligned_allocator_returns :
  forall A, pow2_align A ->
  forall (W : Type) (P : Parent W) limP Inv, ParentSpec P limP Inv -> limP < M64 ->
  forall t' t n p sw, runs (AlignedAllocator A) P Inv (t' ++ Got n p :: t) sw ->
    (forall m, In m (requests (t' ++ Got n p :: t)) -> m <= limP - (8 + A - 1)) ->
    (forall m, ~ In (Returned p m) t') ->
    In (p, n) (live (t' ++ Got n p :: t)) /\
    exists w w1 b, p_alloc P (n + 8 + A - 1) w = Ok w1 b /\
      forall cur w', st_dealloc (AlignedAllocator A) W P cur p n (fst sw, w') =
        omap (pair (fdel (fst sw) p)) (fun u => u) (p_dealloc P b (n + 8 + A - 1) w').
Proof. exact @al_returns. Qed.
Print Assumptions C26_aligned_allocator_returns.

Example C26_ex :
  pow2_align 64 /\
  sobs (sfrom (AlignedAllocator 64) bump [SAlloc 10; SAlloc 100; SFree 64; SAlloc 1]) =
  Some ([Got 1 320; Returned 64 10; Got 100 128; Got 10 64], [(288, 72); (112, 171)]).
Proof. split; [exists 6; split; [lia|reflexivity]|vm_compute; reflexivity]. Qed.

(** The second theorem applies to the 100 bytes at 128. *)
Example C26_ex_hyps :
  let t := [Got 1 320; Returned 64 10] ++ Got 100 128 :: [Got 10 64] in
  (exists sw, runs (AlignedAllocator 64) host heap_inv t sw) /\ (forall m, In m (requests t) -> m <= M64 - 1 - (8 + 64 - 1)) /\
  (forall m, ~ In (Returned 128 m) [Got 1 320; Returned 64 10]).
Proof.
  cbv zeta. split; [destruct (sobs_runs _ _ _ _ (proj2 C26_ex)) as (sw & H & _); eauto|]. split.
  - cbn. intros m [<-|[<-|[<-|[]]]]; unfold M64; lia.
  - intros m [H|[H|[]]]; discriminate.
Qed.


(** Near 2^64 the size of the parent request wraps: a request for 2^64-70 bytes "succeeds" with a
    one-byte block. *)
Theorem C26_huge_request_refuted :
  exists t sw, runs (AlignedAllocator 64) host heap_inv t sw /\ In (64, M64 - 70) (live t) /\
    h_live (snd sw) = [(16, 1)].
Proof.
  destruct (sfrom (AlignedAllocator 64) bump [SAlloc (M64 - 70)]) as [[t sw]|] eqn:E; [|vm_compute in E; discriminate].
  exists t, sw. split; [exact (sfrom_runs _ _ _ _ _ E)|].
  vm_compute in E. injection E as <- <-. split; [left|]; vm_compute; reflexivity.
Qed.
Print Assumptions C26_huge_request_refuted.

(** C36: in every collection of allocators built one on top of another over malloc, after every
    history of creations, allocations, deallocations, releases and coalescings on any of them,
    everything the program holds is non-null, inside the address space and
    pairwise disjoint. *)
Theorem C36_composed_disjoint :
  forall C w X, ghist C w X -> good (all_held X (S (length C))).
Proof. exact ghist_disjoint. Qed.
Print Assumptions C36_composed_disjoint.

(** C36: no such call has undefined behaviour, and deallocation never throws, except by a DynamicPoolList
    that coalesces. *)
Theorem C36_composed_defined :
  forall C w X i, ghist C w X ->
  (forall n, user_guard C i n w -> p_alloc (guser C i) n w <> UB) /\
  (forall p n, In (p, n) (X i) ->
     p_dealloc (guser C i) p n w <> UB /\
     (~ coalescing (kind_at C i) -> forall w' e, p_dealloc (guser C i) p n w <> Throw w' e)) /\
  grelease C i w <> UB /\ gcoalesce C i w <> UB /\
  (forall c, node_ok C c -> gcreate C c w <> UB).
Proof. exact ghist_defined. Qed.
Print Assumptions C36_composed_defined.

(** C36: release of the resource, or of a strategy that is no pool, does nothing; coalesce of one that cannot is refused and changes
    nothing (a FixedPool can be released but not coalesced, a MixedPool neither). *)
Theorem C36_idle : forall C i w, (i <= length C)%nat ->
  (~ gives_back (kind_at C i) -> grelease C i w = Ok w tt) /\ (~ coalesces (kind_at C i) -> gcoalesce C i w = Throw w RuntimeError).
Proof. intros C i w H. split; [exact (release_idle C i w H)|exact (coalesce_idle C i w H)]. Qed.
Print Assumptions C36_idle.

(** The resource (0), a SizeLimiter (1) and a FixedPool (2) on it. *)
Example C36_idle_case : let C := [mkNode (KFixed 16 64 3) 1; mkNode (KSizeLimiter 1000) 0] in
  ~ gives_back (kind_at C 0) /\ ~ coalesces (kind_at C 0) /\ ~ gives_back (kind_at C 1) /\ ~ coalesces (kind_at C 1) /\
  gives_back (kind_at C 2) /\ ~ coalesces (kind_at C 2).
Proof. cbn. tauto. Qed.

(** A worked history: SizeLimiter (1) on HOST, QuickPool (2) on it, AlignedAllocator (3) and
    SlotPool (4) on the pool.  Shown: what the program holds from each allocator, each
    allocator's current size, and the blocks taken from malloc. *)
Definition ex_calls : list gcall :=
  [GCreate (mkNode (KSizeLimiter 1000) 0); GCreate (mkNode (KQuick (ex_cfg h_percent_0) 3) 1);
   GCreate (mkNode (KAligned 64) 2); GCreate (mkNode (KSlotPool 2) 2);
   GAlloc 0 8; GAlloc 3 20; GAlloc 4 30; GAlloc 2 48; GAlloc 3 20; GAlloc 1 70; GFree 3 64; GAlloc 1 900; GRelease 2].

Example C36_ex : gobs (grun ex_calls (gstart bump)) =
  Some ([[(16, 8)]; [(480, 70)]; [(256, 48)]; [(384, 20)]; [(160, 30)]],
        [350; 342; 169; 20; 30],
        [(480, 70); (352, 112); (256, 80); (160, 80); (16, 8)]).
Proof. vm_compute. reflexivity. Qed.

Example C36_ex_history : forall st, grun ex_calls (gstart bump) = Some st -> gstate_hist st.
Proof.
  intros st E. refine (grun_hist ex_calls _ _ st E (gstart_hist bump)).
  intros c Hin. repeat (destruct Hin as [Hin|Hin]; [try discriminate Hin; injection Hin as <-; try exact I; apply heur_ok_all|]).
  destruct Hin.
Qed.

(** Another: a DynamicPoolList that never coalesces (1) on HOST, a QuickPool (2) on it, and a
    DynamicPoolList with the default heuristic (4) on a ThreadSafeAllocator (3) on HOST. *)
Definition dyn_calls : list gcall :=
  [GCreate (mkNode (KDynamicKeep 512 64 16) 0); GCreate (mkNode (KQuick (ex_cfg h_percent_100) 3) 1);
   GCreate (mkNode KPassThrough 0); GCreate (mkNode (KDynamic (mkDcfg 64 64 16 dh_percent_100)) 3);
   GAlloc 1 100; GAlloc 2 30; GAlloc 4 40; GAlloc 4 60; GAlloc 4 10; GFree 1 16; GAlloc 1 24].

Example C36_dynamic_ex : gobs (grun dyn_calls (gstart bump)) =
  Some ([[]; [(16, 24)]; [(128, 30)]; []; [(608, 10); (656, 60); (560, 40)]],
        [688; 104; 30; 160; 110],
        [(656, 80); (560, 80); (16, 528)]).
Proof. vm_compute. reflexivity. Qed.

Example C36_dynamic_history : forall st, grun dyn_calls (gstart bump) = Some st -> gstate_hist st.
Proof.
  intros st E. refine (grun_hist dyn_calls _ _ st E (gstart_hist bump)).
  intros c Hin. repeat (destruct Hin as [Hin|Hin]; [try discriminate Hin; injection Hin as <-; try exact I; first [apply heur_ok_all|apply dheur_ok_all]|]).
  destruct Hin.
Qed.

(** C44: the first 2^64 names a NamingShim uses are pairwise distinct, whatever the parent does. *)
Theorem C44_names_distinct :
  forall (m_name : string) (W : Type) (f : string -> Z -> W -> outcome W Z) (g : Z -> Z -> W -> outcome W unit) c log w,
    shim_hist m_name f g (c, (log, w)) -> Z.of_nat (length log) <= M64 -> NoDup log.
Proof. exact @shim_distinct. Qed.
Print Assumptions C44_names_distinct.

(** ... and not beyond: the counter is a [size_t]. *)
Theorem C44_names_repeat_refuted :
  forall (m_name : string), exists c log,
    shim_hist m_name (fun _ _ w => Ok w 1) (fun _ _ w => Ok w tt) (c, (log, tt)) /\ ~ NoDup log.
Proof.
  intros m. destruct (shim_any_length m (S (Z.to_nat M64))) as (c & log & H & E).
  exists c, log. split; [exact H|]. apply (shim_repeats m _ _ c log tt H). rewrite E. lia.
Qed.
Print Assumptions C44_names_repeat_refuted.

Example C44_ex : ns_name "pool" 12 = "pool_alloc_12"%string.
Proof. reflexivity. Qed.

(** Three names: one of a call that threw, two of calls that did not. *)
Example C44_ex_hyps :
  shim_hist "pool" (fun _ n w => if n =? 7 then Throw w OutOfMemory else Ok w 1) (fun _ _ w => Ok w tt)
    (3, (["pool_alloc_2"; "pool_alloc_1"; "pool_alloc_0"]%string, tt)).
Proof.
  pose proof (sh_start "pool" (fun _ n w => if n =? 7 then Throw w OutOfMemory else Ok w 1) (fun _ _ w => Ok w tt) tt) as H0.
  pose proof (sh_alloc _ _ _ _ 8 (1, (["pool_alloc_0"%string], tt)) 1 H0 eq_refl) as H1.
  pose proof (sh_alloc_throw _ _ _ _ 7 (2, (["pool_alloc_1"; "pool_alloc_0"]%string, tt)) OutOfMemory H1 eq_refl) as H2.
  pose proof (sh_free _ _ _ _ 1 8 (2, (["pool_alloc_1"; "pool_alloc_0"]%string, tt)) H2 eq_refl) as H3.
  exact (sh_alloc _ _ _ _ 8 (3, (["pool_alloc_2"; "pool_alloc_1"; "pool_alloc_0"]%string, tt)) 1 H3 eq_refl).
Qed.
