(** C74: data races. *)
From Verif Require Import Base StratModel GlobalModel SystemModel RaceModel IsoSpec RaceSpec RaceFacts RaceWitness.

(** C74: if two threads can ever be about to access one variable, one of them to write it, then there are two calls, one of
    each, that by the summary [touch] access the variable without a mutex in common. *)
Theorem C74_locks :
  forall C ts prog g l, grown C -> reaches C ts prog g -> race g l ->
    exists t u c c' w w' H H', t <> u /\ In c (prog t) /\ In c' (prog u) /\ touch C ts c w l H /\ touch C ts c' w' l H' /\
      (w = true \/ w' = true) /\ forall m, In m H -> In m H' -> False.
Proof. exact race_locks. Qed.
Print Assumptions C74_locks.

(** C74: a thread-safe allocator may be used for allocations and deallocations of any size by any number of threads, if
    nothing else is. *)
Theorem C74_one :
  forall C ts i prog g l, grown C -> ts i = true -> (forall t c, In c (prog t) -> through c = Some i) -> apart prog unpeeked ->
    reaches C ts prog g -> ~ race g l.
Proof. exact one_safe. Qed.
Print Assumptions C74_one.

(** C74: threads that allocate and deallocate memory of more than zero bytes, where shared allocators are thread-safe and
    different ones have no strategy with changing members in common, only race on counters of allocators below two different
    ones.  (Without "only ... counters" the claim is false: [C74_safe_refuted].) *)
Theorem C74_memory_partial :
  forall C ts prog g l, grown C -> (forall t c, In c (prog t) -> everyday C c) -> apart prog (careful C ts) ->
    reaches C ts prog g -> race g l ->
    exists t u c c' i j k f, t <> u /\ In c (prog t) /\ In c' (prog u) /\ through c = Some i /\ through c' = Some j /\ i <> j /\
      l = LStat k f /\ under C i k /\ under C j k.
Proof. exact memory_safe. Qed.
Print Assumptions C74_memory_partial.

(** C74: there is no race if different allocators have no allocator in common at all. *)
Theorem C74_apart :
  forall C ts prog g l, grown C -> (forall t c, In c (prog t) -> everyday C c) -> apart prog (careful C ts) ->
    apart prog (fun c c' => forall i j k, through c = Some i -> through c' = Some j -> i <> j -> under C i k -> under C j k -> False) ->
    reaches C ts prog g -> ~ race g l.
Proof. exact apart_safe. Qed.
Print Assumptions C74_apart.

(** C74: the map of allocations is safe with every call but those that list the records. *)
Theorem C74_map :
  forall C ts prog g, grown C -> (forall t, ~ In DRecords (prog t)) -> reaches C ts prog g -> ~ race g LMap.
Proof. exact map_safe. Qed.
Print Assumptions C74_map.

(** C74: allocators can be made by several threads at once, if nobody looks for one meanwhile. *)
Theorem C74_names :
  forall C ts prog g, grown C -> (forall t c, In c (prog t) -> ~ names_unlocked c) -> reaches C ts prog g -> ~ race g LNames.
Proof. exact names_safe. Qed.
Print Assumptions C74_names.

(** C74: no deadlock: as long as a thread has something to do, some thread can go on, whatever the calls. *)
Theorem C74_progress :
  forall C ts prog g t, grown C -> reaches C ts prog g -> r_rem g t <> [] -> exists u, rstep u g <> None.
Proof. exact not_stuck. Qed.
Print Assumptions C74_progress.

(** C74: queries alone do not race. *)
Theorem C74_readers :
  forall C ts prog g l, grown C -> (forall t c, In c (prog t) -> reads_only c) -> reaches C ts prog g -> ~ race g l.
Proof. exact readers_safe. Qed.
Print Assumptions C74_readers.

(** Refuted: two threads can allocate from HOST, an allocator without a lock. *)
Theorem C74_host_refuted :
  forall a b, exists g, reaches boot (fun _ => false) (two (DAlloc 1 a) (DAlloc 1 b)) g /\ race g (LStat 1 Cur).
Proof. exact races_host. Qed.
Print Assumptions C74_host_refuted.

(** Refuted: each thread can have a thread-safe allocator with a pool of its own: the pools are over HOST, whose
    counters both change without a lock when they grow. *)
Theorem C74_safe_refuted :
  forall a b, exists g, reaches safes safe67 (two (DAlloc 6 a) (DAlloc 7 b)) g /\ race g (LStat 1 Cur).
Proof. exact races_safe. Qed.
Print Assumptions C74_safe_refuted.

(** Refuted: allocations of zero bytes through different thread-safe allocators: they share one pool without a lock. *)
Theorem C74_zero_refuted :
  forall a b, exists g, reaches safes safe67 (two (DAllocZero 6 a) (DAllocZero 7 b)) g /\ race g (LState zero_id).
Proof. exact races_zero. Qed.
Print Assumptions C74_zero_refuted.

(** Refuted: a deallocation of any size against an allocation of zero bytes: it asks the pool for zero bytes first. *)
Theorem C74_zero_free_refuted :
  forall a b, exists g, reaches safes safe67 (two (DAllocZero 6 a) (DFree 7 b)) g /\ race g (LState zero_id).
Proof. exact races_zero_free. Qed.
Print Assumptions C74_zero_free_refuted.

(** Refuted: the counters of a thread-safe allocator can be read while it is in use. *)
Theorem C74_count_refuted :
  forall a, exists g, reaches safes safe67 (two (DAlloc 6 a) (DCount 6)) g /\ race g (LStat 6 Cur).
Proof. exact races_count. Qed.
Print Assumptions C74_count_refuted.

(** Refuted: the pool under a thread-safe allocator can be released while that is in use. *)
Theorem C74_release_refuted :
  forall a, exists g, reaches safes safe67 (two (DAlloc 6 a) (DRelease 4)) g /\ race g (LState 4).
Proof. exact races_release. Qed.
Print Assumptions C74_release_refuted.

(** Refuted: makeAllocator and getAllocator exclude each other. *)
Theorem C74_names_refuted :
  exists g, reaches safes safe67 (two (DMake 6) DLook) g /\ race g LNames.
Proof. exact races_names. Qed.
Print Assumptions C74_names_refuted.

(** Refuted: two getAllocator calls are both reads: the first for a resource makes it. *)
Theorem C74_fetch_refuted :
  exists g, reaches safes safe67 (two DFetch DLook) g /\ race g LNames.
Proof. exact races_fetch. Qed.
Print Assumptions C74_fetch_refuted.

(** Refuted: getDefaultAllocator can be called by two threads: the first call writes. *)
Theorem C74_default_refuted :
  exists g, reaches safes safe67 (two DDefault DDefault) g /\ race g LDefault.
Proof. exact races_default. Qed.
Print Assumptions C74_default_refuted.

(** Refuted: a pool can be made over a thread-safe allocator in use: its constructor allocates without that lock. *)
Theorem C74_make_refuted :
  forall a, exists g, reaches safes safe67 (two (DMake 6) (DAlloc 6 a)) g /\ race g (LStat 4 Cur).
Proof. exact races_make. Qed.
Print Assumptions C74_make_refuted.

(** Refuted: the records can be listed while memory is allocated. *)
Theorem C74_records_refuted :
  forall a, exists g, reaches safes safe67 (two (DAlloc 6 a) DRecords) g /\ race g LMap.
Proof. exact races_records. Qed.
Print Assumptions C74_records_refuted.

(** Instances.  Two threads use thread-safe allocator 6, one of them both ways of deallocating. *)
Definition both6 (t : Z) : list dcall :=
  if t =? 1 then [DAlloc 6 100; DFree 6 100] else if t =? 2 then [DAllocZero 6 200; DFreeZero 6 200; DAlloc 6 300; DGive 6 300] else [].
Example C74_one_ex :
  grown safes /\ safe67 6 = true /\ (forall t c, In c (both6 t) -> through c = Some 6%nat) /\ apart both6 unpeeked.
Proof.
  split; [exact grown_safes|]. split; [reflexivity|]. unfold both6. split.
  - intros t c. destruct (t =? 1); [|destruct (t =? 2)]; cbn [In]; intuition (subst; reflexivity).
  - intros t u c c' N. destruct (Z.eqb_spec t 1), (Z.eqb_spec u 1), (Z.eqb_spec t 2), (Z.eqb_spec u 2); try lia; cbn [In];
      intros Hc Hc' a; repeat match goal with H : _ \/ _ |- _ => destruct H | H : False |- _ => destruct H end; subst; cbn [about]; congruence.
Qed.

(** Thread 2 waits for thread 1, which is in the middle of its allocation and can go on. *)
Example C74_progress_ex :
  exists g, rrun (repeat 1 5) (r_init (duet (alloc_safe 6 4 100) (alloc_safe 6 4 200))) = Some g /\
    r_rem g 2 <> [] /\ rstep 2 g = None /\ rstep 1 g <> None.
Proof. eexists. split; [reflexivity|]. repeat split; discriminate. Qed.

(** Thread 1 uses 6, thread 2 uses 7: they share HOST, and nothing with changing members. *)
Definition six_seven (t : Z) : list dcall :=
  if t =? 1 then [DAlloc 6 100; DGive 6 100] else if t =? 2 then [DAlloc 7 200; DSize 200; DFree 7 200] else [].
Example C74_memory_ex :
  (forall t c, In c (six_seven t) -> everyday safes c) /\ apart six_seven (careful safes safe67) /\
  exists g, reaches safes safe67 (two (DAlloc 6 100) (DAlloc 7 200)) g /\ race g (LStat 1 Cur).
Proof.
  assert (S67 : forall i j, (i = 6 /\ j = 7 \/ i = 7 /\ j = 6)%nat -> ~ share_state safes i j).
  { intros i j Hij (k & c & Hi & Hj & Hk & Hs).
    assert (E6 : chain safes 6 = [6; 4; 1; 0]%nat) by reflexivity. assert (E7 : chain safes 7 = [7; 5; 1; 0]%nat) by reflexivity.
    assert (K : In k [6; 4; 1; 0]%nat /\ In k [7; 5; 1; 0]%nat) by (destruct Hij as [[-> ->]|[-> ->]]; rewrite E6, E7 in *; auto).
    cbn [In] in K. assert (k = 0 \/ k = 1)%nat as [-> | ->] by lia; vm_compute in Hk; [discriminate|injection Hk as <-; discriminate]. }
  split; [|split; [|apply races_safe]]; unfold six_seven.
  - intros t c. destruct (t =? 1); [|destruct (t =? 2)]; cbn [In]; intuition (subst; cbn; unfold zero_id in *; lia).
  - intros t u c c' N. destruct (Z.eqb_spec t 1), (Z.eqb_spec u 1), (Z.eqb_spec t 2), (Z.eqb_spec u 2); try lia; cbn [In];
      intros Hc Hc'; repeat match goal with H : _ \/ _ |- _ => destruct H | H : False |- _ => destruct H end; subst;
      (split; [intros i j Ei Ej; cbn [through] in *; first [discriminate|injection Ei as <-; injection Ej as <-; split; [lia|intros _; apply S67; lia]]|
               intros a; cbn [about]; congruence]).
Qed.

(** Two resources of the system without anything in common: HOST and the NULL resource. *)
Definition host_null (t : Z) : list dcall :=
  if t =? 1 then [DAlloc 1 100; DFree 1 100] else if t =? 2 then [DAlloc 2 200; DFree 2 200] else [].
Example C74_apart_ex :
  (forall t c, In c (host_null t) -> everyday boot c) /\
  apart host_null (fun c c' => forall i j k, through c = Some i -> through c' = Some j -> i <> j -> under boot i k -> under boot j k -> False).
Proof.
  unfold host_null. split.
  - intros t c. destruct (t =? 1); [|destruct (t =? 2)]; cbn [In]; intuition (subst; cbn; unfold zero_id in *; lia).
  - intros t u c c' N. destruct (Z.eqb_spec t 1), (Z.eqb_spec u 1), (Z.eqb_spec t 2), (Z.eqb_spec u 2); try lia; cbn [In];
      intros Hc Hc' i j k; repeat match goal with H : _ \/ _ |- _ => destruct H | H : False |- _ => destruct H end; subst; cbn [through];
      intros [= <-] [= <-] _ [K0 K] [_ K']; vm_compute in K; vm_compute in K'; lia.
Qed.
