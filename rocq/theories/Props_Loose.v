(** C52: untracked allocators, and deallocations that declare a wrong size.  [lhist C w X]: the state [w] of the
    allocators [C] is reached by creations, tracked and untracked allocations, deallocations declaring any
    size, releases and coalescings; [X i] is what the program holds from allocator [i]. *)
From Verif Require Import Base BaseFacts HeapModel HeapFacts StratModel WrapModel QuickPoolModel QuickPoolMain QuickPoolRun QuickPoolThms4 MixedPoolModel
  DynPoolModel DynPoolMain DynPoolRun GlobalModel GlobalSpec GlobalRun LooseSpec LooseFacts LooseRun.

(** C52: what the program holds stays non-null, inside the address space and pairwise disjoint. *)
Theorem C52_disjoint : forall C w X, lhist C w X -> good (all_held X (S (length C))).
Proof. exact lhist_disjoint. Qed.
Print Assumptions C52_disjoint.

(** C52: no call has undefined behaviour, and a deallocation throws only from a DynamicPoolList that coalesces,
    whatever size it declares. *)
Theorem C52_defined : forall C w X i, lhist C w X ->
  (forall b n, user_guard C i n w -> p_alloc (gvia b C i) n w <> UB) /\
  (forall b p n m, In (p, n) (X i) ->
     p_dealloc (gvia b C i) p m w <> UB /\
     (~ coalescing (kind_at C i) -> forall w' e, p_dealloc (gvia b C i) p m w <> Throw w' e)) /\
  grelease C i w <> UB /\ gcoalesce C i w <> UB /\
  (forall c, node_ok C c -> gcreate C c w <> UB).
Proof. exact lhist_defined. Qed.
Print Assumptions C52_defined.

(** C52: these histories include all those in which every size is right. *)
Theorem C52_covers_tracked : forall C w X, ghist C w X -> lhist C w X.
Proof. exact ghist_lhist. Qed.
Print Assumptions C52_covers_tracked.

(** Untracked use of a QuickPool (2) on a SizeLimiter (1) and of an AlignedAllocator (3) on the pool; every
    deallocation declares size 0. *)
Example C52_ex :
  exists C w X, lhist C w X /\
    (map X (seq 0 4), h_live (gheap C w), length C) =
    ([[]; []; [(16, 40)]; [(128, 10)]], [(112, 112); (16, 80)], 3%nat).
Proof.
  apply (lobs_hist _ bump
    [LCreate (mkNode (KSizeLimiter 1000) 0); LCreate (mkNode (KQuick (mkCfg 64 32 16 h_percent_0) 3) 1);
     LCreate (mkNode (KAligned 64) 2); LAlloc false 2 40; LAlloc false 3 20; LFree false 3 128 0; LAlloc false 3 10]
    (fun C w X => (map X (seq 0 4), h_live (gheap C w), length C))).
  - intros c H. repeat (destruct H as [H|H]; [inversion H; subst; try exact I; apply heur_ok_all|]). destruct H.
  - vm_compute. reflexivity.
Qed.

(** "A SizeLimiter refuses only what would exceed its limit" is false of an untracked one: nothing is live, the
    limit is 100, and 60 bytes are refused. *)
Theorem C52_limiter_starves_refuted :
  exists C w X, lhist C w X /\ (forall i, (i <= length C)%nat -> X i = []) /\ kind_at C 1 = Some (KSizeLimiter 100) /\
    exists w', p_alloc (gvia false C 1) 60 w = Throw w' OutOfMemory.
Proof.
  destruct (lobs_hist _ bump [LCreate (mkNode (KSizeLimiter 100) 0); LAlloc false 1 60; LFree false 1 16 0]
    (fun C w X => (X 0%nat, X 1%nat, kind_at C 1, length C,
       match p_alloc (gvia false C 1) 60 w with Throw _ OutOfMemory => true | _ => false end))
    ([], [], Some (KSizeLimiter 100), 1%nat, true)) as (C & w & X & H & E).
  - intros c H. repeat (destruct H as [H|H]; [inversion H; subst; exact I|]). destruct H.
  - vm_compute. reflexivity.
  - exists C, w, X. split; [exact H|]. pose proof (f_equal snd E) as E4. cbn [snd] in E4. injection E as E0 E1 E2 E3 _. rewrite E3.
    split; [|split; [exact E2|]].
    + intros i Hi. destruct i as [|[|i]]; auto. lia.
    + destruct (p_alloc (gvia false C 1) 60 w) as [?|w' []| | |]; try discriminate. now exists w'.
Qed.
Print Assumptions C52_limiter_starves_refuted.

(** "The statistics of the parent count what it has handed out" is false below an untracked allocator that forwards
    the declared size: after an allocation and its deallocation, HOST still reports 60 bytes. *)
Theorem C52_parent_statistics_refuted :
  exists C w X, lhist C w X /\ (forall i, (i <= length C)%nat -> X i = []) /\ h_live (gheap C w) = [] /\ st_cur (gstats C 0 w) = 60.
Proof.
  destruct (lobs_hist _ bump [LCreate (mkNode KPassThrough 0); LAlloc false 1 60; LFree false 1 16 0]
    (fun C w X => (X 0%nat, X 1%nat, h_live (gheap C w), length C, st_cur (gstats C 0 w)))
    ([], [], [], 1%nat, 60)) as (C & w & X & H & E).
  - intros c H. repeat (destruct H as [H|H]; [inversion H; subst; exact I|]). destruct H.
  - vm_compute. reflexivity.
  - exists C, w, X. split; [exact H|]. injection E as E0 E1 E2 E3 E4. rewrite E3.
    split; [|split; [exact E2|exact E4]].
    intros i Hi. destruct i as [|[|i]]; auto. lia.
Qed.
Print Assumptions C52_parent_statistics_refuted.
