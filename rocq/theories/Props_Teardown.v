(** C51: the end of the program, [~ResourceManager], destroys the allocators newest first.  [lhist] as in
    Props_Loose.v. *)
From Verif Require Import Base BaseFacts HeapModel HeapFacts StratModel WrapModel QuickPoolModel QuickPoolMain QuickPoolRun QuickPoolThms4 MixedPoolModel
  DynPoolModel DynPoolMain DynPoolRun GlobalModel GlobalSpec GlobalRun LooseSpec LooseRun TeardownModel TeardownSpec TeardownFacts.

(** C51: no destructor has undefined behaviour, none uses an allocator already destroyed, and none lets an
    exception escape. *)
Theorem C51_teardown_defined : forall C w X, lhist C w X ->
  gteardown C w <> UB /\ forall w' e, gteardown C w <> Throw w' e.
Proof. exact teardown_defined. Qed.
Print Assumptions C51_teardown_defined.

(** C51: if the program has deallocated everything, all memory goes back to malloc, unless the operation of an
    AllocationAdvisor or AllocationPrefetcher has thrown (see [C51_advisor_leaks_refuted]). *)
Theorem C51_teardown_returns_all : forall C w X w' u, lhist C w X -> gteardown C w = Ok w' u ->
  no_failed_advice C -> (forall i, X i = []) -> h_live (host_heap C w') = [].
Proof. exact teardown_returns_all. Qed.
Print Assumptions C51_teardown_returns_all.

(** C51: memory the program still holds is not given back, except that of a MonotonicAllocationStrategy or SlotPool:
    every such allocation still lies inside a block taken from malloc. *)
Theorem C51_live_survives_partial : forall C w X w' u i p n, lhist C w X -> gteardown C w = Ok w' u ->
  keeps (kind_at C i) -> In (p, n) (X i) -> exists l, In l (h_live (host_heap C w')) /\ inside (p, n) l.
Proof. exact teardown_live_survives. Qed.
Print Assumptions C51_live_survives_partial.

(** Five allocators: a SizeLimiter (1), a QuickPool (2) on it, a MonotonicAllocationStrategy (3) on the pool, a
    DynamicPoolList (4) and a FixedPool (5) on HOST.  Shown: what the program holds, and what malloc has handed
    out before and after. *)
Definition ex_setup : list lcall :=
  [LCreate (mkNode (KSizeLimiter 4000) 0); LCreate (mkNode (KQuick (mkCfg 64 32 16 h_percent_0) 3) 1);
   LCreate (mkNode (KMonotonic 100) 2); LCreate (mkNode (KDynamic (mkDcfg 64 64 16 dh_percent_100)) 0);
   LCreate (mkNode (KFixed 8 4 3) 0);
   LAlloc true 2 40; LAlloc true 3 20; LAlloc true 4 30; LAlloc true 5 8].

Definition ex_obs (C : list nodecfg) (w : gworld C) (X : holdings) : list (list region) * list region * option (list region) :=
  (map X (seq 0 6), h_live (gheap C w), match gteardown C w with Ok w' _ => Some (h_live (host_heap C w')) | _ => None end).

(** With live allocations, only the block of the monotonic strategy is given back. *)
Example C51_ex_live : exists C w X, lhist C w X /\ ex_obs C w X =
  ([[]; []; [(208, 40)]; [(16, 20)]; [(288, 30)]; [(160, 8)]],
   [(288, 80); (208, 64); (160, 32); (16, 128)], Some [(288, 80); (208, 64); (160, 32)]).
Proof.
  apply (lobs_hist _ bump ex_setup ex_obs).
  - intros c H. unfold ex_setup in H. repeat (destruct H as [H|H]; [inversion H; subst; try exact I; first [apply heur_ok_all|apply dheur_ok_all]|]). destruct H.
  - vm_compute. reflexivity.
Qed.

(** With none, everything is. *)
Example C51_ex_empty : exists C w X, lhist C w X /\ ex_obs C w X =
  ([[]; []; []; []; []; []], [(288, 80); (208, 64); (160, 32); (16, 128)], Some []).
Proof.
  apply (lobs_hist _ bump (ex_setup ++ [LFree true 5 160 8; LFree true 4 288 30; LFree false 3 16 0; LFree true 2 208 40]) ex_obs).
  - intros c H. unfold ex_setup in H. repeat (destruct H as [H|H]; [inversion H; subst; try exact I; first [apply heur_ok_all|apply dheur_ok_all]|]). destruct H.
  - vm_compute. reflexivity.
Qed.

(** Oldest first would be undefined: the pool gives its blocks back to an allocator that no longer exists. *)
Example C51_order_matters :
  exists C w X, lhist C w X /\ galloc_list C = [1; 0]%nat /\ gdestroy_list [] C [0; 1]%nat w = UB.
Proof.
  destruct (lobs_hist _ bump [LCreate (mkNode (KQuick (mkCfg 64 32 16 h_percent_0) 3) 0); LAlloc true 1 40; LFree true 1 16 40; LAlloc true 1 8; LFree true 1 16 8]
    (fun C w X => (galloc_list C, match gdestroy_list [] C [0; 1]%nat w with UB => true | _ => false end)) ([1; 0]%nat, true)) as (C & w & X & H & E).
  - intros c H. repeat (destruct H as [H|H]; [inversion H; subst; try exact I; first [apply heur_ok_all|apply dheur_ok_all]|]). destruct H.
  - vm_compute. reflexivity.
  - exists C, w, X. split; [exact H|]. pose proof (f_equal snd E) as E2. cbn [snd] in E2. split; [exact (f_equal fst E)|].
    destruct (gdestroy_list [] C [0; 1]%nat w); try discriminate. reflexivity.
Qed.

(** "Memory the program still holds is not given back" is false of MonotonicAllocationStrategy ... *)
Theorem C51_monotonic_live_refuted :
  exists C w X w' u, lhist C w X /\ In (16, 20) (X 1%nat) /\ gteardown C w = Ok w' u /\ h_live (host_heap C w') = [].
Proof.
  destruct (lobs_hist _ bump [LCreate (mkNode (KMonotonic 100) 0); LAlloc true 1 20]
    (fun C w X => (X 1%nat, match gteardown C w with Ok w' _ => Some (h_live (host_heap C w')) | _ => None end)) ([(16, 20)], Some [])) as (C & w & X & H & E).
  - intros c H. repeat (destruct H as [H|H]; [inversion H; subst; exact I|]). destruct H.
  - vm_compute. reflexivity.
  - injection E as E1 E2. destruct (gteardown C w) as [w' u| | | |] eqn:Et; try discriminate. injection E2 as E2.
    exists C, w, X, w', u. rewrite E1. repeat split; auto. now left.
Qed.
Print Assumptions C51_monotonic_live_refuted.

(** ... and of SlotPool.  Moreover the destructor passes the negated length of a slot in use to its parent, whose
    current size then ends at 40 with nothing handed out, instead of at 0. *)
Theorem C51_slot_pool_live_refuted :
  exists C w X w' u, lhist C w X /\ In (16, 20) (X 1%nat) /\ gteardown C w = Ok w' u /\ h_live (host_heap C w') = [] /\
    st_cur (gstats C 0 w') = 40.
Proof.
  destruct (lobs_hist _ bump [LCreate (mkNode (KSlotPool 2) 0); LAlloc true 1 20; LAlloc true 1 30; LFree true 1 48 30]
    (fun C w X => (X 1%nat, match gteardown C w with Ok w' _ => Some (h_live (host_heap C w'), st_cur (gstats C 0 w')) | _ => None end))
    ([(16, 20)], Some ([], 40))) as (C & w & X & H & E).
  - intros c H. repeat (destruct H as [H|H]; [inversion H; subst; exact I|]). destruct H.
  - vm_compute. reflexivity.
  - injection E as E1 E2. destruct (gteardown C w) as [w' u| | | |] eqn:Et; try discriminate. injection E2 as E2 E3.
    exists C, w, X, w', u. rewrite E1. repeat split; auto. now left.
Qed.
Print Assumptions C51_slot_pool_live_refuted.

(** "All memory goes back once everything is deallocated" is false when the operation of an AllocationAdvisor has thrown. *)
Theorem C51_advisor_leaks_refuted :
  exists C w X w' u, lhist C w X /\ (forall i, (i <= length C)%nat -> X i = []) /\ gteardown C w = Ok w' u /\
    h_live (host_heap C w') = [(16, 20)].
Proof.
  destruct (lobs_hist _ bump [LCreate (mkNode (KAdvised (fun k _ _ => Nat.eqb k 0)) 0); LAlloc true 1 20; LAlloc true 1 30; LFree true 1 48 30]
    (fun C w X => (length C, map X (seq 0 2), match gteardown C w with Ok w' _ => Some (h_live (host_heap C w')) | _ => None end))
    (1%nat, [[]; []], Some [(16, 20)])) as (C & w & X & H & E).
  - intros c H. repeat (destruct H as [H|H]; [inversion H; subst; exact I|]). destruct H.
  - vm_compute. reflexivity.
  - injection E as E0 E1 E1' E2. destruct (gteardown C w) as [w' u| | | |] eqn:Et; try discriminate. injection E2 as E2.
    exists C, w, X, w', u. rewrite E0. split; [exact H|]. split; [|auto].
    intros i Hi. destruct i as [|[|i]]; auto. lia.
Qed.
Print Assumptions C51_advisor_leaks_refuted.
