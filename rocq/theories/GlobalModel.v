(** A whole collection of allocators: the HOST resource (identifier 0) and any number of
    strategies created one after the other on top of earlier ones
    (ResourceManager.inl:20-55), each with its statistics
    (AllocationStrategy.cpp:20-55).  The head of the list is the newest strategy; strategy
    number [i] is the [i]-th one created. *)
From Verif Require Import Base HeapModel StratModel WrapModel QuickPoolModel QuickPoolStrat FixedPoolModel
  MixedPoolModel DynPoolModel.

(** The strategies covered, with their constructor arguments. *)
Inductive kind : Type :=
| KQuick (cfg : qcfg) (fuel : nat)
| KSizeLimiter (limit : Z)
| KAligned (alignment : Z)
| KPassThrough
| KAdvised (fails : nat -> Z -> Z -> bool)
| KMonotonic (capacity : Z)
| KSlotPool (slots : nat)
| KFixed (obj : Z) (per : nat) (fuel : nat)
| KMixed (cfg : mcfg) (cfuel fuel : nat)
| KDynamic (cfg : dcfg)
| KDynamicKeep (first next align : Z).   (* heuristic percent_releasable(0): never coalesces on its own *)

Definition strat_of (k : kind) : Strat :=
  match k with
  | KQuick cfg fuel => QuickPool cfg fuel
  | KSizeLimiter limit => SizeLimiter limit
  | KAligned a => AlignedAllocator a
  | KPassThrough => PassThrough
  | KAdvised fails => Advised fails
  | KMonotonic capacity => Monotonic capacity
  | KSlotPool slots => SlotPool slots
  | KFixed obj per fuel => FixedPool obj per fuel
  | KMixed cfg cfuel fuel => MixedPool cfg cfuel fuel
  | KDynamic cfg => DynamicPoolList cfg
  | KDynamicKeep first next align => DynamicPoolList (mkDcfg first next align dh_percent_0)
  end.

Record nodecfg : Type := mkNode { nc_kind : kind; nc_parent : nat }.
Notation nc_strat c := (strat_of (nc_kind c)) (only parsing).

(** The state of all allocators. *)
Fixpoint gworld (C : list nodecfg) : Type :=
  match C with
  | [] => (stats * heap)%type
  | c :: C' => ((stats * st_ty (nc_strat c)) * gworld C')%type
  end.

Definition lift_parent {A W : Type} (P : Parent W) : Parent (A * W) :=
  mkParent (fun n aw => omap (pair (fst aw)) (fun p => p) (p_alloc P n (snd aw)))
           (fun p n aw => omap (pair (fst aw)) (fun u => u) (p_dealloc P p n (snd aw))).

(** [allocate_internal]/[deallocate_internal] of the HOST resource. *)
Definition host_internal : Parent (stats * heap) :=
  mkParent
    (fun n sh => omap (pair (stats_add n (fst sh))) (fun p => p) (p_alloc host n (snd sh)))
    (fun p n sh => omap (pair (stats_sub n (fst sh))) (fun u => u) (p_dealloc host p n (snd sh))).

(** Allocator [i] as seen by a strategy created on top of it. *)
Fixpoint gparent (C : list nodecfg) (i : nat) : Parent (gworld C) :=
  match C return Parent (gworld C) with
  | [] => host_internal
  | c :: C' =>
      if Nat.eqb i (S (length C'))
      then internal (nc_strat c) (gparent C' (nc_parent c))
      else lift_parent (gparent C' i)
  end.

(** Allocator [i] as used by the program through [Allocator] (Allocator.inl:20-48, 91-112
    with mixins/Inspector.cpp:17-27, 41-56): the statistics are updated after a successful
    allocation and before the deallocation. *)
Fixpoint guser (C : list nodecfg) (i : nat) : Parent (gworld C) :=
  match C return Parent (gworld C) with
  | [] =>
      mkParent
        (fun n sh => match p_alloc host n (snd sh) with
                     | Ok h p => Ok (stats_add n (fst sh), h) p
                     | Throw h e => Throw (fst sh, h) e
                     | UB => UB | Abort => Abort | NoFuel => NoFuel
                     end)
        (p_dealloc host_internal)
  | c :: C' =>
      if Nat.eqb i (S (length C'))
      then mkParent
        (fun n nw =>
           match st_alloc (nc_strat c) _ (gparent C' (nc_parent c)) n (snd (fst nw), snd nw) with
           | Ok sw p => Ok ((stats_add n (fst (fst nw)), fst sw), snd sw) p
           | Throw sw e => Throw ((fst (fst nw), fst sw), snd sw) e
           | UB => UB | Abort => Abort | NoFuel => NoFuel
           end)
        (deallocate_internal (nc_strat c) (gparent C' (nc_parent c)))
      else lift_parent (guser C' i)
  end.

(** [Allocator::release] (Allocator.cpp:28-41) and [umpire::coalesce] (Umpire.cpp:289-315) on
    allocator [i]. *)
Fixpoint grelease (C : list nodecfg) (i : nat) : gworld C -> outcome (gworld C) unit :=
  match C return gworld C -> outcome (gworld C) unit with
  | [] => fun w => Ok w tt
  | c :: C' => fun nw =>
      if Nat.eqb i (S (length C'))
      then omap (fun sw => ((fst (fst nw), fst sw), snd sw)) (fun u => u)
                (st_release (nc_strat c) _ (gparent C' (nc_parent c)) (snd (fst nw), snd nw))
      else omap (pair (fst nw)) (fun u => u) (grelease C' i (snd nw))
  end.

Fixpoint gcoalesce (C : list nodecfg) (i : nat) : gworld C -> outcome (gworld C) unit :=
  match C return gworld C -> outcome (gworld C) unit with
  | [] => fun w => Throw w RuntimeError
  | c :: C' => fun nw =>
      if Nat.eqb i (S (length C'))
      then omap (fun sw => ((fst (fst nw), fst sw), snd sw)) (fun u => u)
                (st_coalesce (nc_strat c) _ (gparent C' (nc_parent c)) (st_cur (fst (fst nw)))
                             (snd (fst nw), snd nw))
      else omap (pair (fst nw)) (fun u => u) (gcoalesce C' i (snd nw))
  end.

(** ResourceManager.inl:20-55 [makeAllocator]: run the constructor; the new strategy starts
    with zero statistics.  When the constructor throws, no strategy is added. *)
Definition gcreate (C : list nodecfg) (c : nodecfg) (w : gworld C)
  : outcome (gworld C) (gworld (c :: C)) :=
  match st_make (nc_strat c) _ (gparent C (nc_parent c)) w with
  | Ok w' s => Ok w' ((stats0, s), w')
  | Throw w' e => Throw w' e
  | UB => UB | Abort => Abort | NoFuel => NoFuel
  end.

(** Statistics of allocator [i] (Allocator.cpp:49-67 through the strategy getters). *)
Fixpoint gstats (C : list nodecfg) (i : nat) : gworld C -> stats :=
  match C return gworld C -> stats with
  | [] => fun w => fst w
  | c :: C' => fun nw => if Nat.eqb i (S (length C')) then fst (fst nw) else gstats C' i (snd nw)
  end.

(** The virtual functions [allocate]/[deallocate] of strategy [i], called directly: no statistics. *)
Fixpoint graw (C : list nodecfg) (i : nat) : Parent (gworld C) :=
  match C return Parent (gworld C) with
  | [] => lift_parent host
  | c :: C' =>
      if Nat.eqb i (S (length C'))
      then mkParent
        (fun n nw =>
           omap (fun sw => ((fst (fst nw), fst sw), snd sw)) (fun p => p)
             (st_alloc (nc_strat c) _ (gparent C' (nc_parent c)) n (snd (fst nw), snd nw)))
        (fun p n nw =>
           omap (fun sw => ((fst (fst nw), fst sw), snd sw)) (fun u => u)
             (st_dealloc (nc_strat c) _ (gparent C' (nc_parent c)) (st_cur (fst (fst nw))) p n (snd (fst nw), snd nw)))
      else lift_parent (graw C' i)
  end.

(** Assignment to the statistics of strategy [i]. *)
Fixpoint gupd (C : list nodecfg) (i : nat) (f : stats -> stats) : gworld C -> gworld C :=
  match C return gworld C -> gworld C with
  | [] => fun w => (f (fst w), snd w)
  | c :: C' => fun nw =>
      if Nat.eqb i (S (length C')) then ((f (fst (fst nw)), snd (fst nw)), snd nw)
      else (fst nw, gupd C' i f (snd nw))
  end.
