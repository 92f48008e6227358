(** Allocation strategies over an arbitrary parent, and the statistics every
    strategy keeps (src/umpire/strategy/AllocationStrategy.cpp, .hpp). *)
From Verif Require Import Base.

(** AllocationStrategy.hpp:135-137 [m_current_size], [m_high_watermark],
    [m_allocation_count], all [size_t]. *)
Record stats : Type := mkStats {
  st_cur : Z;
  st_hwm : Z;
  st_cnt : Z
}.

Definition stats0 : stats := mkStats 0 0 0.

(** AllocationStrategy.cpp:22-27 and mixins/Inspector.cpp:19-24 (same three
    assignments). *)
Definition stats_add (n : Z) (s : stats) : stats :=
  let cur := w64 (st_cur s + n) in
  mkStats cur (if st_hwm s <? cur then cur else st_hwm s) (w64 (st_cnt s + 1)).

(** AllocationStrategy.cpp:51-52 and mixins/Inspector.cpp:47-48. *)
Definition stats_sub (n : Z) (s : stats) : stats :=
  mkStats (w64 (st_cur s - n)) (st_hwm s) (w64 (st_cnt s - 1)).

(** One kind of strategy with its constructor arguments fixed.  [st_ty] is the
    object's own state; all operations work over an arbitrary parent.
    [st_dealloc] additionally receives the strategy's [m_current_size] (the only use is
    DynamicPoolList.cpp:163 and 184-186). *)
Record Strat : Type := mkStrat {
  st_ty : Type;
  st_make : forall W, Parent W -> W -> outcome W st_ty;
  st_alloc : forall W, Parent W -> Z -> st_ty * W -> outcome (st_ty * W) Z;
  st_dealloc : forall W, Parent W -> Z -> Z -> Z -> st_ty * W -> outcome (st_ty * W) unit;
  st_release : forall W, Parent W -> st_ty * W -> outcome (st_ty * W) unit;
  st_coalesce : forall W, Parent W -> Z -> st_ty * W -> outcome (st_ty * W) unit
}.

(** AllocationStrategy.cpp:67-70: the default [release] does nothing. *)
Definition no_release {S : Type} (W : Type) (P : Parent W) (sw : S * W) : outcome (S * W) unit :=
  Ok sw tt.

(** Umpire.cpp:289-315: [coalesce] on anything but a pool throws. *)
Definition no_coalesce {S : Type} (W : Type) (P : Parent W) (cur : Z) (sw : S * W)
  : outcome (S * W) unit := Throw sw RuntimeError.

(** The strategy as its own clients see it, [allocate]/[deallocate] only. *)
Definition st_parent (S : Strat) {W : Type} (P : Parent W) (cur : Z) : Parent (st_ty S * W) :=
  mkParent (st_alloc S W P) (st_dealloc S W P cur).

(** The same with statistics: AllocationStrategy.cpp:20-30 [allocate_internal]
    (the counters are updated before the call and not restored when it throws) and
    :49-55 [deallocate_internal]. *)
Section Internal.
  Context (S : Strat) {W : Type} (P : Parent W).

  Definition node : Type := (stats * st_ty S)%type.

  Definition allocate_internal (n : Z) (nw : node * W) : outcome (node * W) Z :=
    let '((st, s), w) := nw in
    let st1 := stats_add n st in
    omap (fun sw => ((st1, fst sw), snd sw)) (fun p => p) (st_alloc S W P n (s, w)).

  Definition deallocate_internal (p n : Z) (nw : node * W) : outcome (node * W) unit :=
    let '((st, s), w) := nw in
    let st1 := stats_sub n st in
    omap (fun sw => ((st1, fst sw), snd sw)) (fun u => u)
         (st_dealloc S W P (st_cur st1) p n (s, w)).

  Definition internal : Parent (node * W) := mkParent allocate_internal deallocate_internal.
End Internal.
