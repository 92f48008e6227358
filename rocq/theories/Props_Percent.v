(** Property C82: the percentages of the coalescing heuristics. *)
From Coq Require Import Floats.SpecFloat.
From Verif Require Import Base HeapModel QuickPoolModel QuickPoolMain QuickPoolSpec QuickPoolRun QuickPoolThms4 DynPoolModel DynPoolMain PercentModel PercentSpec PercentFacts.

(** The numbers are those of single precision: quotients and products are right but for one part in 2^24, ... *)
Theorem C82_rounding : forall n d, 0 <= n -> 0 < d -> within n d (round_quot n d).
Proof. intros n d Hn Hd. exact (proj1 (round_within n d Hn Hd)). Qed.
Print Assumptions C82_rounding.

(** ... and the same as those of the library. *)
Example C82_library : forallb (fun a => forallb (fun k => sf_threshold (Z.of_nat k) a =? threshold (Z.of_nat k) a) (seq 1 99))
  [0; 1; 2; 3; 99; 100; 101; 4096; 12864; 1048576; 16777215; 16777216; 16777217; 33554435; 536870913; 1073754169; 1099511627776; 9223372036854775807; 18446744073709551615] = true.
Proof. vm_compute. reflexivity. Qed.

(** A percentage outside 0 to 100 is refused. *)
Theorem C82_range : forall p,
  (percent_releasable p = None <-> p < 0 \/ 100 < p) /\ (percent_releasable_hwm p = None <-> p < 0 \/ 100 < p) /\
  (d_percent_releasable p = None <-> p < 0 \/ 100 < p) /\ (d_percent_releasable_hwm p = None <-> p < 0 \/ 100 < p).
Proof. exact range_none. Qed.
Print Assumptions C82_range.

(** Any accepted percentage is a heuristic for which the theorems on the pools hold (C08-C14, C16-C18). *)
Theorem C82_pools : forall p h d,
  (percent_releasable p = Some h \/ percent_releasable_hwm p = Some h -> heur_ok h) /\
  (d_percent_releasable p = Some d \/ d_percent_releasable_hwm p = Some d -> dheur_ok d).
Proof. intros p h d. exact (conj (pct_ok p h) (d_pct_ok p d)). Qed.
Print Assumptions C82_pools.

(** Percentage 0 never asks for coalescing. *)
Theorem C82_never : forall v cur h hw dh dhw, percent_releasable 0 = Some h -> percent_releasable_hwm 0 = Some hw ->
  d_percent_releasable 0 = Some dh -> d_percent_releasable_hwm 0 = Some dhw -> h v = 0 /\ hw v = 0 /\ dh cur v = 0 /\ dhw cur v = 0.
Proof. exact pct_never. Qed.
Print Assumptions C82_never.

(** When that percentage of the memory is releasable the pool is asked to coalesce, when less is releasable it is not, but for what single
    precision cannot tell (below: the exact claim is false). *)
Theorem C82_enough_partial : forall p h hw dh dhw v cur, 0 < p < 100 -> sizes_ok v -> clearly_enough p v ->
  percent_releasable p = Some h -> percent_releasable_hwm p = Some hw -> d_percent_releasable p = Some dh -> d_percent_releasable_hwm p = Some dhw ->
  h v = v_actual v /\ hw v = v_aligned_hwm v /\ dh cur v = v_actual v /\ dhw cur v = v_aligned_hwm v.
Proof. exact pct_enough. Qed.
Print Assumptions C82_enough_partial.

Theorem C82_less_partial : forall p h hw dh dhw v cur, 0 < p < 100 -> sizes_ok v -> clearly_less p v ->
  percent_releasable p = Some h -> percent_releasable_hwm p = Some hw -> d_percent_releasable p = Some dh -> d_percent_releasable_hwm p = Some dhw ->
  h v = 0 /\ hw v = 0 /\ dh cur v = 0 /\ dhw cur v = 0.
Proof. exact pct_less. Qed.
Print Assumptions C82_less_partial.

(** A pool with nothing in use is asked to coalesce at any percentage but 0; at 100 only such a QuickPool is. *)
Theorem C82_all : forall p h hw v, 0 < p <= 100 -> sizes_ok v -> v_releasable v = v_actual v ->
  percent_releasable p = Some h -> percent_releasable_hwm p = Some hw -> h v = v_actual v /\ hw v = v_aligned_hwm v.
Proof. exact pct_all. Qed.
Print Assumptions C82_all.

Theorem C82_all_dynamic : forall p h hw v, 0 < p <= 100 -> sizes_ok v -> v_releasable v = v_actual v ->
  d_percent_releasable p = Some h -> d_percent_releasable_hwm p = Some hw -> h 0 v = v_actual v /\ hw 0 v = v_aligned_hwm v.
Proof. exact d_pct_all. Qed.
Print Assumptions C82_all_dynamic.

Theorem C82_hundred : forall h hw v, sizes_ok v -> v_releasable v < v_actual v -> percent_releasable 100 = Some h -> percent_releasable_hwm 100 = Some hw ->
  h v = 0 /\ hw v = 0.
Proof. exact pct_hundred. Qed.
Print Assumptions C82_hundred.

Definition ex_view (actual releasable : Z) : qview := mkView actual releasable 1 3 64 4096 actual 5 64.
Example C82_case : sizes_ok (ex_view 4096 2049) /\ clearly_enough 50 (ex_view 4096 2049) /\ clearly_less 50 (ex_view 4096 2046) /\
  (exists h, percent_releasable 50 = Some h /\ h (ex_view 4096 2049) = 4096 /\ h (ex_view 4096 2048) = 4096 /\ h (ex_view 4096 2047) = 0) /\
  (exists h, percent_releasable 100 = Some h /\ h (ex_view 4096 4096) = 4096 /\ h (ex_view 4096 4095) = 0).
Proof.
  unfold sizes_ok, clearly_enough, clearly_less. cbn [ex_view v_actual v_releasable]. unfold M64. split; [lia|]. split; [lia|]. split; [lia|].
  split; eexists; repeat split.
Qed.

(** The exact percentage is false in both directions: 52 of 100 bytes count as 53 percent, and 18119395 of 33554435 bytes do not count as
    54 percent. *)
Theorem C82_exact_refuted : exists h h' v w, percent_releasable 53 = Some h /\ percent_releasable 54 = Some h' /\ sizes_ok v /\ sizes_ok w /\
  100 * v_releasable v < 53 * v_actual v /\ 0 < v_actual v /\ h v = v_actual v /\
  54 * v_actual w <= 100 * v_releasable w /\ h' w = 0.
Proof.
  eexists. eexists. exists (ex_view 100 52), (ex_view 33554435 18119395). split; [reflexivity|]. split; [reflexivity|].
  unfold sizes_ok, M64. cbn [ex_view v_actual v_releasable]. repeat split; lia.
Qed.
Print Assumptions C82_exact_refuted.

(** QuickPool does not return from the deallocation of the first of two blocks, at any percentage between. *)
Theorem C82_loops_refuted : forall p h, 0 < p < 100 -> percent_releasable p = Some h -> exists U sw H,
  crun (ex_cfg h) 1 [CAlloc 12800; CAlloc 32] (cinit bump) = Some (U, sw, H) /\ U = [(12848, 32); (16, 12800)] /\
  forall fuel, q_deallocate host (ex_cfg h) fuel 16 sw = NoFuel.
Proof. exact pct_loops. Qed.
Print Assumptions C82_loops_refuted.
