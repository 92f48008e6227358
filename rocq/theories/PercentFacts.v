(** Proofs about the percentages of the coalescing heuristics. *)
From Coq Require Import Floats.SpecFloat.
From Verif Require Import Base BaseFacts AlignedModel AlignedFacts HeapModel HeapFacts QuickPoolModel QuickPoolInv QuickPoolFacts QuickPoolOps
  QuickPoolMain QuickPoolSpec QuickPoolThms QuickPoolThms2 QuickPoolThms3 QuickPoolRun QuickPoolThms4 DynPoolModel DynPoolMain DynPoolRun PercentModel PercentSpec.

(** ** Rounding *)
Lemma nearest_half a b : 0 < b -> 2 * Z.abs (nearest_even a b * b - a) <= b.
Proof.
  intros Hb. unfold nearest_even. pose proof (Z.div_mod a b ltac:(lia)) as E. pose proof (Z.mod_pos_bound a b Hb) as R.
  set (q := a / b) in *. set (r := a mod b) in *.
  destruct (Z.ltb_spec (2 * r) b); [replace (q * b - a) with (- r) by lia; lia|].
  destruct (Z.ltb_spec b (2 * r)); [replace ((q + 1) * b - a) with (b - r) by lia; lia|].
  destruct (Z.even q); [replace (q * b - a) with (- r) by lia|replace ((q + 1) * b - a) with (b - r) by lia]; lia.
Qed.

Lemma shift_exp n d k j : 0 <= j -> 0 < n -> 0 < d -> d * 2 ^ (Z.max 0 k) <= n * 2 ^ (Z.max 0 (- k)) ->
  2 ^ j * (d * 2 ^ (Z.max 0 (k - j))) <= n * 2 ^ (Z.max 0 (- (k - j))).
Proof.
  intros Hj Hn Hd H. destruct (Z.le_gt_cases k 0).
  - replace (Z.max 0 k) with 0 in H by lia. replace (Z.max 0 (- k)) with (- k) in H by lia.
    replace (Z.max 0 (k - j)) with 0 by lia. replace (Z.max 0 (- (k - j))) with (j + - k) by lia. rewrite Z.pow_add_r by lia.
    pose proof (Z.pow_pos_nonneg 2 j ltac:(lia) Hj). nia.
  - replace (Z.max 0 (- k)) with 0 in H by lia. replace (Z.max 0 k) with k in H by lia. destruct (Z.le_gt_cases k j).
    + replace (Z.max 0 (k - j)) with 0 by lia. replace (Z.max 0 (- (k - j))) with (j - k) by lia.
      replace j with (k + (j - k)) at 1 by lia. rewrite Z.pow_add_r by lia. pose proof (Z.pow_pos_nonneg 2 (j - k) ltac:(lia) ltac:(lia)). nia.
    + replace (Z.max 0 (k - j)) with (k - j) by lia. replace (Z.max 0 (- (k - j))) with 0 by lia.
      replace k with (j + (k - j)) in H by lia. rewrite Z.pow_add_r in H by lia. nia.
Qed.

Lemma log_below n d : 0 < n -> 0 < d -> let k := Z.log2 n - Z.log2 d - 1 in d * 2 ^ (Z.max 0 k) <= n * 2 ^ (Z.max 0 (- k)).
Proof.
  intros Hn Hd k. pose proof (Z.log2_spec n Hn) as [N _]. pose proof (Z.log2_spec d Hd) as [_ D]. rewrite <- Z.add_1_r in D.
  pose proof (Z.log2_nonneg n). pose proof (Z.log2_nonneg d). destruct (Z.le_gt_cases k 0).
  - replace (Z.max 0 k) with 0 by lia. replace (Z.max 0 (- k)) with (- k) by lia.
    replace (Z.log2 d + 1) with (Z.log2 n + - k) in D by (unfold k; lia). rewrite Z.pow_add_r in D by lia.
    pose proof (Z.pow_pos_nonneg 2 (- k) ltac:(lia) ltac:(lia)). nia.
  - replace (Z.max 0 k) with k by lia. replace (Z.max 0 (- k)) with 0 by lia.
    replace (Z.log2 n) with (Z.log2 d + 1 + k) in N by (unfold k; lia). rewrite Z.pow_add_r in N by lia.
    pose proof (Z.pow_pos_nonneg 2 k ltac:(lia) ltac:(lia)). nia.
Qed.

Lemma exponent_below n d : 0 < n -> 0 < d -> let e := exponent n d in 2 ^ 23 * (d * 2 ^ (Z.max 0 e)) <= n * 2 ^ (Z.max 0 (- e)).
Proof.
  intros Hn Hd. unfold exponent. cbv zeta. destruct (Z.ltb_spec (n * 2 ^ Z.max 0 (- (Z.log2 n - Z.log2 d))) (d * 2 ^ Z.max 0 (Z.log2 n - Z.log2 d))).
  - apply shift_exp; try lia. now apply log_below.
  - apply shift_exp; try lia.
Qed.

Lemma den_pos x : 0 < f_den x.
Proof. unfold f_den. apply Z.pow_pos_nonneg; lia. Qed.

Lemma round_within n d : 0 <= n -> 0 < d -> within n d (round_quot n d) /\ 0 <= f_num (round_quot n d).
Proof.
  intros Hn Hd. unfold round_quot, within. destruct (Z.eqb_spec n 0) as [->|N]; [unfold f_num, f_den; cbn; lia|].
  pose proof (exponent_below n d ltac:(lia) Hd) as E. cbv zeta in E. set (e := exponent n d) in *. unfold f_num, f_den. cbn [f_man f_exp].
  set (a := n * 2 ^ Z.max 0 (- e)) in *. set (b := d * 2 ^ Z.max 0 e) in *.
  assert (B : 0 < b) by (pose proof (Z.pow_pos_nonneg 2 (Z.max 0 e) ltac:(lia) ltac:(lia)); unfold b; nia).
  pose proof (nearest_half a b B) as H. change (2 ^ 23) with 8388608 in E. change (2 ^ 24) with 16777216.
  replace (nearest_even a b * 2 ^ Z.max 0 e * d) with (nearest_even a b * b) by (unfold b; ring). split; [lia|].
  apply Z.mul_nonneg_nonneg; [|apply Z.pow_nonneg; lia].
  assert (0 <= nearest_even a b * b) by lia. nia.
Qed.

(** ** The threshold *)
Lemma fraction_within p : 0 < p < 100 -> within p 100 (fraction p) /\ 0 < f_num (fraction p).
Proof.
  intros Hp.
  assert (H : forallb (fun k => let p := Z.of_nat k in let x := fraction p in
            (Z.abs (f_num x * 100 - p * f_den x) * 2 ^ 24 <=? p * f_den x) && (0 <? f_num x)) (seq 1 99) = true) by (vm_compute; reflexivity).
  rewrite forallb_forall in H. specialize (H (Z.to_nat p)). rewrite in_seq in H. specialize (H ltac:(lia)). cbv zeta in H. rewrite Z2Nat.id in H by lia.
  unfold within. lia.
Qed.

Lemma threshold_spec p a : 0 < p < 100 -> 0 <= a ->
  100 * 2 ^ 22 * threshold p a <= p * (2 ^ 22 + 1) * a /\ p * (2 ^ 22 - 1) * a <= 100 * 2 ^ 22 * (threshold p a + 1) /\ 0 <= threshold p a /\
  p * (2 ^ 22 - 1) * a < 100 * 2 ^ 22 * (threshold p a + 1).
Proof.
  intros Hp Ha. destruct (fraction_within p Hp) as [F F0]. destruct (round_within a 1 Ha ltac:(lia)) as [G G0]. fold (f_of a) in G, G0.
  unfold threshold, f_trunc. set (x := fraction p) in *. set (y := f_of a) in *.
  pose proof (den_pos x) as X. pose proof (den_pos y) as Y. unfold f_mul.
  destruct (round_within (f_num x * f_num y) (f_den x * f_den y) ltac:(nia) ltac:(nia)) as [M M0].
  set (z := round_quot (f_num x * f_num y) (f_den x * f_den y)) in *. pose proof (den_pos z) as Zp.
  unfold within in F, G, M. pose proof (Z.div_mod (f_num z) (f_den z) ltac:(lia)) as E. pose proof (Z.mod_pos_bound (f_num z) (f_den z) Zp) as R.
  set (t := f_num z / f_den z) in *. assert (T0 : 0 <= t) by (unfold t; apply Z.div_pos; lia).
  set (fx := f_num x) in *. set (gx := f_den x) in *. set (fy := f_num y) in *. set (gy := f_den y) in *. set (fz := f_num z) in *. set (gz := f_den z) in *.
  change (2 ^ 24) with 16777216 in *. change (2 ^ 22) with 4194304.
  assert (U1 : fx * 100 * 16777216 <= p * gx * 16777217) by lia.
  assert (L1 : p * gx * 16777215 <= fx * 100 * 16777216) by lia.
  assert (U2 : fy * 16777216 <= a * gy * 16777217) by lia.
  assert (L2 : a * gy * 16777215 <= fy * 16777216) by lia.
  assert (U3 : fz * (gx * gy) * 16777216 <= fx * fy * gz * 16777217) by lia.
  assert (L3 : fx * fy * gz * 16777215 <= fz * (gx * gy) * 16777216) by lia.
  clear F G M.
  assert (UU : (fx * 100 * 16777216) * (fy * 16777216) <= (p * gx * 16777217) * (a * gy * 16777217)) by (apply Z.mul_le_mono_nonneg; nia).
  assert (LL : (p * gx * 16777215) * (a * gy * 16777215) <= (fx * 100 * 16777216) * (fy * 16777216)) by (apply Z.mul_le_mono_nonneg; nia).
  set (D := gx * gy) in *. assert (HD : 0 < D) by (unfold D; nia).
  assert (UV : fz * 100 * 16777216 * 16777216 * 16777216 * D <= p * a * gz * 16777217 * 16777217 * 16777217 * D).
  { transitivity (gz * 16777217 * ((fx * 100 * 16777216) * (fy * 16777216))); [|unfold D; clear - UU Zp; nia].
    clear - U3. nia. }
  assert (LV : p * a * gz * 16777215 * 16777215 * 16777215 * D <= fz * 100 * 16777216 * 16777216 * 16777216 * D).
  { transitivity (gz * 16777215 * ((fx * 100 * 16777216) * (fy * 16777216))); [unfold D; clear - LL Zp; nia|].
    clear - L3. nia. }
  apply Z.mul_le_mono_pos_r in UV; [|exact HD]. apply Z.mul_le_mono_pos_r in LV; [|exact HD].
  assert (P : 0 <= p * a * gz) by nia. set (q := p * a * gz) in *.
  assert (US : fz * (100 * 4194304) <= q * 4194305) by lia.
  assert (LS : q * 4194303 <= fz * (100 * 4194304)) by lia.
  split; [|split; [|split; [exact T0|]]].
  - apply (Z.mul_le_mono_pos_r _ _ gz Zp). replace (p * (4194304 + 1) * a * gz) with (q * 4194305) by (unfold q; ring). nia.
  - apply (Z.mul_le_mono_pos_r _ _ gz Zp). replace (p * (4194304 - 1) * a * gz) with (q * 4194303) by (unfold q; ring). nia.
  - apply (Z.mul_lt_mono_pos_r gz _ _ Zp). replace (p * (4194304 - 1) * a * gz) with (q * 4194303) by (unfold q; ring). nia.
Qed.

Lemma threshold_le p a : 0 < p < 100 -> 0 <= a -> threshold p a <= a.
Proof. intros Hp Ha. destruct (threshold_spec p a Hp Ha) as (U & _). change (2 ^ 22) with 4194304 in U. nia. Qed.

(** ** The heuristics *)
Lemma range_none p : (percent_releasable p = None <-> p < 0 \/ 100 < p) /\ (percent_releasable_hwm p = None <-> p < 0 \/ 100 < p) /\
  (d_percent_releasable p = None <-> p < 0 \/ 100 < p) /\ (d_percent_releasable_hwm p = None <-> p < 0 \/ 100 < p).
Proof.
  unfold percent_releasable, percent_releasable_hwm, d_percent_releasable, d_percent_releasable_hwm.
  destruct (Z.ltb_spec p 0), (Z.ltb_spec 100 p); cbn [orb]; repeat split; intros; try lia; try discriminate; auto.
Qed.

Lemma pct_ok p h : percent_releasable p = Some h \/ percent_releasable_hwm p = Some h -> heur_ok h.
Proof.
  unfold percent_releasable, percent_releasable_hwm. destruct ((p <? 0) || (100 <? p)); [intros [H|H]; discriminate|].
  destruct heur_ok_all as (H0 & H1 & H2 & _ & _ & H3 & H4).
  destruct (p =? 0), (p =? 100); intros [H|H]; injection H as <-; auto.
Qed.

Lemma d_pct_ok p h : d_percent_releasable p = Some h \/ d_percent_releasable_hwm p = Some h -> dheur_ok h.
Proof.
  unfold d_percent_releasable, d_percent_releasable_hwm. destruct ((p <? 0) || (100 <? p)); [intros [H|H]; discriminate|].
  destruct dheur_ok_all as (H0 & H1 & H2 & _ & _ & H3 & H4).
  destruct (p =? 0), (p =? 100); intros [H|H]; injection H as <-; auto.
Qed.

Lemma pct_cases p : 0 < p < 100 -> percent_releasable p = Some (h_percent (threshold p)) /\ percent_releasable_hwm p = Some (h_percent_hwm (threshold p)) /\
  d_percent_releasable p = Some (dh_percent (threshold p)) /\ d_percent_releasable_hwm p = Some (dh_percent_hwm (threshold p)).
Proof.
  intros H. unfold percent_releasable, percent_releasable_hwm, d_percent_releasable, d_percent_releasable_hwm.
  replace ((p <? 0) || (100 <? p)) with false by lia. destruct (Z.eqb_spec p 0); [lia|]. destruct (Z.eqb_spec p 100); [lia|]. auto.
Qed.

Lemma enough_le p v : 0 < p < 100 -> sizes_ok v -> clearly_enough p v -> threshold p (v_actual v) <= v_releasable v.
Proof.
  intros Hp (A & R) C. destruct (threshold_spec p (v_actual v) Hp (proj1 A)) as (U & _). unfold clearly_enough in C. change (2 ^ 22) with 4194304 in *. nia.
Qed.
Lemma less_lt p v : 0 < p < 100 -> sizes_ok v -> clearly_less p v -> v_releasable v < threshold p (v_actual v).
Proof.
  intros Hp (A & R) C. destruct (threshold_spec p (v_actual v) Hp (proj1 A)) as (_ & _ & _ & L). unfold clearly_less in C. change (2 ^ 22) with 4194304 in *. nia.
Qed.

Lemma pct_enough p h hw dh dhw v cur : 0 < p < 100 -> sizes_ok v -> clearly_enough p v ->
  percent_releasable p = Some h -> percent_releasable_hwm p = Some hw -> d_percent_releasable p = Some dh -> d_percent_releasable_hwm p = Some dhw ->
  h v = v_actual v /\ hw v = v_aligned_hwm v /\ dh cur v = v_actual v /\ dhw cur v = v_aligned_hwm v.
Proof.
  intros Hp S C E1 E2 E3 E4. destruct (pct_cases p Hp) as (F1 & F2 & F3 & F4). rewrite E1 in F1. rewrite E2 in F2. rewrite E3 in F3. rewrite E4 in F4.
  injection F1 as ->. injection F2 as ->. injection F3 as ->. injection F4 as ->.
  pose proof (enough_le p v Hp S C) as L. unfold h_percent, h_percent_hwm, dh_percent, dh_percent_hwm.
  destruct (Z.leb_spec (threshold p (v_actual v)) (v_releasable v)); [auto|lia].
Qed.

Lemma pct_less p h hw dh dhw v cur : 0 < p < 100 -> sizes_ok v -> clearly_less p v ->
  percent_releasable p = Some h -> percent_releasable_hwm p = Some hw -> d_percent_releasable p = Some dh -> d_percent_releasable_hwm p = Some dhw ->
  h v = 0 /\ hw v = 0 /\ dh cur v = 0 /\ dhw cur v = 0.
Proof.
  intros Hp S C E1 E2 E3 E4. destruct (pct_cases p Hp) as (F1 & F2 & F3 & F4). rewrite E1 in F1. rewrite E2 in F2. rewrite E3 in F3. rewrite E4 in F4.
  injection F1 as ->. injection F2 as ->. injection F3 as ->. injection F4 as ->.
  pose proof (less_lt p v Hp S C) as L. unfold h_percent, h_percent_hwm, dh_percent, dh_percent_hwm.
  destruct (Z.leb_spec (threshold p (v_actual v)) (v_releasable v)); [lia|auto].
Qed.

Lemma pct_all p h hw v : 0 < p <= 100 -> sizes_ok v -> v_releasable v = v_actual v ->
  percent_releasable p = Some h -> percent_releasable_hwm p = Some hw -> h v = v_actual v /\ hw v = v_aligned_hwm v.
Proof.
  intros Hp (A & R) E. unfold percent_releasable, percent_releasable_hwm. replace ((p <? 0) || (100 <? p)) with false by lia.
  destruct (Z.eqb_spec p 0); [lia|]. destruct (Z.eqb_spec p 100) as [->|N]; intros E1 E2; injection E1 as <-; injection E2 as <-.
  - unfold h_percent_100, h_percent_100_hwm. now rewrite E, Z.eqb_refl.
  - unfold h_percent, h_percent_hwm. rewrite E. pose proof (threshold_le p (v_actual v) ltac:(lia) (proj1 A)).
    destruct (Z.leb_spec (threshold p (v_actual v)) (v_actual v)); [auto|lia].
Qed.

Lemma d_pct_all p h hw v : 0 < p <= 100 -> sizes_ok v -> v_releasable v = v_actual v ->
  d_percent_releasable p = Some h -> d_percent_releasable_hwm p = Some hw -> h 0 v = v_actual v /\ hw 0 v = v_aligned_hwm v.
Proof.
  intros Hp (A & R) E. unfold d_percent_releasable, d_percent_releasable_hwm. replace ((p <? 0) || (100 <? p)) with false by lia.
  destruct (Z.eqb_spec p 0); [lia|]. destruct (Z.eqb_spec p 100) as [->|N]; intros E1 E2; injection E1 as <-; injection E2 as <-.
  - unfold dh_percent_100, dh_percent_100_hwm. now rewrite Z.eqb_refl.
  - unfold dh_percent, dh_percent_hwm. rewrite E. pose proof (threshold_le p (v_actual v) ltac:(lia) (proj1 A)).
    destruct (Z.leb_spec (threshold p (v_actual v)) (v_actual v)); [auto|lia].
Qed.

Lemma pct_hundred h hw v : sizes_ok v -> v_releasable v < v_actual v -> percent_releasable 100 = Some h -> percent_releasable_hwm 100 = Some hw ->
  h v = 0 /\ hw v = 0.
Proof.
  intros _ L E1 E2. injection E1 as <-. injection E2 as <-. unfold h_percent_100, h_percent_100_hwm.
  destruct (Z.eqb_spec (v_actual v) (v_releasable v)); [lia|auto].
Qed.

Lemma pct_never v cur h hw dh dhw : percent_releasable 0 = Some h -> percent_releasable_hwm 0 = Some hw -> d_percent_releasable 0 = Some dh ->
  d_percent_releasable_hwm 0 = Some dhw -> h v = 0 /\ hw v = 0 /\ dh cur v = 0 /\ dhw cur v = 0.
Proof. intros E1 E2 E3 E4. injection E1 as <-. injection E2 as <-. injection E3 as <-. injection E4 as <-. repeat split. Qed.

(** ** Coalescing without end *)
Section Loop.
  Context (h : qview -> Z) (Hok : heur_ok h).
  Hypothesis Hasks : forall v, v_actual v = 12864 -> v_releasable v = 12800 -> 0 < v_rel_blocks v -> h v = 12864.

  Lemma loop_far : exists U sw H,
    crun (ex_cfg h) 1 [CAlloc 12800; CAlloc 32] (cinit bump) = Some (U, sw, H) /\ U = [(12848, 32); (16, 12800)] /\
    forall fuel, q_deallocate host (ex_cfg h) fuel 16 sw = NoFuel.
  Proof.
    destruct (crun (ex_cfg h) 1 [CAlloc 12800; CAlloc 32] (cinit bump)) as [[[U sw] H]|] eqn:E; [|exfalso; vm_compute in E; discriminate E].
    exists U, sw, H. split; auto.
    pose proof (crun_reaches (ex_cfg h) 1 (heap_only bump) bump _ _ _ _ bump_only E) as Hh.
    assert (Eo : (fun o : option cstate => match o with
                 | Some (U, sw, H) => Some (U, h_live (snd sw), q_actual (fst sw)) | None => None end)
                 (crun (ex_cfg h) 1 [CAlloc 12800; CAlloc 32] (cinit bump)) =
                 Some ([(12848, 32); (16, 12800)], [(12848, 80); (16, 12816)], 12864)) by (vm_compute; reflexivity).
    rewrite E in Eo. injection Eo as EU EL EA. split; auto.
    destruct sw as [s w]. cbn [fst snd] in *.
    destruct (fin_loop host (M64 - 1) (heap_only bump) (host_only_spec bump) (ex_cfg h) 1 (ex_cfg_ok h Hok) U [(12848, 32)] s w 16 12800)
      as (L & (HL & _) & HX); [eexists; exact Hh|subst U; apply perm_swap|].
    rewrite EL in HL.
    assert (Hch : churn 16 [(12848, 32)] L [(12848, 80)] 12800).
    { exists [(16, 12816)]. split; [rewrite <- HL; apply perm_swap|].
      split; [intros l [<-|[]] u [<-|[]]; unfold disj, data_range, extent; cbn; lia|].
      split; [intros l [<-|[]] Hid; specialize (Hid (12848, 32) (or_introl eq_refl)); unfold disj, data_range, extent in Hid; cbn in Hid; lia|].
      split; [reflexivity|]. split; [lia|]. split.
      - exists (12880, 32). split; [cbn; lia|]. split; [exists (12848, 80); split; [simpl; auto|unfold inside, data_range; cbn; lia]|].
        intros u [<-|[]]; unfold disj, extent; cbn; lia.
      - intros g (G1 & (l & [<-|[]] & G2) & G3). specialize (G3 _ (or_introl eq_refl)).
        clear - G1 G2 G3. unfold inside, data_range, disj, extent in *. cbn in *. lia. }
    intros fuel. refine (proj2 (HX _ _ Hch _ _ _ fuel) _ _).
    - intros v E1 E2 E3. cbn [q_view v_actual] in E1. rewrite EA in E1. rewrite E1. now apply Hasks.
    - reflexivity.
    - cbn. lia.
    - intros p n w'. apply host_free_total.
    - intros w' L' (HL' & Hg & Horc) HP'. cbn [host p_alloc]. unfold host_allocate, malloc.
      rewrite Horc. assert (EL' : h_live w' = [(12848, 80)]) by (apply Permutation_length_1_inv; now rewrite HL', HP').
      rewrite EL'. vm_compute. eauto.
  Qed.
End Loop.

Lemma pct_loops p h : 0 < p < 100 -> percent_releasable p = Some h -> exists U sw H,
  crun (ex_cfg h) 1 [CAlloc 12800; CAlloc 32] (cinit bump) = Some (U, sw, H) /\ U = [(12848, 32); (16, 12800)] /\
  forall fuel, q_deallocate host (ex_cfg h) fuel 16 sw = NoFuel.
Proof.
  intros Hp E. apply loop_far; [apply (pct_ok p); auto|]. intros v A R _.
  destruct (pct_cases p Hp) as (F & _). rewrite E in F. injection F as ->.
  unfold h_percent. rewrite A, R. pose proof (threshold_spec p 12864 Hp ltac:(lia)) as (U & _). change (2 ^ 22) with 4194304 in U.
  destruct (Z.leb_spec (threshold p 12864) 12800); [reflexivity|]. nia.
Qed.
