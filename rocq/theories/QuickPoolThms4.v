(** QuickPool: final forms of the theorems, and concrete executions. *)
From Verif Require Import Base BaseFacts AlignedModel AlignedFacts HeapModel HeapFacts QuickPoolModel
  QuickPoolInv QuickPoolFacts QuickPoolOps QuickPoolMain QuickPoolSpec QuickPoolThms QuickPoolThms2 QuickPoolThms3
  QuickPoolRun.

Section Final.
  Context {W : Type} (P : Parent W) (limP : Z) (Inv : W -> list region -> Prop).
  Hypothesis PS : ParentSpec P limP Inv.
  Context (cfg : qcfg) (fuel : nat).
  Hypothesis CFG : qcfg_ok cfg limP.
  Notation A := (cf_align cfg).
  Notation lim := (limP - 2 * cf_align cfg).
  Notation reach := (reachable P cfg fuel lim Inv).

  Lemma fin_disjoint U sw : reach U sw ->
    good U /\
    exists L, Inv (snd sw) L /\ good L /\ forall u, In u U -> exists l, In l L /\ inside u l.
  Proof.
    intros (H & Hh). split; [eapply hist_disjoint; eauto|].
    destruct (hist_obs P limP Inv PS cfg fuel CFG _ _ _ Hh) as (L & HI & Ho). exists L. split; auto.
    split; [eapply (ps_good _ _ _ PS); eauto|]. intros u Hu.
    destruct (po_in _ _ _ _ Ho u Hu) as (l & Hl & H1 & H2 & H3). exists l. split; auto.
    eapply inside_trans; [|exact H3]. eapply inside_trans; eauto.
  Qed.

  Lemma fin_safe U sw : reach U sw ->
    (forall n, 0 < n <= lim -> q_allocate P cfg n sw <> UB) /\
    (forall p n, In (p, n) U -> q_deallocate P cfg fuel p sw <> UB /\
       forall sw' e, q_deallocate P cfg fuel p sw <> Throw sw' e) /\
    (q_release P sw <> UB /\ forall sw' e, q_release P sw <> Throw sw' e) /\
    (q_coalesce P cfg fuel sw <> UB /\ forall sw' e, q_coalesce P cfg fuel sw <> Throw sw' e).
  Proof. intros (H & Hh). exact (hist_safe P limP Inv PS cfg fuel CFG _ _ _ Hh). Qed.

  Lemma fin_obs U sw : reach U sw -> exists L, Inv (snd sw) L /\ pool_obs A U L (q_view (fst sw)).
  Proof. intros (H & Hh). eapply hist_obs; eauto. Qed.

  Lemma fin_aligned U sw : reach U sw -> forall p n, In (p, n) U -> p mod A = 0.
  Proof. intros (H & Hh). eapply hist_aligned; eauto. Qed.

  Lemma fin_release U s w : reach U (s, w) ->
    post (q_release P (s, w))
      (fun sw' _ => exists I R, Inv w (I ++ R) /\
         (forall l, In l I -> idle A U l) /\ (forall l, In l R -> ~ idle A U l) /\
         Inv (snd sw') R /\ pool_obs A U R (q_view (fst sw')))
      (fun _ _ => False).
  Proof.
    intros (H & Hh). eapply post_impl; [| |apply (release_obs P limP Inv PS cfg fuel CFG U s w H Hh)]; auto.
    intros sw' _ (I & R & H1 & _ & H2 & H3 & H4 & H5). exists I, R. auto.
  Qed.

  Lemma fin_release_all s w : reach [] (s, w) ->
    post (q_release P (s, w))
      (fun sw' _ => Inv (snd sw') [] /\ v_actual (q_view (fst sw')) = 0 /\ v_total_blocks (q_view (fst sw')) = 0)
      (fun _ _ => False).
  Proof.
    intros Hr. eapply post_impl; [| |apply (fin_release [] s w Hr)]; auto.
    intros sw' _ (I & R & H1 & H2 & H3 & H4 & H5).
    destruct R as [|l R]; [|exfalso; apply (H3 l); simpl; auto; intros u []].
    split; auto. rewrite (po_actual _ _ _ _ H5), (po_total _ _ _ _ H5). auto.
  Qed.

  Lemma fin_merged U sw : reach U sw ->
    exists L, Inv (snd sw) L /\
      (exists G, NoDup G /\ (forall g, In g G <-> max_gap A U L g) /\
         v_blocks_in_pool (q_view (fst sw)) = Z.of_nat (length U) + Z.of_nat (length G)) /\
      (forall l, In l L -> idle A U l -> 0 < snd l - A -> snd l - A <= v_largest (q_view (fst sw))).
  Proof.
    intros Hr. destruct (fin_obs _ _ Hr) as (L & HI & Ho). exists L. split; auto. split; [apply (po_blocks _ _ _ _ Ho)|].
    intros l Hl Hid Hp. apply (proj1 (po_largest _ _ _ _ Ho) (data_range A l)).
    split; [exact Hp|]. split; auto. exists l. split; auto. apply inside_refl.
  Qed.

  Lemma fin_hit U s w n : reach U (s, w) -> 0 < n <= lim -> round_to A n <= v_largest (q_view s) ->
    exists L s' g, Inv w L /\
      q_allocate P cfg n (s, w) = Ok (s', w) (fst g) /\
      max_gap A U L g /\ round_to A n <= snd g /\
      (forall g', max_gap A U L g' -> round_to A n <= snd g' -> snd g <= snd g') /\
      pool_obs A ((fst g, n) :: U) L (q_view s').
  Proof.
    intros (H & Hh) Hn Hl. destruct (alloc_hit_obs P limP Inv PS cfg fuel CFG _ _ _ _ _ Hh Hn Hl) as (L & s' & g & H1 & _ & H2 & H3).
    exists L, s', g. auto.
  Qed.

  Lemma fin_miss U s w n : reach U (s, w) -> 0 < n <= lim -> v_largest (q_view s) < round_to A n ->
    let total := Z.max (round_to A n) (if v_actual (q_view s) =? 0 then cf_first cfg else cf_next cfg) + A in
    exists L, Inv w L /\
      (forall w1 p, p_alloc P total w = Ok w1 p ->
        exists s', q_allocate P cfg n (s, w) = Ok (s', w1) (round_to A p) /\
          pool_obs A ((round_to A p, n) :: U) ((p, total) :: L) (q_view s')) /\
      (forall w1 e, p_alloc P total w = Throw w1 e ->
        forall s2 w2, q_release P (s, w1) = Ok (s2, w2) tt ->
        exists I R, Permutation L (I ++ R) /\ (forall l, In l I -> idle A U l) /\ (forall l, In l R -> ~ idle A U l) /\
          pool_obs A U R (q_view s2) /\
          (forall w3 p, p_alloc P total w2 = Ok w3 p ->
             exists s', q_allocate P cfg n (s, w) = Ok (s', w3) (round_to A p) /\
               pool_obs A ((round_to A p, n) :: U) ((p, total) :: R) (q_view s')) /\
          (forall w3 e3, p_alloc P total w2 = Throw w3 e3 ->
             q_allocate P cfg n (s, w) = Throw (s2, w3) e3)).
  Proof.
    intros (H & Hh) Hn Hl total. destruct (alloc_miss_obs P limP Inv PS cfg fuel CFG _ _ _ _ _ Hh Hn Hl) as (L & H1 & _ & H2).
    exists L. split; auto.
  Qed.

  Lemma fin_dealloc_keeps U U' s w p n : reach U (s, w) -> Permutation U ((p, n) :: U') ->
    post (q_deallocate P cfg fuel p (s, w))
      (fun sw' _ => exists L, Inv (snd sw') L /\ pool_obs A U' L (q_view (fst sw')))
      (fun _ _ => False).
  Proof.
    intros (H & Hh) HP.
    destruct (hist_safe P limP Inv PS cfg fuel CFG _ _ _ Hh) as (_ & Hs & _).
    destruct (Hs p n) as [S1 S2]; [eapply Permutation_in; [apply Permutation_sym, HP|simpl; auto]|].
    destruct (q_deallocate P cfg fuel p (s, w)) as [sw' []|sw' e| | |] eqn:E; cbn [post]; auto.
    - eapply (fin_obs U'). eexists. eapply hist_step; [exact Hh|]. eapply hs_free; eauto.
    - apply (S2 sw' e). reflexivity.
  Qed.

  Lemma fin_terminates U s w p n f : parent_total P -> settling (cf_heur cfg) ->
    reach U (s, w) -> In (p, n) U ->
    q_deallocate P cfg (S (S f)) p (s, w) <> NoFuel /\ q_coalesce P cfg (S f) (s, w) <> NoFuel.
  Proof.
    intros PT Hset (H & Hh) Hin. split.
    - eapply q_deallocate_terminates; eauto.
    - eapply q_coalesce_terminates; eauto.
  Qed.

  Lemma fin_loop U U1 s w p n : reach U (s, w) -> Permutation U ((p, n) :: U1) ->
    exists L, Inv w L /\ forall R r, churn A U1 L R r ->
      (forall v, v_actual v = v_actual (q_view s) -> v_releasable v = r -> 0 < v_rel_blocks v ->
         cf_heur cfg v = v_actual v) ->
      r mod A = 0 -> cf_next cfg <= r ->
      forall f,
      (forall sw', q_deallocate P cfg f p (s, w) <> Ok sw' tt) /\
      ((forall p n w, p_dealloc P p n w <> NoFuel /\ p_dealloc P p n w <> Abort) ->
       (forall w L, Inv w L -> Permutation L R -> exists w' p, p_alloc P (r + A) w = Ok w' p) ->
       q_deallocate P cfg f p (s, w) = NoFuel).
  Proof.
    intros (H & Hh) HP. destruct (hist_inv P limP Inv PS cfg fuel CFG _ _ _ Hh) as (B & HQW & HU). cbn [fst snd] in *.
    exists (map b_held B). split; [apply HQW|]. intros R r Hc Hv Hm Hn f.
    destruct (never_returns P limP Inv PS cfg CFG (q_actual s) r
                ltac:(intros v E1 E2 E3; rewrite (Hv v E1 E2 E3); exact E1) Hm Hn f s w B p n U1 R HQW
                ltac:(rewrite <- HU; exact HP) eq_refl Hc) as [H1 H2].
    split; [intros sw'; apply H1|exact H2].
  Qed.
End Final.

(** *** Shipped heuristics *)
Lemma settling_percent_0 : settling h_percent_0.
Proof. left. intros v H. exfalso. now apply H. Qed.
Lemma settling_percent_100 : settling h_percent_100.
Proof. left. intros v. unfold h_percent_100. destruct (Z.eqb_spec (v_actual v) (v_releasable v)); tauto. Qed.
Lemma settling_percent_100_hwm : settling h_percent_100_hwm.
Proof. left. intros v. unfold h_percent_100_hwm. destruct (Z.eqb_spec (v_actual v) (v_releasable v)); tauto. Qed.
Lemma settling_blocks n : 2 <= n -> settling (h_blocks_releasable n).
Proof. intros Hn. right. intros v. unfold h_blocks_releasable. destruct (Z.leb_spec n (v_rel_blocks v)); [lia|tauto]. Qed.
Lemma settling_blocks_hwm n : 2 <= n -> settling (h_blocks_releasable_hwm n).
Proof. intros Hn. right. intros v. unfold h_blocks_releasable_hwm. destruct (Z.leb_spec n (v_rel_blocks v)); [lia|tauto]. Qed.

Lemma heur_ok_all :
  heur_ok h_percent_0 /\ heur_ok h_percent_100 /\ heur_ok h_percent_100_hwm /\
  (forall n, heur_ok (h_blocks_releasable n)) /\ (forall n, heur_ok (h_blocks_releasable_hwm n)) /\
  (forall t, heur_ok (h_percent t)) /\ (forall t, heur_ok (h_percent_hwm t)).
Proof.
  unfold heur_ok, h_percent_0, h_percent_100, h_percent_100_hwm, h_blocks_releasable, h_blocks_releasable_hwm,
    h_percent, h_percent_hwm.
  assert (0 < ASP) by (unfold ASP; lia).
  repeat split; intros; repeat match goal with |- context [if ?b then _ else _] => destruct b end; lia.
Qed.

(** *** Rounding *)
Lemma aligned_round_up_mod A n : pow2_align A -> 1 <= n < M64 ->
  aligned_round_up A n = w64 (round_to A n).
Proof.
  intros HA Hn. pose proof (pow2_align_pos A HA) as HAp.
  unfold aligned_round_up. rewrite (w64_small (n - 1)) by lia.
  unfold w64 at 1 2 3. rewrite Zminus_mod_idemp_l. unfold round_to. f_equal.
  pose proof (Z.div_mod (n - 1) A ltac:(lia)) as E.
  replace (n + A - 1) with ((n - 1) + 1 * A) by lia. rewrite Z.div_add by lia. lia.
Qed.

Lemma round_to_least A n m : 0 < A -> n <= m -> m mod A = 0 -> round_to A n <= m.
Proof.
  intros HA Hm Hmod. pose proof (round_to_spec A n HA) as [H1 H2].
  destruct (Z.le_gt_cases (round_to A n) m); auto. exfalso.
  pose proof (Z.div_mod (round_to A n) A ltac:(lia)). pose proof (Z.div_mod m A ltac:(lia)).
  set (q := m / A) in *. set (k := round_to A n / A) in *.
  assert (q < k) by nia. assert (A * q <= A * (k - 1)) by (apply Z.mul_le_mono_nonneg_l; lia). lia.
Qed.

Lemma pow2_mod_M64 A : pow2_align A -> M64 mod A = 0.
Proof.
  intros (k & Hk & ->). unfold M64. replace 64 with (k + (64 - k)) by lia.
  rewrite Z.pow_add_r by lia. rewrite Z.mul_comm. apply Z_mod_mult.
Qed.

Lemma round_up_spec A n : pow2_align A -> 1 <= n <= M64 - A ->
    n <= aligned_round_up A n /\ aligned_round_up A n mod A = 0 /\
    forall m, n <= m -> m mod A = 0 -> aligned_round_up A n <= m.
Proof.
  intros HA Hn. pose proof (pow2_align_pos A HA) as HAp.
  pose proof (round_to_spec A n ltac:(lia)) as [H1 H2].
  rewrite aligned_round_up_mod by (auto; lia). rewrite w64_small by lia.
  split; [lia|]. split; auto. intros m Hm Hmm. apply round_to_least; auto; lia.
Qed.

Lemma round_up_lost A n : pow2_align A -> M64 - A < n < M64 -> aligned_round_up A n = 0.
Proof.
  intros HA Hn. pose proof (pow2_align_pos A HA) as HAp. pose proof (pow2_mod_M64 A HA).
  pose proof (round_to_spec A n ltac:(lia)) as [H1 H2].
  assert (round_to A n = M64).
  { apply (mult_unique A _ _ n); auto; lia. }
  rewrite aligned_round_up_mod by (auto; unfold M64 in *; lia). rewrite H0. apply Z_mod_same_full.
Qed.

(** *** Concrete pools over malloc *)
Definition ex_cfg (h : qview -> Z) : qcfg := mkCfg 64 64 16 h.

Lemma ex_cfg_ok h : heur_ok h -> qcfg_ok (ex_cfg h) (M64 - 1).
Proof.
  intros Hh. constructor; cbn [ex_cfg cf_align cf_first cf_next cf_heur]; auto; try (unfold M64, ASP; lia).
  exists 4. split; [lia|reflexivity].
Qed.

Definition obs_state (o : option cstate) :=
  match o with None => None | Some (U, sw, H) => Some (U, q_view (fst sw), h_live (snd sw)) end.

(** Blocks of 64 usable bytes: one fully used, one half used, then the first is freed. *)
Definition loop_calls : list call := [CAlloc 64; CAlloc 32].

Definition ex_cfgA (a : Z) (h : qview -> Z) : qcfg := mkCfg 256 256 a h.

(** Coalescing loop: the state in which [deallocate] of the block at 16 is called. *)
Lemma bump_only : heap_only bump (mkHeap bump 0 [] []) [].
Proof. split; [constructor|]. split; [apply good_nil|reflexivity]. Qed.

Section Loop.
  Context (h : qview -> Z) (Hok : heur_ok h).
  Hypothesis Hasks : forall v, v_actual v = 128 -> v_releasable v = 64 -> 0 < v_rel_blocks v -> h v = 128.

  Lemma loop_forever : exists U sw H,
    crun (ex_cfg h) 1 [CAlloc 64; CAlloc 32] (cinit bump) = Some (U, sw, H) /\ U = [(112, 32); (16, 64)] /\
    forall fuel, q_deallocate host (ex_cfg h) fuel 16 sw = NoFuel.
  Proof.
    destruct (crun (ex_cfg h) 1 [CAlloc 64; CAlloc 32] (cinit bump)) as [[[U sw] H]|] eqn:E; [|exfalso; vm_compute in E; discriminate E].
    exists U, sw, H. split; auto.
    pose proof (crun_reaches (ex_cfg h) 1 (heap_only bump) bump _ _ _ _ bump_only E) as Hh.
    assert (Eo : (fun o : option cstate => match o with
                 | Some (U, sw, H) => Some (U, h_live (snd sw), q_actual (fst sw)) | None => None end)
                 (crun (ex_cfg h) 1 [CAlloc 64; CAlloc 32] (cinit bump)) =
                 Some ([(112, 32); (16, 64)], [(112, 80); (16, 80)], 128)) by (vm_compute; reflexivity).
    rewrite E in Eo. injection Eo as EU EL EA. split; auto.
    destruct sw as [s w]. cbn [fst snd] in *.
    destruct (fin_loop host (M64 - 1) (heap_only bump) (host_only_spec bump) (ex_cfg h) 1 (ex_cfg_ok h Hok) U [(112, 32)] s w 16 64)
      as (L & (HL & _) & HX); [eexists; exact Hh|subst U; apply perm_swap|].
    rewrite EL in HL.
    assert (Hch : churn 16 [(112, 32)] L [(112, 80)] 64).
    { exists [(16, 80)]. split; [rewrite <- HL; apply perm_swap|].
      split; [intros l [<-|[]] u [<-|[]]; unfold disj, data_range, extent; cbn; lia|].
      split; [intros l [<-|[]] Hid; specialize (Hid (112, 32) (or_introl eq_refl)); unfold disj, data_range, extent in Hid; cbn in Hid; lia|].
      split; [reflexivity|]. split; [lia|]. split.
      - exists (144, 32). split; [cbn; lia|]. split; [exists (112, 80); split; [simpl; auto|unfold inside, data_range; cbn; lia]|].
        intros u [<-|[]]; unfold disj, extent; cbn; lia.
      - intros g (G1 & (l & [<-|[]] & G2) & G3). specialize (G3 _ (or_introl eq_refl)).
        clear - G1 G2 G3. unfold inside, data_range, disj, extent in *. cbn in *. lia. }
    intros fuel. refine (proj2 (HX _ _ Hch _ _ _ fuel) _ _).
    - intros v E1 E2 E3. cbn [q_view v_actual] in E1. rewrite EA in E1. rewrite E1. now apply Hasks.
    - reflexivity.
    - cbn. lia.
    - intros p n w'. apply host_free_total.
    - intros w' L' (HL' & Hg & Horc) HP'. cbn [host p_alloc]. unfold host_allocate, malloc.
      rewrite Horc. assert (EL' : h_live w' = [(112, 80)]) by (apply Permutation_length_1_inv; now rewrite HL', HP').
      rewrite EL'. vm_compute. eauto.
  Qed.
End Loop.

Lemma blocks_1_asks v : v_actual v = 128 -> v_releasable v = 64 -> 0 < v_rel_blocks v -> h_blocks_releasable 1 v = 128.
Proof. intros E1 _ E3. unfold h_blocks_releasable. destruct (Z.leb_spec 1 (v_rel_blocks v)); lia. Qed.
Lemma percent_50_asks v : v_actual v = 128 -> v_releasable v = 64 -> 0 < v_rel_blocks v ->
  h_percent (fun a => a / 2) v = 128.
Proof. intros E1 E2 _. unfold h_percent. rewrite E1, E2. reflexivity. Qed.
