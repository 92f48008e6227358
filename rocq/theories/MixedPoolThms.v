(** Lemmas behind the MixedPool properties. *)
From Verif Require Import Base BaseFacts StratModel StratFacts StratSpec StratThms QuickPoolModel QuickPoolMain
  QuickPoolSpec QuickPoolThms QuickPoolThms2
  FixedPoolModel FixedPoolFacts FixedPoolThms MixedPoolModel MixedPoolFacts MixedPoolSpec.

Lemma increasing_nth l : increasing l -> forall i j x y, nth_error l i = Some x -> nth_error l j = Some y -> (i < j)%nat -> x < y.
Proof.
  induction l as [|a l IH]; intros H i j x y Hi Hj Hlt; [destruct i; discriminate|]. destruct H as [H1 H2].
  destruct j as [|j]; [lia|]. cbn in Hj. destruct i as [|i]; cbn in Hi.
  - injection Hi as <-. apply H1. eapply nth_error_In; eauto.
  - eapply IH; eauto. lia.
Qed.

Lemma suits_index l n i : increasing (map cl_size l) -> suits (map cl_size l) n i <-> mx_index n l = i /\ (i < length l)%nat.
Proof.
  intros Hinc. split.
  - intros (c & Hc & Hn & Hmin). assert (Hi : (i < length l)%nat) by (rewrite <- (map_length cl_size); apply nth_error_Some; congruence).
    split; auto. destruct (Nat.lt_trichotomy (mx_index n l) i) as [H|[H|H]]; auto; exfalso.
    + assert (Hlt : (mx_index n l < length l)%nat) by lia. apply nth_error_Some in Hlt.
      destruct (nth_error l (mx_index n l)) as [d|] eqn:E; [|congruence].
      pose proof (mx_index_nth _ _ _ E) as Hd.
      assert (Ed : nth_error (map cl_size l) (mx_index n l) = Some (cl_size d)) by (rewrite nth_error_map, E; reflexivity).
      pose proof (increasing_nth _ Hinc _ _ _ _ Ed Hc H). destruct (Hmin _ _ Ed Hd); lia.
    + rewrite nth_error_map in Hc. destruct (nth_error l i) as [d|] eqn:E; [|discriminate]. cbn in Hc. injection Hc as <-.
      pose proof (mx_index_small _ _ _ _ H E). lia.
  - intros (<- & Hlt). apply nth_error_Some in Hlt. destruct (nth_error l (mx_index n l)) as [d|] eqn:E; [|congruence].
    exists (cl_size d). split; [rewrite nth_error_map, E; reflexivity|]. split; [apply (mx_index_nth _ _ _ E)|].
    intros j c' Hj Hc'. destruct (Nat.lt_trichotomy j (mx_index n l)) as [H|[H|H]]; auto.
    + rewrite nth_error_map in Hj. destruct (nth_error l j) as [e|] eqn:Ee; [|discriminate]. cbn in Hj. injection Hj as <-.
      pose proof (mx_index_small _ _ _ _ H Ee). lia.
    + left. eapply (increasing_nth _ Hinc); [|exact Hj|exact H]. rewrite nth_error_map, E. reflexivity.
Qed.

Section MixedPoolThms.
  Context (cfg : mcfg) (cfuel fuel : nat) {W : Type} (P : Parent W) (limP : Z) (Inv : W -> list region -> Prop).
  Hypothesis PS : ParentSpec P limP Inv.
  Hypothesis CFG : mcfg_ok cfg limP.
  Notation MP := (MixedPool cfg cfuel fuel).
  Notation lim := (limP - 2 * cf_align (mc_quick cfg)).

  Lemma mxt_inv t sw : runs MP P Inv t sw -> (forall n, In n (requests t) -> n <= lim) ->
    exists L, mx_rel cfg (fst sw) (live t) L /\ Inv (snd sw) L.
  Proof.
    intros Hr Hq.
    apply (runs_inv MP P Inv (mx_rel cfg) (fun _ n => 0 < n <= lim) limP
             (fun t => forall n, In n (requests t) -> n <= lim) PS
             (StratOk_Leaf _ _ _ _ (MixedPool_ok cfg cfuel fuel limP CFG))); auto.
    - intros [] t' Ha m Hm; apply Ha; cbn; auto.
    - intros t' s w n e L _ Ha Hn Erq _. split; [lia|]. apply Ha. rewrite Erq. simpl; auto.
  Qed.

  Lemma mxt_disjoint t sw : runs MP P Inv t sw -> (forall n, In n (requests t) -> n <= lim) ->
    good (live t) /\ exists L, Inv (snd sw) L /\ forall r, In r (live t) -> exists l, In l L /\ inside r l.
  Proof.
    intros Hr Hq. destruct (mxt_inv t sw Hr Hq) as (L & HR & HI).
    destruct (mx_inside cfg fuel limP CFG _ _ _ HR (ps_good _ _ _ PS _ _ HI)) as [H1 H2]. split; auto. exists L. auto.
  Qed.

  Lemma mxt_increasing t sw : runs MP P Inv t sw -> (forall n, In n (requests t) -> n <= lim) ->
    forall i j x y, nth_error (map cl_size (mp_fixed (fst sw))) i = Some x -> nth_error (map cl_size (mp_fixed (fst sw))) j = Some y ->
      (i < j)%nat -> x < y.
  Proof.
    intros Hr Hq. destruct (mxt_inv t sw Hr Hq) as (L & (parts & Uq & Lq & (_ & H & _) & _) & _). apply increasing_nth, H.
  Qed.

  (** Every fixed pool has exactly the live allocations of its class. *)
  Lemma mxt_routing t sw i c : runs MP P Inv t sw -> (forall n, In n (requests t) -> n <= lim) ->
    nth_error (mp_fixed (fst sw)) i = Some c ->
    exists Ui, NoDup Ui /\ (forall r, In r Ui <-> In r (live t) /\ suits (map cl_size (mp_fixed (fst sw))) (snd r) i) /\
      fx_current_size (cl_pool c) = cl_size c * Z.of_nat (length Ui) /\
      forall r, In r Ui -> fx_is_from_pool (cl_size c) (cl_per c) (fst r) (cl_pool c) = true.
  Proof.
    intros Hr Hq Hc. destruct (mxt_inv t sw Hr Hq) as (L & HR & HI).
    pose proof (ps_good _ _ _ PS _ _ HI) as HGL.
    destruct (mx_inside cfg fuel limP CFG _ _ _ HR HGL) as [HG _].
    destruct HR as (parts & Uq & Lq & (H1 & H2 & H3 & H4 & H5 & H6) & HU & HL).
    assert (Hil : (i < length (mp_fixed (fst sw)))%nat) by (apply nth_error_Some; congruence).
    destruct (nth_split_parts _ _ _ _ H3 Hc) as (l1 & l2 & p1 & part & p2 & El & Hl1 & -> & Hp1 & F1 & F2 & F3).
    assert (Hck : class_ok (mc_max_initial cfg) c) by (apply Forall_forall with (x := c) in H1; auto; eapply nth_error_In; eauto).
    exists (fst part). 
    assert (HN : NoDup (concat (map fst (p1 ++ part :: p2)) ++ Uq)).
    { eapply Permutation_NoDup; [exact HU|]. now apply good_NoDup. }
    assert (HG' : good (fst part ++ concat (map fst (p1 ++ p2)) ++ Uq)).
    { eapply good_perm; [|eapply good_perm; [exact HU|exact HG]]. rewrite app_assoc. apply Permutation_app_tail.
      rewrite !map_app. cbn [map]. apply concat_swap. }
    apply good_app in HG' as [HGi _].
    assert (Hnth : nth_error (p1 ++ part :: p2) i = Some part).
    { rewrite nth_error_app2 by lia. replace (i - length p1)%nat with 0%nat by lia. reflexivity. }
    split; [now apply good_NoDup|]. split; [|split].
    - intros [p n]. cbn [snd]. rewrite (suits_index _ n i H2). split.
      + intros Hin. split; [|split; auto; apply (H5 _ _ _ _ Hnth Hin)].
        eapply Permutation_in; [apply Permutation_sym, HU|]. apply in_or_app. left. apply in_concat. exists (fst part). split; auto.
        apply in_map. apply in_or_app. simpl; auto.
      + intros (Hin & Hidx & _). apply (Permutation_in _ HU) in Hin. apply in_app_or in Hin as [Hin|Hin].
        * apply in_concat in Hin as (x & Hx & Hp). apply in_map_iff in Hx as (q & <- & Hq').
          apply In_nth_error in Hq' as (j & Hj). destruct (H5 _ _ _ _ Hj Hp) as [_ Ej].
          assert (Eji : j = i) by congruence. rewrite Eji, Hnth in Hj. injection Hj as Hj. rewrite Hj. exact Hp.
        * destruct (H6 _ _ Hin) as [_ Ej]. lia.
    - pose proof F2 as (itss & R1 & R2 & R3 & R4). unfold fx_current_size. rewrite R4. apply w64_small.
      assert (HW : good (map (widen (cl_size c)) (fst part))).
      { apply (fx_rel_widen (cl_size c) (cl_per c) fuel (proj1 Hck) (proj1 (proj2 Hck))) in F2.
        eapply (so_inside _ _ _ _ (class_strat cfg fuel limP CFG c Hck)); [exact F2|].
          apply (good_perm _ _ HL) in HGL. apply good_app in HGL as [HGL _].
          assert (HGL' : good (snd part ++ concat (map snd (p1 ++ p2)))).
          { eapply good_perm; [|exact HGL]. rewrite !map_app. cbn [map]. apply concat_swap. }
          now apply good_app in HGL' as [HGL' _]. }
      apply good_sum in HW. rewrite map_map in HW. cbn [widen snd] in HW.
      assert (E : sumZ (map (fun _ : region => cl_size c) (fst part)) = cl_size c * Z.of_nat (length (fst part))).
      { clear. induction (fst part); cbn [map sumZ length]; lia. }
      rewrite E in HW. destruct Hck as (K1 & _). unfold ASP, M64 in *. nia.
    - intros r Hin. destruct F2 as (itss & R1 & R2 & R3 & R4). apply (Permutation_in _ R2) in Hin.
      destruct (all_used_slot (cl_size c) (cl_per c) _ _ _ R1 Hin) as (p & k & K1 & K2 & K3).
      apply existsb_exists. exists p. split; auto. rewrite K3. unfold fp_owns, fx_data_bytes.
      assert (HlM : limP < M64) by (apply (HlimM cfg limP CFG)). destruct Hck as (C1 & C2 & C3). pose proof (mo_max _ _ CFG).
      rewrite w64_small by nia.
      assert (Hb : cl_size c * Z.of_nat (cl_per c) < 2 ^ 63).
      { (* the block is below 2^63 *)
        assert (Hh : In (pool_held (cl_size c) (cl_per c) p) L).
        { eapply Permutation_in; [apply Permutation_sym, HL|]. apply in_or_app. left. apply in_concat. exists (snd part).
          split; [apply in_map, in_or_app; simpl; auto|]. eapply Permutation_in; [apply Permutation_sym, R3|]. now apply in_map. }
        apply in_split in Hh as (a & b & Eab). rewrite Eab in HGL. apply good_app in HGL as (_ & HGL & _).
        apply good_cons in HGL as ((B1 & B2 & B3) & _). unfold pool_held, fx_data_bytes in *. cbn [fst snd] in *.
        rewrite w64_small in B3 by nia. unfold ASP in B3. lia. }
      destruct (Z.ltb_spec (cl_size c * Z.of_nat (cl_per c)) (2 ^ 63)); [|lia]. nia.
  Qed.

  (** The quick pool has the others. *)
  Lemma mxt_routing_quick t sw : runs MP P Inv t sw -> (forall n, In n (requests t) -> n <= lim) ->
    exists Uq Lq Lf, Inv (snd sw) (Lf ++ Lq) /\
      (forall r, In r Uq <-> In r (live t) /\ forall i, ~ suits (map cl_size (mp_fixed (fst sw))) (snd r) i) /\
      pool_obs (cf_align (mc_quick cfg)) Uq Lq (q_view (mp_quick (fst sw))).
  Proof.
    intros Hr Hq. destruct (mxt_inv t sw Hr Hq) as (L & HR & HI).
    pose proof (ps_good _ _ _ PS _ _ HI) as HGL.
    destruct HR as (parts & Uq & Lq & (H1 & H2 & H3 & H4 & H5 & H6) & HU & HL).
    exists Uq, Lq, (concat (map snd parts)). split; [eapply (ps_perm _ _ _ PS); eauto|]. split.
    - intros [p n]. cbn [snd]. split.
      + intros Hin. split; [eapply Permutation_in; [apply Permutation_sym, HU|]; apply in_or_app; auto|].
        intros i Hi. apply suits_index in Hi as [E Hlt]; auto. destruct (H6 _ _ Hin) as [_ E']. lia.
      + intros (Hin & Hno). apply (Permutation_in _ HU) in Hin. apply in_app_or in Hin as [Hin|Hin]; auto. exfalso.
        apply in_concat in Hin as (x & Hx & Hp). apply in_map_iff in Hx as (q & <- & Hq').
        apply In_nth_error in Hq' as (j & Hj). destruct (H5 _ _ _ _ Hj Hp) as [_ Ej]. apply (Hno j).
        apply suits_index; auto. split; auto.
        rewrite (Forall2_length _ _ _ H3). apply nth_error_Some. congruence.
    - destruct H4 as (B & HQ & Hst & HUB & HLB). eapply pool_obs_perm; [apply Permutation_sym, HLB|].
      apply (obs_of_QI limP (fun w L => Inv w (L ++ concat (map snd parts))) (mc_quick cfg) (mo_quick _ _ CFG)
               (mp_quick (fst sw)) B Uq (snd sw)); auto.
      split; [exact HQ|]. split; [exact Hst|]. eapply (ps_perm _ _ _ PS); [|exact HI].
      rewrite HL, HLB. apply Permutation_app_comm.
  Qed.

  (** Returning an allocation only concerns the pool of its class. *)
  Lemma mxt_returns t sw p n cur : runs MP P Inv t sw -> (forall n, In n (requests t) -> n <= lim) -> In (p, n) (live t) ->
    post (st_dealloc MP W P cur p n sw)
         (fun sw' _ =>
            (forall j, ~ suits (map cl_size (mp_fixed (fst sw))) n j ->
               nth_error (mp_fixed (fst sw')) j = nth_error (mp_fixed (fst sw)) j) /\
            ((exists j, suits (map cl_size (mp_fixed (fst sw))) n j) -> mp_quick (fst sw') = mp_quick (fst sw)))
         (fun _ _ => False).
  Proof.
    intros Hr Hq Hin. destruct (mxt_inv t sw Hr Hq) as (L & HR & HI).
    destruct sw as [s w]. cbn [fst snd] in *. apply in_split in Hin as (a & b & Eab).
    assert (HR' : mx_rel cfg s ((p, n) :: a ++ b) L).
    { eapply (so_perm _ _ _ _ (MixedPool_ok cfg cfuel fuel limP CFG)); [|reflexivity|exact HR]. rewrite Eab. symmetry. apply Permutation_middle. }
    assert (Hinc : increasing (map cl_size (mp_fixed s))) by (destruct HR as (? & ? & ? & (_ & H & _) & _); exact H).
    cbn [MixedPool st_dealloc]. eapply post_impl; [| |apply (mx_dealloc_ok cfg fuel limP CFG W P Inv s w _ L p n cur PS HR' HI)]; auto.
    intros [s' w'] u (_ & K1 & K2). cbn [fst snd] in *. split.
    - intros j Hj. apply K1. intros ->. pose proof (mx_index_le n (mp_fixed s)).
      destruct (Nat.lt_ge_cases (mx_index n (mp_fixed s)) (length (mp_fixed s))) as [Hlt|Hge]; [|lia].
      elim Hj. apply suits_index; auto.
    - intros (j & Hj). apply K2. apply suits_index in Hj; auto. destruct Hj. lia.
  Qed.
End MixedPoolThms.

Lemma mx_multiplier_1 q cfuel fuel {W : Type} (P : Parent W) w w' s :
  st_make (MixedPool (mkMcfg 8 64 32 1 q) cfuel fuel) W P w <> Ok w' s.
Proof.
  cbn [MixedPool st_make]. unfold mx_init. cbn [mc_small].
  assert (H : forall f acc w w' l, mx_build (mkMcfg 8 64 32 1 q) f 8 acc P w <> Ok w' l).
  { clear. induction f as [|f IH]; intros acc w w' l; cbn [mx_build]; [discriminate|].
    cbn [mc_large mc_max_initial mc_mult]. change (8 <=? 64) with true. change (8 =? 0) with false.
    change (1 <? Z.min 2048 (32 / 8)) with true. cbn iota. change (w64 (8 * 1)) with 8.
    destruct (fx_init _ _ _ _ _); cbn [bind]; try discriminate. apply IH. }
  destruct (mx_build _ _ _ _ _ _) as [w1 l| | | |] eqn:E; try discriminate. now apply H in E.
Qed.
