(** High-water marks and termination of coalescing. *)
From Verif Require Import Base BaseFacts AlignedModel AlignedFacts QuickPoolModel QuickPoolInv
  QuickPoolFacts QuickPoolOps QuickPoolFree QuickPoolMain QuickPoolSpec QuickPoolThms QuickPoolThms2.

Lemma partition_unique {T} (Q : T -> Prop) (I R I' R' : list T) :
  (forall x, In x I -> Q x) -> (forall x, In x R -> ~ Q x) ->
  (forall x, In x I' -> Q x) -> (forall x, In x R' -> ~ Q x) ->
  Permutation (I ++ R) (I' ++ R') -> Permutation I I'.
Proof.
  revert I'. induction I as [|x I IH]; intros I' H1 H2 H3 H4 HP.
  - destruct I' as [|y I']; [constructor|]. exfalso. cbn [app] in HP.
    apply (H2 y); [|apply H3; simpl; auto]. eapply Permutation_in; [apply Permutation_sym, HP|]. simpl; auto.
  - assert (Hx : In x (I' ++ R')) by (eapply Permutation_in; [exact HP|simpl; auto]).
    apply in_app_or in Hx as [Hx|Hx]; [|exfalso; apply (H4 x Hx), H1; simpl; auto].
    apply in_split in Hx as (l1 & l2 & ->). apply Permutation_cons_app. apply IH; auto.
    + intros; apply H1; simpl; auto.
    + intros y Hy. apply H3. apply in_app_or in Hy as [Hy|Hy]; apply in_or_app; simpl; auto.
    + cbn [app] in HP. apply (Permutation_cons_inv (a := x)). rewrite HP. rewrite <- !app_assoc. cbn [app].
      apply Permutation_sym, Permutation_middle.
Qed.

Lemma two_in_length {T} (x y : T) l : In x l -> In y l -> x <> y -> (2 <= length l)%nat.
Proof.
  intros Hx Hy Hne. destruct l as [|a [|b l]]; cbn in *; try lia; try tauto.
  destruct Hx as [->|[]], Hy as [->|[]]. congruence.
Qed.

Lemma unused_perm A U U' g : Permutation U U' -> unused A U g -> unused A U' g.
Proof. intros HP H u Hu. apply H. eapply Permutation_in; [apply Permutation_sym, HP|auto]. Qed.
Lemma idle_perm A U U' l : Permutation U U' -> idle A U l -> idle A U' l.
Proof. apply unused_perm. Qed.

Section Thms3.
  Context {W : Type} (P : Parent W) (limP : Z) (Inv : W -> list region -> Prop).
  Hypothesis PS : ParentSpec P limP Inv.
  Context (cfg : qcfg) (fuel : nat).
  Let A := cf_align cfg.
  Hypothesis CFG : qcfg_ok cfg limP.

  Notation QW := (QW Inv cfg).
  Notation lim := (limP - 2 * cf_align cfg).
  Notation hstep := (hstep P cfg fuel lim Inv).
  Notation hist := (hist P cfg fuel lim Inv).

  Let HA : 0 < A := HA limP cfg CFG.

  (** *** High-water marks *)
  Lemma hstep_hwm U sw U' sw' B : hstep (U, sw) (U', sw') -> QW (fst sw) (snd sw) B -> Permutation U (uregs B) ->
    q_aligned_hwm (fst sw) <= q_aligned_hwm (fst sw') /\ q_actual_hwm (fst sw) <= q_actual_hwm (fst sw') /\
    ((forall v, cf_heur cfg v = 0) ->
       q_aligned_hwm (fst sw') = Z.max (q_aligned_hwm (fst sw)) (q_aligned (fst sw')) /\
       q_actual_hwm (fst sw') = Z.max (q_actual_hwm (fst sw)) (q_actual (fst sw'))).
  Proof.
    intros Hs HQW HU.
    assert (HQ' : exists B', QW (fst sw') (snd sw') B') by (destruct (hstep_inv P limP Inv PS cfg fuel CFG _ _ _ _ Hs B HQW HU) as (B' & H1 & _); eauto).
    destruct HQ' as (B' & HQ' & _). pose proof (qi_hwm _ _ _ _ HQ') as Q1. pose proof (qi_ahwm _ _ _ _ HQ') as Q2.
    inversion Hs as [U0 sw0 n sw1 p Hn Ha|U0 sw0 n sw1 e Hn Ha|U0 U1 sw0 p n sw1 HP Ha|U0 sw0 sw1 Ha|U0 sw0 sw1 Ha|U0 s0 w0 w1 Hw];
      subst; clear Hs.
    - destruct sw as [s w]. pose proof (q_allocate_ok P limP Inv PS cfg CFG s w B n HQW ltac:(lia) ltac:(lia)) as Hp.
      rewrite Ha in Hp. cbn [post fst snd] in *. destruct Hp as (B1 & _ & _ & _ & _ & E1 & E2). split; [lia|]. split; [lia|]. auto.
    - destruct sw as [s w]. pose proof (q_allocate_ok P limP Inv PS cfg CFG s w B n HQW ltac:(lia) ltac:(lia)) as Hp.
      rewrite Ha in Hp. cbn [post fst snd] in *. destruct Hp as (B1 & _ & _ & _ & E0 & E1 & E2). split; [lia|]. split; [lia|]. intros _. lia.
    - destruct sw as [s w].
      assert (Hin : In (p, n) (uregs B)).
      { eapply Permutation_in; [exact HU|]. eapply Permutation_in; [apply Permutation_sym; eauto|simpl; auto]. }
      pose proof (q_deallocate_ok P limP Inv PS cfg CFG fuel s w B p n HQW Hin) as Hp.
      rewrite Ha in Hp. cbn [post fst snd] in *. destruct Hp as (B1 & _ & _ & E1 & E2). split; [lia|]. split; [lia|].
      intros Hh0. destruct HQW as (HQ & Hst & HI).
      destruct (q_free_core_ok A s B p n HA HQ Hst Hin) as (s1 & B2 & Ef & _ & _ & _ & _ & _ & _ & _ & _ & F1 & F2).
      assert (Es : fst sw' = s1); [|rewrite Es in *; lia].
      destruct fuel; cbn [q_deallocate fst snd] in Ha; rewrite Ef, Hh0 in Ha; cbn [Z.eqb] in Ha; inversion Ha; reflexivity.
    - destruct sw as [s w]. pose proof (q_release_ok P limP Inv PS cfg CFG s w B HQW) as Hp.
      rewrite Ha in Hp. cbn [post fst snd] in *. destruct Hp as (B1 & _ & _ & _ & _ & _ & E1 & E2). split; [lia|]. split; [lia|]. intros _. lia.
    - destruct sw as [s w]. pose proof (q_coalesce_ok P limP Inv PS cfg CFG fuel s w B HQW) as Hp.
      rewrite Ha in Hp. cbn [post fst snd] in *. destruct Hp as (B1 & _ & _ & E1 & E2). split; [lia|]. split; [lia|].
      intros Hh0. unfold q_coalesce in Ha. rewrite Hh0 in Ha. cbn [Z.eqb] in Ha. inversion Ha; subst. cbn [fst snd] in *. lia.
    - cbn [fst snd] in *. lia.
  Qed.

  Lemma hist_hwm_upper U sw H : hist U sw H -> forall s0, In s0 H ->
    q_aligned s0 <= q_aligned_hwm (fst sw) /\ q_actual s0 <= q_actual_hwm (fst sw).
  Proof.
    induction 1 as [w Hw|U sw H U' sw' Hh IH Hs].
    - intros s0 [<-|[]]. cbn. lia.
    - destruct (hist_inv P limP Inv PS cfg fuel CFG _ _ _ Hh) as (B & HQW & HU).
      destruct (hstep_hwm _ _ _ _ B Hs HQW HU) as (H1 & H2 & _).
      destruct (hstep_inv P limP Inv PS cfg fuel CFG _ _ _ _ Hs B HQW HU) as (B' & (HQ' & _) & _).
      intros s0 [<-|Hs0]; [split; [apply (qi_hwm _ _ _ _ HQ')|apply (qi_ahwm _ _ _ _ HQ')]|].
      destruct (IH s0 Hs0). lia.
  Qed.

  Lemma hist_hwm_exact U sw H : (forall v, cf_heur cfg v = 0) -> hist U sw H ->
    q_aligned_hwm (fst sw) = maxZ (map q_aligned H) /\ q_actual_hwm (fst sw) = maxZ (map q_actual H).
  Proof.
    intros H0. induction 1 as [w Hw|U sw H U' sw' Hh IH Hs]; [cbn; lia|].
    destruct (hist_inv P limP Inv PS cfg fuel CFG _ _ _ Hh) as (B & HQW & HU).
    destruct (hstep_hwm _ _ _ _ B Hs HQW HU) as (_ & _ & H3). destruct (H3 H0) as [E1 E2]. destruct IH as [I1 I2].
    unfold maxZ in *. cbn [map fold_right]. lia.
  Qed.

  (** *** Termination *)
  Lemma nf_use_chunk r c s (w : W) : q_use_chunk r c s w <> NoFuel.
  Proof. destruct (q_use_chunk_shape r c s w) as [->|(s' & ret & ->)]; discriminate. Qed.

  Lemma nf_release_loop todo : parent_total P -> forall sw, q_release_loop P todo sw <> NoFuel.
  Proof.
    intros [_ PD]. induction todo as [|e todo IH]; intros [s w]; cbn [q_release_loop]; [discriminate|].
    destruct (q_chunks s (e_chunk e)) as [c|]; [|discriminate]. destruct ((c_size c =? c_csize c) && c_free c); [|apply IH].
    cbv zeta. unfold aligned_deallocate. destruct (match q_base _ _ with Some bs => bs | None => _ end) as [b sz].
    specialize (PD b sz w). destruct (p_dealloc P b sz w); cbn [omap]; try discriminate; try congruence.
    destruct (sm_erase _ _); [apply IH|discriminate].
  Qed.

  Lemma nf_grow sz sw : parent_total P -> q_grow P cfg sz sw <> NoFuel.
  Proof.
    intros [PA _]. destruct sw as [s w]. unfold q_grow, aligned_allocate. cbv zeta.
    specialize (PA (w64 (sz + cf_align cfg)) w). destruct (p_alloc P _ w); cbn [omap]; try discriminate; congruence.
  Qed.

  Lemma nf_allocate n sw : parent_total P -> q_allocate P cfg n sw <> NoFuel.
  Proof.
    intros PT. unfold q_allocate. cbv zeta. destruct (sm_lower_bound _ _).
    - destruct (sm_erase _ _); [apply nf_use_chunk|discriminate].
    - unfold q_new_block. cbv zeta.
      match goal with |- context [match ?o with Ok _ _ => _ | Throw _ _ => _ | UB => _ | Abort => _ | NoFuel => _ end] =>
        pose proof (nf_grow (zmax (aligned_round_up (cf_align cfg) n) (if q_actual (fst sw) =? 0 then cf_first cfg else cf_next cfg)) sw PT) as N1; destruct o as [sw1 a|sw1 e| | |] eqn:E end;
        cbn [bind]; try discriminate; try congruence.
      + destruct sw1 as [s1 w1]. cbn [bind]. apply nf_use_chunk.
      + pose proof (nf_release_loop (q_sizemap (fst sw1)) PT sw1) as N2. unfold q_release.
        destruct (q_release_loop P (q_sizemap (fst sw1)) sw1) as [sw2 u|sw2 e2| | |]; cbn [bind]; try discriminate; try congruence.
        match goal with |- context [bind (q_grow P cfg ?z ?x)] => pose proof (nf_grow z x PT) as N3; destruct (q_grow P cfg z x) as [[s3 w3] a|sw3 e3| | |] end;
          cbn [bind]; try discriminate; try congruence. apply nf_use_chunk.
  Qed.

  Lemma sizemap_len s B : QI A s B [] -> length (q_sizemap s) = length (filter is_free (cells B)).
  Proof. intros HQ. rewrite (Permutation_length (qi_sm _ _ _ _ HQ)). apply map_length. Qed.

  Lemma all_rel_of_sum s B : QI A s B [] -> q_actual s = q_rel_bytes s -> forall b, In b B -> b_rel b = true.
  Proof.
    intros HQ E. rewrite (qi_actual _ _ _ _ HQ), (qi_rel _ _ _ _ HQ) in E.
    assert (Hp : forall b, In b B -> 0 < b_size b).
    { intros b Hb. apply (b_size_pos _ _ (qi_blk _ _ _ _ HQ b Hb)). }
    clear HQ. unfold rel_blocks in E. induction B as [|b B IH]; [intros b []|].
    assert (Hle : 0 <= sumZ (map b_size (filter b_rel B)) <= sumZ (map b_size B)).
    { apply sum_filter_le. intros b' Hb'. specialize (Hp b' (or_intror Hb')). lia. }
    cbn [map sumZ filter] in E. pose proof (Hp b (or_introl eq_refl)).
    destruct (b_rel b) eqn:Eb; cbn [map sumZ] in E; [|lia].
    intros b' [<-|Hb']; auto. apply IH; auto; try lia.
    intros b'' Hb''. apply Hp; simpl; auto.
  Qed.

  (** One coalescing round entered in a state where a settling heuristic asks for it. *)
  Lemma coalesce_round f s1 w B1 sug : parent_total P -> settling (cf_heur cfg) ->
    QW s1 w B1 -> sug = cf_heur cfg (q_view s1) -> sug <> 0 ->
    (let* (sw1, _u) := q_release P (s1, w) in
     if q_actual (fst sw1) <? sug then
       let* (sw2, p) := q_allocate P cfg (sug - q_actual (fst sw1)) sw1 in
       q_deallocate P cfg (S f) p sw2
     else Ok sw1 tt) <> NoFuel.
  Proof.
    intros PT Hset HQW1 Esug Hne. pose proof (q_release_ok P limP Inv PS cfg CFG s1 w B1 HQW1) as Hrel.
    pose proof (nf_release_loop (q_sizemap (fst (s1, w))) PT (s1, w)) as N1. unfold q_release in *.
    destruct (q_release_loop P (q_sizemap (fst (s1, w))) (s1, w)) as [[s2 w2] u|[s2 w2] e| | |]; cbn [bind fst snd] in *;
      try discriminate; try congruence. clear N1. cbn [post fst snd] in Hrel.
    destruct Hrel as (B2 & HP2 & HQW2 & Hnone2 & _).
    destruct (Z.ltb_spec (q_actual s2) sug) as [Hlt|Hge]; [|discriminate].
    pose proof (nf_allocate (sug - q_actual s2) (s2, w2) PT) as N2.
    pose proof (qi_actual_b _ _ _ _ HA (proj1 HQW2)) as Bact.
    pose proof (q_view_bounds limP cfg CFG _ _ _ (proj1 HQW1)) as Hv. rewrite <- Esug in Hv.
    pose proof (qc_asp _ _ CFG) as HASP.
    pose proof (q_allocate_ok P limP Inv PS cfg CFG s2 w2 B2 (sug - q_actual s2) HQW2 ltac:(lia) ltac:(lia)) as Hal. fold A in Hal.
    destruct (q_allocate P cfg (sug - q_actual s2) (s2, w2)) as [[s3 w3] p3|[s3 w3] e| | |]; cbn [bind post fst snd] in *;
      try discriminate; try congruence.
    destruct Hal as (B3 & (HQ3 & Hst3 & HI3) & HU3 & _ & Hsrc & _).
    assert (Hin3 : In (p3, sug - q_actual s2) (uregs B3)).
    { eapply Permutation_in; [apply Permutation_sym, HU3|]. simpl; auto. }
    destruct (q_free_core_ok A s3 B3 p3 _ HA HQ3 Hst3 Hin3) as (s4 & B4 & E4 & HQ4 & Hst4 & HU4 & HH4 & _).
    cbn [q_deallocate fst snd]. rewrite E4.
    assert (HUU : Permutation (uregs B4) (uregs B2)).
    { eapply Permutation_cons_inv. rewrite HU4. exact HU3. }
    assert (HHeld : exists N, (length N <= 1)%nat /\ Permutation (map b_held B4) (N ++ map b_held B2)).
    { destruct Hsrc as [(x & _ & _ & _ & _ & _ & _ & HH)|(_ & p & Bk & _ & Hgr & HH)].
      - exists []. split; [cbn; lia|]. cbn [app]. rewrite HH4. exact HH.
      - exists [(p, new_size cfg s2 (aligned_round_up A (sug - q_actual s2)) + cf_align cfg)]. split; [cbn; lia|].
        cbn [app]. rewrite HH4. rewrite HH. constructor.
        destruct Hgr as [[_ ->]|(w9 & e9 & s9 & w8 & _ & _ & _ & HPk & _)]; [reflexivity|].
        rewrite Hnone2 in HPk. cbn [app] in HPk. now apply Permutation_map, Permutation_sym. }
    destruct HHeld as (N & HN & HHeld).
    destruct (Z.eqb_spec (cf_heur cfg (q_view s4)) 0) as [|Hh4]; [discriminate|].
    destruct Hset as [Hset|Hset].
    - (* whole pool free *)
      assert (Hall1 : forall b, In b B1 -> b_rel b = true).
      { apply (all_rel_of_sum s1 B1 (proj1 HQW1)). apply (Hset (q_view s1)). congruence. }
      assert (HB2 : B2 = []).
      { destruct B2 as [|b B2']; auto. exfalso.
        assert (In b (rel_blocks (b :: B2'))).
        { apply filter_In. split; [simpl; auto|]. apply Hall1. eapply Permutation_in; [apply Permutation_sym, HP2|].
          apply in_or_app; simpl; auto. }
        rewrite Hnone2 in H. contradiction. }
      subst B2. cbn [map] in HHeld. rewrite app_nil_r in HHeld.
      assert (Hall4 : forall b, In b B4 -> b_rel b = true).
      { apply (all_rel_of_sum s4 B4 HQ4). apply (Hset (q_view s4)). congruence. }
      assert (Hlen : (length (q_sizemap s4) <= 1)%nat).
      { rewrite (sizemap_len s4 B4 HQ4). apply Permutation_length in HHeld. rewrite map_length in HHeld.
        destruct B4 as [|b [|b' B4]]; [cbn; lia| |cbn in HHeld; lia].
        specialize (Hall4 b (or_introl eq_refl)). unfold b_rel in Hall4. unfold cells. cbn [flat_map]. rewrite app_nil_r.
        destruct (b_cells b) as [|x [|y l]]; try discriminate. cbn [filter]. destruct (is_free x); cbn; lia. }
      destruct (Z.ltb_spec 1 (Z.of_nat (length (q_sizemap s4)))); [lia|]. cbn. discriminate.
    - exfalso. specialize (Hset _ Hh4). cbn [q_view v_rel_blocks] in Hset.
      rewrite (qi_relb _ _ _ _ HQ4) in Hset.
      (* idle blocks of B4 are among N *)
      destruct HQW2 as (HQ2 & Hst2 & HI2).
      assert (Hcount : (length (rel_blocks B4) <= length N)%nat).
      { assert (HPidle : Permutation (map b_held (rel_blocks B4) ++ map b_held (filter (fun b => negb (b_rel b)) B4)) (N ++ map b_held B2)).
        { rewrite <- map_app. rewrite <- HHeld. apply Permutation_map, Permutation_sym, rel_split. }
        assert (Hinc : incl (map b_held (rel_blocks B4)) N).
        { intros l Hl. assert (Hl' : In l (N ++ map b_held B2)).
          { eapply Permutation_in; [exact HPidle|]. apply in_or_app; auto. }
          apply in_app_or in Hl' as [Hl'|Hl']; auto. exfalso.
          apply in_map_iff in Hl as (b4 & E & Hb4). apply filter_In in Hb4 as [Hb4 Hr4].
          apply in_map_iff in Hl' as (b2 & E2 & Hb2).
          assert (Hid4 : idle A (uregs B4) (b_held b4)) by (eapply (b_rel_idle limP cfg CFG s4 B4); eauto).
          assert (Hid2 : idle A (uregs B2) (b_held b2)) by (rewrite E2, <- E; eapply idle_perm; eauto).
          eapply (b_rel_idle limP cfg CFG s2 B2) in Hid2; eauto.
          assert (In b2 (rel_blocks B2)) by (apply filter_In; auto). rewrite Hnone2 in *. contradiction. }
        rewrite <- (map_length b_held (rel_blocks B4)).
        apply NoDup_incl_length; auto.
        pose proof (good_NoDup _ (qi_good _ _ _ _ HQ4)) as ND. unfold rel_blocks. now apply NoDup_filter_map. }
      lia.
  Qed.

  Lemma q_deallocate_terminates f U s w H p n : parent_total P -> settling (cf_heur cfg) ->
    hist U (s, w) H -> In (p, n) U -> q_deallocate P cfg (S (S f)) p (s, w) <> NoFuel.
  Proof.
    intros PT Hset Hh Hin. destruct (hist_inv P limP Inv PS cfg fuel CFG _ _ _ Hh) as (B & (HQ & Hst & HI) & HU).
    cbn [fst snd] in *. eapply Permutation_in in Hin; [|exact HU].
    destruct (q_free_core_ok A s B p n HA HQ Hst Hin) as (s1 & B1 & E1 & HQ1 & Hst1 & HU1 & HH1 & _).
    assert (HQW1 : QW s1 w B1).
    { split; [exact HQ1|]. split; [exact Hst1|]. eapply (ps_perm _ _ _ PS); [apply Permutation_sym, HH1|exact HI]. }
    change (q_deallocate P cfg (S (S f)) p (s, w)) with
      (match q_free_core p s with
       | None => UB
       | Some s0 =>
        if cf_heur cfg (q_view s0) =? 0 then Ok (s0, w) tt
        else noexcept
                (if 1 <? Z.of_nat (length (q_sizemap s0)) then
                   let* (sw1, _u) := q_release P (s0, w) in
                   if q_actual (fst sw1) <? cf_heur cfg (q_view s0) then
                     let* (sw2, p) := q_allocate P cfg (cf_heur cfg (q_view s0) - q_actual (fst sw1)) sw1 in
                     q_deallocate P cfg (S f) p sw2
                   else Ok sw1 tt
                 else Ok (s0, w) tt) end).
    rewrite E1. destruct (Z.eqb_spec (cf_heur cfg (q_view s1)) 0) as [|Hne]; [discriminate|].
    destruct (1 <? Z.of_nat (length (q_sizemap s1))); [|discriminate].
    pose proof (coalesce_round f s1 w B1 _ PT Hset HQW1 eq_refl Hne) as HN.
    match goal with |- noexcept ?o <> _ => destruct o end; cbn [noexcept]; congruence.
  Qed.

  Lemma q_coalesce_terminates f U s w H : parent_total P -> settling (cf_heur cfg) ->
    hist U (s, w) H -> q_coalesce P cfg (S f) (s, w) <> NoFuel.
  Proof.
    intros PT Hset Hh. destruct (hist_inv P limP Inv PS cfg fuel CFG _ _ _ Hh) as (B & HQW & HU).
    cbn [fst snd] in *. unfold q_coalesce, q_do_coalesce. cbn [fst].
    destruct (Z.eqb_spec (cf_heur cfg (q_view s)) 0) as [|Hne]; [discriminate|].
    destruct (1 <? Z.of_nat (length (q_sizemap s))); [|discriminate].
    pose proof (coalesce_round f s w B _ PT Hset HQW eq_refl Hne) as HN.
    match goal with |- noexcept ?o <> _ => destruct o end; cbn [noexcept]; congruence.
  Qed.

  (** *** Non-termination *)
  Lemma release_total todo : forall sw, (forall p n w, p_dealloc P p n w <> NoFuel /\ p_dealloc P p n w <> Abort) ->
    q_release_loop P todo sw <> NoFuel /\ q_release_loop P todo sw <> Abort.
  Proof.
    intros sw PD. revert sw. induction todo as [|e todo IH]; intros [s w]; cbn [q_release_loop]; [split; discriminate|].
    destruct (q_chunks s (e_chunk e)) as [c|]; [|split; discriminate]. destruct ((c_size c =? c_csize c) && c_free c); [|apply IH].
    cbv zeta. unfold aligned_deallocate. destruct (match q_base _ _ with Some bs => bs | None => _ end) as [b sz].
    specialize (PD b sz w). destruct (p_dealloc P b sz w); cbn [omap]; try (split; discriminate); try tauto.
    destruct (sm_erase _ _); [apply IH|split; discriminate].
  Qed.

  Lemma q_allocate_hit_new s w B n w' p : QW s w B -> 0 < n <= lim ->
    (forall x, In x (cells B) -> k_st x = SFree -> k_size x < aligned_round_up A n) ->
    p_alloc P (new_size cfg s (aligned_round_up A n) + A) w = Ok w' p ->
    exists sw3 p3, q_allocate P cfg n (s, w) = Ok sw3 p3.
  Proof.
    intros HQW Hn Hno Ep.
    assert (Elb : sm_lower_bound (aligned_round_up A n) (q_sizemap s) = None).
    { destruct (sm_lower_bound (aligned_round_up A n) (q_sizemap s)) as [e|] eqn:E; auto. exfalso.
      apply sm_lower_bound_some in E as [He Hge]. destruct HQW as (HQ & _).
      eapply Permutation_in in He; [|apply (qi_sm _ _ _ _ HQ)].
      apply in_map_iff in He as (x & <- & Hx). apply filter_In in Hx as [Hx Hf].
      assert (k_st x = SFree) by (unfold is_free in Hf; destruct (k_st x); auto; discriminate).
      specialize (Hno x Hx H). unfold cell_entry, e_size in Hge. cbn [fst] in Hge. lia. }
    pose proof (q_allocate_ok P limP Inv PS cfg CFG s w B n HQW ltac:(lia) ltac:(lia)) as Hp.
    rewrite (allocate_miss_eq P cfg n s w Elb) in Hp |- *.
    pose proof (qc_lim _ _ CFG) as HLIM. pose proof (qc_first _ _ CFG) as HF. pose proof (qc_next _ _ CFG) as HN.
    assert (Hns : 0 < new_size cfg s (aligned_round_up A n) /\ new_size cfg s (aligned_round_up A n) + A < M64).
    { pose proof (new_size_spec limP cfg CFG s n ltac:(lia)) as E. fold A in E. rewrite E.
      pose proof (round_to_spec A n HA). fold A in HF, HN, Hn. destruct (v_actual (q_view s) =? 0); lia. }
    pose proof (grow_eq P limP cfg CFG (new_size cfg s (aligned_round_up A n)) s w (proj2 Hns) (proj1 Hns)) as Eg.
    fold A in Eg. rewrite Ep in Eg.
    destruct (new_block_ok_eq P cfg _ _ _ _ _ Eg) as (s' & c & En). fold A in Hp |- *. rewrite En in *. cbn [bind fst snd] in *.
    destruct (q_use_chunk_shape (aligned_round_up A n) c s' w') as [E|(s'' & ret & E)]; rewrite E in *; [contradiction|eauto].
  Qed.

  Lemma gap_mono U U' L L' g : (forall u, In u U' -> In u U) -> (forall l, In l L -> In l L') ->
    gap A U L g -> gap A U' L' g.
  Proof.
    intros HU HL (H1 & (l & Hl & Hi) & H3). split; auto. split; [exists l; auto|]. intros u Hu. auto.
  Qed.

  Lemma never_returns a0 r0 :
    (forall v, v_actual v = a0 -> v_releasable v = r0 -> 0 < v_rel_blocks v -> cf_heur cfg v = a0) ->
    r0 mod A = 0 -> cf_next cfg <= r0 ->
    forall f s w B p n U1 R, QW s w B -> Permutation (uregs B) ((p, n) :: U1) ->
    q_actual s = a0 -> churn A U1 (map b_held B) R r0 ->
    (forall sw' u, q_deallocate P cfg f p (s, w) <> Ok sw' u) /\
    ((forall p n w, p_dealloc P p n w <> NoFuel /\ p_dealloc P p n w <> Abort) ->
     (forall w L, Inv w L -> Permutation L R -> exists w' p, p_alloc P (r0 + A) w = Ok w' p) ->
     q_deallocate P cfg f p (s, w) = NoFuel).
  Proof.
    intros Hh Hmod Hnext. induction f as [|f IH]; intros s w B p n U1 R (HQ & Hst & HI) HU Ha0 Hchurn.
    all: assert (Hin : In (p, n) (uregs B)) by (eapply Permutation_in; [apply Permutation_sym, HU|simpl; auto]).
    all: destruct (q_free_core_ok A s B p n HA HQ Hst Hin) as (s1 & B1 & E1 & HQ1 & Hst1 & HU1 & HH1 & _ & Eact & _).
    all: assert (HUU : Permutation (uregs B1) U1) by (eapply Permutation_cons_inv; rewrite HU1; exact HU).
    all: destruct Hchurn as (I & HPL & HI1 & HR1 & HrI & Hr0 & (g0 & Hg0) & Hgaps).
    all: assert (HQW1 : QW s1 w B1)
      by (split; [exact HQ1|]; split; [exact Hst1|]; eapply (ps_perm _ _ _ PS); [apply Permutation_sym, HH1|exact HI]).
    all: pose proof (obs_of_QI limP Inv cfg CFG s1 B1 U1 w HQW1 ltac:(now apply Permutation_sym)) as Hobs; fold A in Hobs.
    all: assert (HPI : exists I' R', Permutation (map b_held B1) (I' ++ R') /\ Permutation I I' /\ Permutation R R' /\
           v_rel_blocks (q_view s1) = Z.of_nat (length I') /\ v_releasable (q_view s1) = r0).
    1,3: destruct (po_idle _ _ _ _ Hobs) as (I' & R' & HPL' & HI' & HR' & Hc & Hs); exists I', R';
         assert (HPIR : Permutation (I ++ R) (I' ++ R')) by (rewrite <- HPL, <- HPL'; now apply Permutation_sym);
         pose proof (partition_unique (idle A U1) I R I' R' HI1 HR1 HI' HR' HPIR) as HII;
         split; [exact HPL'|]; split; [exact HII|]; split;
         [apply (Permutation_app_inv_l I); rewrite HPIR; apply Permutation_app_tail; now apply Permutation_sym|];
         split; [exact Hc|]; rewrite Hs, <- HrI; apply sum_over_perm; now apply Permutation_sym.
    all: destruct HPI as (I' & R' & HPL' & HII & HRR & Hrb & Hrel0).
    all: assert (Hsug : cf_heur cfg (q_view s1) = a0)
      by (apply Hh; [cbn [q_view v_actual]; congruence|exact Hrel0|];
          rewrite Hrb; destruct I' as [|l I']; [apply Permutation_sym, Permutation_nil in HII; subst I; cbn in HrI; lia|cbn [length]; lia]).
    all: assert (Hpos : 0 < a0)
      by (pose proof (qi_rel_b _ _ _ _ HQ1) as HB; cbn [q_view v_releasable] in Hrel0; lia).
    all: cbn [q_deallocate fst snd]; rewrite E1, Hsug; destruct (Z.eqb_spec a0 0); [lia|].
    - split; [discriminate|reflexivity].
    - (* two free fragments at least *)
      assert (Hlen : 1 < Z.of_nat (length (q_sizemap s1))).
      { rewrite (sizemap_len s1 B1 HQ1).
        assert (HI0 : exists l, In l I). { destruct I as [|l I0]; [cbn in HrI; lia|exists l; simpl; auto]. }
        destruct HI0 as (l & Hl).
        assert (HlB : In l (map b_held B1)).
        { eapply Permutation_in; [apply Permutation_sym, HPL'|]. apply in_or_app. left. eapply Permutation_in; eauto. }
        apply in_map_iff in HlB as (b1 & <- & Hb1).
        assert (Hr1 : b_rel b1 = true).
        { eapply (b_rel_idle limP cfg CFG s1 B1 (uregs B1)); eauto. eapply idle_perm; [apply Permutation_sym, HUU|]. auto. }
        pose proof Hr1 as Hr1'. unfold b_rel in Hr1'. destruct (b_cells b1) as [|x1 [|? ?]] eqn:Ec1; try discriminate.
        destruct Hg0 as (G1 & (l2 & Hl2 & Hi2) & G3).
        assert (Hl2B : In l2 (map b_held B1)).
        { eapply Permutation_in; [apply Permutation_sym, HPL'|]. apply in_or_app. right. eapply Permutation_in; eauto. }
        apply in_map_iff in Hl2B as (b2 & E2 & Hb2).
        assert (Hr2 : b_rel b2 = false).
        { destruct (b_rel b2) eqn:Er; auto. exfalso. apply (HR1 l2 Hl2). rewrite <- E2.
          eapply idle_perm; [exact HUU|]. eapply (b_rel_idle limP cfg CFG s1 B1 (uregs B1)); eauto. }
        subst l2.
        pose proof (block_data_range limP cfg CFG _ _ _ HQ1 Hb2) as Hdr. fold A in Hdr. rewrite Hdr in Hi2.
        unfold inside in Hi2; cbn [fst snd] in Hi2. pose proof (qi_blk _ _ _ _ HQ1 b2 Hb2) as Hok2.
        destruct (gap_in_cells (b_data b2) (b_cells b2) g0) as (x2 & Hx2 & Hf2 & Hin2); auto; try apply Hok2; try tauto.
        { intros x Hx. apply Hst1, in_cells; eauto. }
        { intros x Hx Hus.
          destruct (used_extents limP cfg CFG _ _ U1 HQ1 ltac:(now apply Permutation_sym) x ltac:(apply in_cells; eauto) Hus) as (u0 & Hu0 & He).
          rewrite <- He. auto. }
        assert (Hfree : forall x, In x (cells B1) -> is_used x = false -> is_free x = true).
        { intros x Hx Hus. destruct (Hst1 x Hx) as [E|[r E]]; unfold is_free, is_used in *; rewrite E in *; auto. }
        assert (Hx1c : In x1 (cells B1)) by (apply in_cells; exists b1; rewrite Ec1; simpl; auto).
        assert (Hx2c : In x2 (cells B1)) by (apply in_cells; eauto).
        assert ((2 <= length (filter is_free (cells B1)))%nat); [|lia].
        apply (two_in_length x1 x2).
        - apply filter_In. split; auto. apply Hfree; auto. unfold is_rel, is_used in *. destruct (k_st x1); auto; discriminate.
        - apply filter_In. split; auto.
        - intros <-. assert (b1 <> b2) by congruence.
          pose proof (cell_in_held A b1 x1 (qi_blk _ _ _ _ HQ1 b1 Hb1) ltac:(rewrite Ec1; simpl; auto)) as Hh1.
          pose proof (cell_in_held A b2 x1 Hok2 Hx2) as Hh2.
          destruct (bo_cells _ _ Hok2 x1 Hx2) as (Hp1 & _).
          pose proof (proj2 (qi_good _ _ _ _ HQ1)) as HD.
          destruct (in_split _ _ Hb1) as (L1 & L2 & EB).
          rewrite EB in HD. eapply pairwise_perm in HD; [|intros a b; apply disj_sym|apply Permutation_map, Permutation_sym, Permutation_middle].
          cbn [map] in HD. apply pairwise_cons in HD as [HD _].
          assert (Hb2' : In b2 (L1 ++ L2)).
          { rewrite EB in Hb2. apply in_app_or in Hb2 as [Hb2|[Hb2|Hb2]]; [| congruence|]; apply in_or_app; auto. }
          specialize (HD (b_held b2) (in_map b_held _ _ Hb2')). unfold disj, inside, cell_region in *; cbn [fst snd] in *. lia. }
      destruct (Z.ltb_spec 1 (Z.of_nat (length (q_sizemap s1)))); [|lia].
      pose proof (q_release_ok P limP Inv PS cfg CFG s1 w B1 HQW1) as Hrel.
      pose proof (release_total (q_sizemap (fst (s1, w))) (s1, w)) as Hreltot. fold (q_release P (s1, w)) in Hreltot.
      destruct (q_release P (s1, w)) as [[s2 w2] u2|[s2 w2] e| | |]; cbn [bind noexcept post fst snd] in *; try contradiction.
      2,3: split; [discriminate|]; intros PD _; exfalso; destruct (Hreltot PD); congruence.
      destruct Hrel as (B2 & HP2 & HQW2 & Hnone2 & _).
      pose proof HQW2 as (HQ2 & Hst2 & HI2).
      assert (HU2 : Permutation U1 (uregs B2)).
      { rewrite (uregs_release _ _ HP2). now apply Permutation_sym. }
      assert (HR2 : Permutation (map b_held B2) R).
      { assert (HX : Permutation (map b_held (rel_blocks B1) ++ map b_held B2) (I ++ R)).
        { rewrite <- map_app. rewrite <- (Permutation_map b_held HP2). rewrite HH1. exact HPL. }
        assert (HY : Permutation (map b_held (rel_blocks B1)) I).
        { apply (partition_unique (idle A U1) _ (map b_held B2) I R); auto.
          - intros l Hl. apply in_map_iff in Hl as (b & <- & Hb). apply filter_In in Hb as [Hb Hbr].
            eapply idle_perm; [exact HUU|]. eapply (b_rel_idle limP cfg CFG s1 B1 (uregs B1)); eauto.
          - intros l Hl. apply in_map_iff in Hl as (b & <- & Hb). intros Hid.
            eapply (b_rel_idle limP cfg CFG s2 B2 U1) in Hid; eauto.
            assert (In b (rel_blocks B2)) by (apply filter_In; auto). rewrite Hnone2 in *. contradiction. }
        apply (Permutation_app_inv_l I). rewrite <- HX. apply Permutation_app_tail. now apply Permutation_sym. }
      assert (Hact2 : q_actual s2 = a0 - r0).
      { rewrite (qi_actual _ _ _ _ HQ2). cbn [q_view v_releasable] in Hrel0.
        rewrite (qi_rel _ _ _ _ HQ1) in Hrel0.
        assert (Ea : q_actual s1 = a0) by congruence. rewrite (qi_actual _ _ _ _ HQ1) in Ea.
        rewrite (sumZ_perm _ _ (Permutation_map b_size HP2)), map_app, sumZ_app in Ea. lia. }
      assert (Hpos2 : 0 < q_actual s2).
      { destruct Hg0 as (G1 & (l2 & Hl2 & Hi2) & G3).
        eapply Permutation_in in Hl2; [|apply Permutation_sym, HR2]. apply in_map_iff in Hl2 as (b & <- & Hb).
        rewrite (qi_actual _ _ _ _ HQ2). apply in_split in Hb as (L1 & L2 & EB). rewrite EB, map_app, sumZ_app. cbn [map sumZ].
        assert (HNN : forall l, incl l B2 -> 0 <= sumZ (map b_size l)).
        { intros l Hl. apply sumZ_nonneg. intros z Hz. apply in_map_iff in Hz as (y & <- & Hy).
          pose proof (b_size_pos _ _ (qi_blk _ _ _ _ HQ2 y (Hl y Hy))). lia. }
        assert (incl L1 B2) by (intros y Hy; rewrite EB; apply in_or_app; auto).
        assert (incl L2 B2) by (intros y Hy; rewrite EB; apply in_or_app; simpl; auto).
        pose proof (HNN L1 ltac:(auto)). pose proof (HNN L2 ltac:(auto)).
        pose proof (b_size_pos _ _ (qi_blk _ _ _ _ HQ2 b ltac:(rewrite EB; apply in_or_app; simpl; auto))). lia. }
      destruct (Z.ltb_spec (q_actual s2) a0); [|lia].
      replace (a0 - q_actual s2) with r0 by lia.
      pose proof (qi_actual_b _ _ _ _ HA HQ1) as Bact. pose proof (qc_asp _ _ CFG) as HASP. pose proof (qc_lim _ _ CFG) as HLIM.
      assert (Hr0b : 0 < r0 <= lim) by lia.
      pose proof (q_allocate_ok P limP Inv PS cfg CFG s2 w2 B2 r0 HQW2 ltac:(lia) ltac:(lia)) as Hal. fold A in Hal.
      assert (Hround : aligned_round_up A r0 = r0).
      { rewrite (round_lim limP cfg CFG) by lia. pose proof (round_to_spec A r0 HA) as [HH HM].
        apply (mult_unique A _ _ r0); auto; lia. }
      assert (Halok : (forall w L, Inv w L -> Permutation L R -> exists w' p, p_alloc P (r0 + A) w = Ok w' p) ->
                exists sw3 p3, q_allocate P cfg r0 (s2, w2) = Ok sw3 p3).
      { intros PAl. destruct (PAl w2 (map b_held B2) HI2 HR2) as (w' & p' & Ep).
        apply (q_allocate_hit_new s2 w2 B2 r0 w' p' HQW2 Hr0b); fold A.
        - intros x Hx Hxs. rewrite Hround.
          assert (Hgx : gap A U1 R (cell_region x)).
          { eapply gap_perm; [exact HR2|]. eapply (free_cell_gap limP cfg CFG s2 B2 U1); eauto. unfold is_used; now rewrite Hxs. }
          specialize (Hgaps _ Hgx). exact Hgaps.
        - rewrite Hround.
          assert (new_size cfg s2 r0 = r0) as ->; [|exact Ep].
          unfold new_size. rewrite zmax_max. destruct (Z.eqb_spec (q_actual s2) 0); lia. }
      destruct (q_allocate P cfg r0 (s2, w2)) as [[s3 w3] p3|[s3 w3] e| | |]; cbn [bind noexcept post fst snd] in *; try contradiction.
      2,3,4: split; [discriminate|]; intros _ PAl; exfalso; destruct (Halok PAl) as (? & ? & ?); discriminate.
      destruct Hal as (B3 & HQW3 & HU3 & _ & Hsrc & _).
      rewrite Hround in Hsrc.
      assert (Hheld3 : exists pn, Permutation (map b_held B3) ((pn, r0 + A) :: R)).
      { destruct Hsrc as [(x & Hx & Hxs & _ & Hxr & _)|(_ & pn & Bk & _ & Hgr & HH)].
        - exfalso. assert (gap A U1 R (cell_region x)).
          { eapply gap_perm; [exact HR2|]. eapply (free_cell_gap limP cfg CFG s2 B2 U1); eauto. unfold is_used; now rewrite Hxs. }
          specialize (Hgaps _ H1). cbn [cell_region snd] in Hgaps. lia.
        - exists pn. rewrite HH.
          assert (new_size cfg s2 r0 = r0) as ->.
          { unfold new_size. rewrite zmax_max. destruct (Z.eqb_spec (q_actual s2) 0); lia. }
          constructor. rewrite <- HR2.
          destruct Hgr as [[_ ->]|(w9 & e9 & s9 & w8 & _ & _ & _ & HPk & _)]; [reflexivity|].
          rewrite Hnone2 in HPk. cbn [app] in HPk. now apply Permutation_map, Permutation_sym. }
      destruct Hheld3 as (pn & Hheld3).
      assert (Hnr : (forall sw0 u0, q_deallocate P cfg f p3 (s3, w3) <> Ok sw0 u0) /\
        ((forall p n w, p_dealloc P p n w <> NoFuel /\ p_dealloc P p n w <> Abort) ->
         (forall w L, Inv w L -> Permutation L R -> exists w' p, p_alloc P (r0 + A) w = Ok w' p) ->
         q_deallocate P cfg f p3 (s3, w3) = NoFuel)).
      { assert (Hgood3 : good ((pn, r0 + A) :: R)).
        { eapply good_perm; [exact Hheld3|]. apply (qi_good _ _ _ _ (proj1 HQW3)). }
        apply (IH s3 w3 B3 p3 r0 U1 R HQW3).
        - rewrite HU3. constructor. now apply Permutation_sym.
        - pose proof (sum_held cfg s3 B3 B3 (proj1 HQW3) (incl_refl _)) as S3.
          pose proof (sum_held cfg s2 B2 B2 HQ2 (incl_refl _)) as S2. fold A in S2, S3.
          rewrite (sum_over_perm _ _ _ Hheld3) in S3. rewrite (sum_over_perm _ _ _ HR2) in S2.
          rewrite (qi_actual _ _ _ _ (proj1 HQW3)), <- S3.
          change (r0 + A - A + sum_over (fun l => snd l - A) R = a0).
          rewrite <- (qi_actual _ _ _ _ HQ2) in S2.
          match goal with |- _ + ?x = _ => change x with (sum_over (fun l : Z * Z => snd l - A) R) end.
          unfold region in *. lia.
        - exists [(pn, r0 + A)]. split; [exact Hheld3|].
          split; [|split; [exact HR1|]; split; [unfold sum_over; cbn [fold_right snd]; lia|]; split; [lia|]; split; [eauto|exact Hgaps]].
          intros l [<-|[]]. intros u0 Hu0.
          pose proof (obs_of_QI limP Inv cfg CFG s2 B2 U1 w2 HQW2 HU2) as Hobs2. fold A in Hobs2.
          destruct (po_in _ _ _ _ Hobs2 u0 Hu0) as (l & Hl & _ & Hi1 & Hi2).
          eapply Permutation_in in Hl; [|exact HR2].
          apply good_cons in Hgood3 as ((W1 & W2 & W3) & HD & _). specialize (HD l Hl). cbn [fst snd] in *.
          pose proof (round_to_spec A pn HA) as [HH HM].
          unfold disj, inside, data_range in *; cbn [fst snd] in *. lia. }
      destruct Hnr as [Hnr1 Hnr2]. split.
      + destruct (q_deallocate P cfg f p3 (s3, w3)) as [sw0 u0|sw0 e0| | |]; cbn [noexcept]; try discriminate.
        exfalso. eapply Hnr1; eauto.
      + intros PD PAl. now rewrite (Hnr2 PD PAl).
  Qed.
End Thms3.
