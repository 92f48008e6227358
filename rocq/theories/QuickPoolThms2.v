(** Where allocations come from, what release gives back, high-water marks and
    termination, for whole histories of a QuickPool. *)
From Verif Require Import Base BaseFacts AlignedModel AlignedFacts QuickPoolModel QuickPoolInv
  QuickPoolFacts QuickPoolOps QuickPoolFree QuickPoolMain QuickPoolSpec QuickPoolThms.

Lemma zmax_max a b : zmax a b = Z.max a b.
Proof. unfold zmax. destruct (Z.ltb_spec b a); lia. Qed.

Lemma gap_perm A U L L' g : Permutation L L' -> gap A U L g -> gap A U L' g.
Proof.
  intros HP (H1 & (l & Hl & Hi) & H3). split; auto. split; auto. exists l. split; auto.
  eapply Permutation_in; eauto.
Qed.

Lemma max_gap_perm A U L L' g : Permutation L L' -> max_gap A U L g -> max_gap A U L' g.
Proof.
  intros HP [H1 H2]. split; [eapply gap_perm; eauto|]. intros g' Hg' Hi. apply H2; auto.
  eapply gap_perm; [apply Permutation_sym, HP|]; auto.
Qed.

Lemma pool_obs_perm A U L L' v : Permutation L L' -> pool_obs A U L v -> pool_obs A U L' v.
Proof.
  intros HP [O1 O2 O3 O4 O5 O6 O7 O8 O9]. constructor; auto.
  - intros u Hu. destruct (O2 u Hu) as (l & Hl & R). exists l. split; auto. eapply Permutation_in; eauto.
  - rewrite O4. now apply sum_over_perm.
  - rewrite O5. f_equal. now apply Permutation_length.
  - destruct O7 as (I & R & HP2 & Rest). exists I, R. split; auto. now rewrite <- HP.
  - destruct O8 as (G & ND & HG & E). exists G. split; auto. split; auto.
    intros g. rewrite HG. split; apply max_gap_perm; auto using Permutation_sym.
  - destruct O9 as (P1 & P2 & P3). split; [|split; auto].
    + intros g Hg. apply P1. eapply gap_perm; [apply Permutation_sym, HP|]; auto.
    + intros Hp. destruct (P2 Hp) as (g & Hg & E). exists g. split; auto. eapply gap_perm; eauto.
Qed.

Lemma q_use_chunk_shape {W} r c s (w : W) :
  q_use_chunk r c s w = UB \/ exists s' ret, q_use_chunk r c s w = Ok (s', w) ret.
Proof.
  unfold q_use_chunk. destruct (q_chunks s c) as [ch|]; [|auto]. cbv zeta.
  match goal with |- context [if ?b then _ else match _ with _ => _ end] => destruct b end; [right; eauto|].
  match goal with |- context [match ?o with Some _ => _ | None => _ end] => destruct o end; [right; eauto|auto].
Qed.

Section Thms2.
  Context {W : Type} (P : Parent W) (limP : Z) (Inv : W -> list region -> Prop).
  Hypothesis PS : ParentSpec P limP Inv.
  Context (cfg : qcfg) (fuel : nat).
  Let A := cf_align cfg.
  Hypothesis CFG : qcfg_ok cfg limP.

  Notation QW := (QW Inv cfg).
  Notation lim := (limP - 2 * cf_align cfg).
  Notation hstep := (hstep P cfg fuel lim Inv).
  Notation hist := (hist P cfg fuel lim Inv).

  Let HA : 0 < A := HA limP cfg CFG.

  Lemma round_lim n : 0 < n <= lim -> aligned_round_up A n = round_to A n.
  Proof.
    intros Hn. apply aligned_round_up_round_to; auto; try lia.
    pose proof (qc_lim _ _ CFG). fold A in Hn. lia.
  Qed.

  (** *** No operation has undefined behaviour; only allocation may throw. *)
  Definition defined {X Y} (o : outcome X Y) : Prop := o <> UB.
  Definition no_throw {X Y} (o : outcome X Y) : Prop := forall w e, o <> Throw w e.

  Lemma hist_safe U sw H : hist U sw H ->
    (forall n, 0 < n <= lim -> defined (q_allocate P cfg n sw)) /\
    (forall p n, In (p, n) U -> defined (q_deallocate P cfg fuel p sw) /\ no_throw (q_deallocate P cfg fuel p sw)) /\
    (defined (q_release P sw) /\ no_throw (q_release P sw)) /\
    (defined (q_coalesce P cfg fuel sw) /\ no_throw (q_coalesce P cfg fuel sw)).
  Proof.
    intros Hh. destruct (hist_inv P limP Inv PS cfg fuel CFG _ _ _ Hh) as (B & HQW & HU). destruct sw as [s w].
    split; [|split; [|split]].
    - intros n Hn E. pose proof (q_allocate_ok P limP Inv PS cfg CFG s w B n HQW ltac:(lia) ltac:(lia)) as Hp.
      rewrite E in Hp. exact Hp.
    - intros p n Hin. eapply Permutation_in in Hin; [|exact HU].
      pose proof (q_deallocate_ok P limP Inv PS cfg CFG fuel s w B p n HQW Hin) as Hp.
      split; [intros E|intros ? ? E]; rewrite E in Hp; exact Hp.
    - pose proof (q_release_ok P limP Inv PS cfg CFG s w B HQW) as Hp.
      split; [intros E|intros ? ? E]; rewrite E in Hp; exact Hp.
    - pose proof (q_coalesce_ok P limP Inv PS cfg CFG fuel s w B HQW) as Hp.
      split; [intros E|intros ? ? E]; rewrite E in Hp; exact Hp.
  Qed.

  (** *** release *)
  Lemma rel_split B : Permutation B (rel_blocks B ++ filter (fun b => negb (b_rel b)) B).
  Proof.
    unfold rel_blocks. induction B as [|b B IH]; cbn [filter]; auto.
    destruct (b_rel b); cbn [negb app]; [now constructor|]. rewrite IH at 1. apply Permutation_middle.
  Qed.

  Lemma release_obs U s w H : hist U (s, w) H ->
    post (q_release P (s, w))
      (fun sw' _ => exists I R, Inv w (I ++ R) /\ pool_obs A U (I ++ R) (q_view s) /\
         (forall l, In l I -> idle A U l) /\ (forall l, In l R -> ~ idle A U l) /\
         Inv (snd sw') R /\ pool_obs A U R (q_view (fst sw')))
      (fun _ _ => False).
  Proof.
    intros Hh. destruct (hist_inv P limP Inv PS cfg fuel CFG _ _ _ Hh) as (B & HQW & HU). cbn [fst snd] in *.
    eapply post_impl; [| |apply (q_release_ok P limP Inv PS cfg CFG s w B HQW)]; auto.
    intros [s' w'] _ (B' & HP & HQW' & Hnone & _). cbn [fst snd] in *.
    pose proof HQW as (HQ & Hst & HI).
    exists (map b_held (rel_blocks B)), (map b_held B'). rewrite <- map_app. split; [|split; [|split; [|split; [|split]]]].
    - eapply (ps_perm _ _ _ PS); [|exact HI]. now apply Permutation_map.
    - eapply pool_obs_perm; [apply Permutation_map, HP|]. eapply obs_of_QI; eauto.
    - intros l Hl. apply in_map_iff in Hl as (b & <- & Hb). apply filter_In in Hb as [Hb Hr].
      eapply (b_rel_idle limP cfg CFG s B U b); eauto.
    - intros l Hl. apply in_map_iff in Hl as (b & <- & Hb). intros Hid.
      assert (HbB : In b B). { eapply Permutation_in; [apply Permutation_sym, HP|]. apply in_or_app; auto. }
      eapply (b_rel_idle limP cfg CFG s B U b) in Hid; eauto.
      assert (In b (rel_blocks B')) by (apply filter_In; auto). rewrite Hnone in *. contradiction.
    - apply HQW'.
    - eapply obs_of_QI; eauto. rewrite HU. apply Permutation_sym, uregs_release; auto.
  Qed.

  (** *** allocate *)
  Lemma largest_lb s B r : QI A s B [] ->
    (r <= v_largest (q_view s) -> q_sizemap s <> [] -> exists e, sm_lower_bound r (q_sizemap s) = Some e) /\
    (v_largest (q_view s) < r -> sm_lower_bound r (q_sizemap s) = None).
  Proof.
    intros HQ. destruct (largest_key_spec _ (qi_sorted _ _ _ _ HQ)) as (K1 & K2 & K3). cbn [q_view v_largest]. split.
    - intros Hr Hne. destruct (K2 Hne) as (e & He & Hk). destruct (sm_lower_bound r (q_sizemap s)) as [e'|] eqn:E; eauto.
      pose proof (sm_lower_bound_none _ _ E e He). lia.
    - intros Hr. destruct (sm_lower_bound r (q_sizemap s)) as [e'|] eqn:E; auto.
      apply sm_lower_bound_some in E as [He Hge]. specialize (K1 _ He). lia.
  Qed.

  Lemma alloc_hit_obs U s w H n : hist U (s, w) H -> 0 < n <= lim ->
    round_to A n <= v_largest (q_view s) ->
    exists L s' g, Inv w L /\ pool_obs A U L (q_view s) /\
      q_allocate P cfg n (s, w) = Ok (s', w) (fst g) /\
      max_gap A U L g /\ round_to A n <= snd g /\
      (forall g', max_gap A U L g' -> round_to A n <= snd g' -> snd g <= snd g') /\
      pool_obs A ((fst g, n) :: U) L (q_view s').
  Proof.
    intros Hh Hn Hr. destruct (hist_inv P limP Inv PS cfg fuel CFG _ _ _ Hh) as (B & HQW & HU). cbn [fst snd] in *.
    pose proof HQW as (HQ & Hst & HI). rewrite <- round_lim in * by auto.
    pose proof (q_allocate_ok P limP Inv PS cfg CFG s w B n HQW ltac:(lia) ltac:(lia)) as Hp.
    destruct (largest_lb s B (aligned_round_up A n) HQ) as [HL1 _].
    assert (Hpos : 0 < aligned_round_up A n) by (rewrite round_lim by auto; pose proof (round_to_spec A n HA); lia).
    assert (Hne : q_sizemap s <> []).
    { intros E. cbn [q_view v_largest] in Hr. rewrite E in Hr. cbn in Hr. lia. }
    destruct (HL1 Hr Hne) as (e & Elb).
    assert (Hok : exists s' p, q_allocate P cfg n (s, w) = Ok (s', w) p).
    { unfold q_allocate in Hp |- *. fold A in Hp |- *. cbn [fst snd] in *. rewrite Elb in *.
      destruct (sm_erase (e_tok e) (q_sizemap s)) as [sm|]; [|contradiction].
      destruct (q_use_chunk_shape (aligned_round_up A n) (e_chunk e) (set_sizemap s sm) w) as [E|E]; auto.
      rewrite E in Hp. contradiction. }
    destruct Hok as (s' & p & Hok). rewrite Hok in Hp. cbn [post fst snd] in Hp.
    destruct Hp as (B' & HQW' & HU' & _ & Hsrc & _). fold A in Hsrc.
    destruct Hsrc as [(x & Hx & Hxs & -> & Hxr & Hmin & _ & HH)|(Hno & _)].
    - exists (map b_held B), s', (cell_region x). cbn [cell_region fst snd].
      split; [exact HI|]. split; [eapply obs_of_QI; eauto|]. split; [exact Hok|].
      assert (Hmg : max_gap A U (map b_held B) (cell_region x)).
      { eapply (max_gap_iff limP cfg CFG s B U); eauto. apply in_map, filter_In. split; auto. unfold is_free; now rewrite Hxs. }
      split; [exact Hmg|]. split; [exact Hxr|]. split.
      + intros g' Hg' Hfit. eapply (max_gap_iff limP cfg CFG s B U) in Hg'; eauto.
        apply in_map_iff in Hg' as (y & <- & Hy). apply filter_In in Hy as [Hy Hfy].
        cbn [cell_region snd] in *. apply Hmin; auto. unfold is_free in Hfy. destruct (k_st y); auto; discriminate.
      + eapply pool_obs_perm; [exact HH|]. eapply obs_of_QI; eauto. rewrite HU'. now rewrite HU.
    - exfalso. apply sm_lower_bound_some in Elb as [Hin Hge].
      eapply Permutation_in in Hin; [|apply (qi_sm _ _ _ _ HQ)]. apply in_map_iff in Hin as (x & <- & Hx).
      apply filter_In in Hx as [Hx Hf]. cbn [cell_entry e_size fst snd] in Hge.
      unfold e_size, cell_entry in Hge; cbn [fst snd] in Hge.
      specialize (Hno x Hx). unfold is_free in Hf. destruct (k_st x); try discriminate. specialize (Hno eq_refl). lia.
  Qed.

  Lemma new_size_spec s n : 0 < n <= lim ->
    new_size cfg s (aligned_round_up A n) =
    Z.max (round_to A n) (if v_actual (q_view s) =? 0 then cf_first cfg else cf_next cfg).
  Proof. intros Hn. unfold new_size. now rewrite zmax_max, round_lim. Qed.

  Lemma ptr_round w p sz L : Inv w ((p, sz + A) :: L) -> 0 <= sz -> align_up A p = round_to A p.
  Proof.
    intros HI Hsz. pose proof (ps_good _ _ _ PS _ _ HI) as Hg. apply good_cons in Hg as ((G1 & G2 & G3) & _).
    cbn [fst snd] in *. apply align_up_round_to; [apply (HpA limP cfg CFG)|lia|].
    pose proof ASP_M64. lia.
  Qed.

  Lemma allocate_miss_eq n s w : sm_lower_bound (aligned_round_up A n) (q_sizemap s) = None ->
    q_allocate P cfg n (s, w) =
    (let* (sw1, c) := q_new_block P cfg (aligned_round_up A n) (s, w) in
     q_use_chunk (aligned_round_up A n) c (fst sw1) (snd sw1)).
  Proof. intros E. unfold q_allocate. cbn [fst]. fold A. rewrite E. reflexivity. Qed.

  Lemma grow_eq sz s w : sz + A < M64 -> 0 < sz ->
    q_grow P cfg sz (s, w) =
    match p_alloc P (sz + A) w with
    | Ok w' p => Ok (set_base s (fset (q_base s) (align_up A p) (p, sz + A)), w') (align_up A p)
    | Throw w' e => Throw (s, w') e | UB => UB | Abort => Abort | NoFuel => NoFuel
    end.
  Proof.
    intros H1 H2. unfold q_grow, aligned_allocate. fold A. rewrite w64_small by lia.
    destruct (p_alloc P (sz + A) w); cbn [omap fst snd]; auto. destruct s; reflexivity.
  Qed.

  Lemma new_block_ok_eq r s w sw' d : q_grow P cfg (new_size cfg s r) (s, w) = Ok sw' d ->
    exists s' c, q_new_block P cfg r (s, w) = Ok (s', snd sw') c.
  Proof.
    intros E. unfold q_new_block. cbn [fst]. fold (new_size cfg s r). rewrite E. cbn [bind]. destruct sw' as [s3 w3].
    cbv zeta. cbn [snd]. eauto.
  Qed.

  Lemma new_block_retry_eq r s w w1 e s2 w2 sw' d : q_grow P cfg (new_size cfg s r) (s, w) = Throw (s, w1) e ->
    q_release P (s, w1) = Ok (s2, w2) tt -> q_grow P cfg (new_size cfg s r) (s2, w2) = Ok sw' d ->
    exists s' c, q_new_block P cfg r (s, w) = Ok (s', snd sw') c.
  Proof.
    intros E1 E2 E3. unfold q_new_block. cbn [fst]. fold (new_size cfg s r). rewrite E1, E2. cbn [bind]. rewrite E3.
    cbn [bind]. destruct sw' as [s3 w3]. cbv zeta. cbn [snd]. eauto.
  Qed.

  Lemma new_block_fail_eq r s w w1 e s2 w2 sw' e2 : q_grow P cfg (new_size cfg s r) (s, w) = Throw (s, w1) e ->
    q_release P (s, w1) = Ok (s2, w2) tt -> q_grow P cfg (new_size cfg s r) (s2, w2) = Throw sw' e2 ->
    q_new_block P cfg r (s, w) = Throw sw' e2.
  Proof.
    intros E1 E2 E3. unfold q_new_block. cbn [fst]. fold (new_size cfg s r). rewrite E1, E2. cbn [bind]. rewrite E3.
    reflexivity.
  Qed.

  Lemma alloc_miss_obs U s w H n : hist U (s, w) H -> 0 < n <= lim ->
    v_largest (q_view s) < round_to A n ->
    let total := Z.max (round_to A n) (if v_actual (q_view s) =? 0 then cf_first cfg else cf_next cfg) + A in
    exists L, Inv w L /\ pool_obs A U L (q_view s) /\
      (forall w1 p, p_alloc P total w = Ok w1 p ->
        exists s', q_allocate P cfg n (s, w) = Ok (s', w1) (round_to A p) /\
          pool_obs A ((round_to A p, n) :: U) ((p, total) :: L) (q_view s')) /\
      (forall w1 e, p_alloc P total w = Throw w1 e ->
        forall s2 w2, q_release P (s, w1) = Ok (s2, w2) tt ->
        exists I R, Permutation L (I ++ R) /\ (forall l, In l I -> idle A U l) /\ (forall l, In l R -> ~ idle A U l) /\
          pool_obs A U R (q_view s2) /\
          (forall w3 p, p_alloc P total w2 = Ok w3 p ->
             exists s', q_allocate P cfg n (s, w) = Ok (s', w3) (round_to A p) /\
               pool_obs A ((round_to A p, n) :: U) ((p, total) :: R) (q_view s')) /\
          (forall w3 e3, p_alloc P total w2 = Throw w3 e3 ->
             q_allocate P cfg n (s, w) = Throw (s2, w3) e3)).
  Proof.
    intros Hh Hn Hr total. destruct (hist_inv P limP Inv PS cfg fuel CFG _ _ _ Hh) as (B & HQW & HU). cbn [fst snd] in HQW.
    pose proof HQW as (HQ & Hst & HI).
    pose proof (q_allocate_ok P limP Inv PS cfg CFG s w B n HQW ltac:(lia) ltac:(lia)) as Hp. fold A in Hp.
    destruct (largest_lb s B (aligned_round_up A n) HQ) as [_ HL2].
    pose proof (new_size_spec s n Hn) as Ens. fold A in Hn.
    assert (HL3 : sm_lower_bound (aligned_round_up A n) (q_sizemap s) = None).
    { apply HL2. now rewrite round_lim. }
    clear HL2. rewrite (allocate_miss_eq n s w HL3) in Hp. rewrite (allocate_miss_eq n s w HL3).
    set (sz := new_size cfg s (aligned_round_up A n)) in *.
    assert (Etot : sz + A = total) by (unfold total; now rewrite <- Ens).
    assert (Hszb : 0 < sz /\ sz + A <= limP).
    { rewrite Ens. pose proof (round_to_spec A n HA).
      destruct (qc_first _ _ CFG) as [F1 F2]. destruct (qc_next _ _ CFG) as [N1 N2]. fold A in F2, N2.
      destruct (v_actual (q_view s) =? 0); lia. }
    clear Ens. clearbody total. subst total. destruct Hszb as [Hsz1 Hsz2]. pose proof (qc_lim _ _ CFG) as HlM.
    assert (Hnohit : forall x, In x (cells B) -> k_st x = SFree -> aligned_round_up A n <= k_size x -> False).
    { intros x Hx Hxs Hxr. pose proof (sm_lower_bound_none _ _ HL3) as Hnn.
      specialize (Hnn (cell_entry x)). unfold e_size, cell_entry in Hnn; cbn [fst snd] in Hnn.
      enough (k_size x < aligned_round_up A n) by lia. apply Hnn.
      eapply Permutation_in; [apply Permutation_sym, (qi_sm _ _ _ _ HQ)|]. apply (in_map cell_entry), filter_In. split; auto.
      unfold is_free; now rewrite Hxs. }
    (* the result once the block has been obtained *)
    assert (Hshape : forall s3 w3 c,
      q_new_block P cfg (aligned_round_up A n) (s, w) = Ok (s3, w3) c ->
      exists s' ret, (let* (sw1, c) := q_new_block P cfg (aligned_round_up A n) (s, w) in
        q_use_chunk (aligned_round_up A n) c (fst sw1) (snd sw1)) = Ok (s', w3) ret).
    { intros s3 w3 c E. rewrite E in Hp |- *. cbn [bind fst snd] in Hp |- *.
      destruct (q_use_chunk_shape (aligned_round_up A n) c s3 w3) as [E2|E2]; auto. rewrite E2 in Hp. contradiction. }
    exists (map b_held B). split; [exact HI|]. split; [eapply obs_of_QI; eauto|]. split.
    - intros w1 p Ea.
      destruct (new_block_ok_eq (aligned_round_up A n) s w _ (align_up A p)
                  ltac:(fold sz; rewrite grow_eq by lia; rewrite Ea; reflexivity)) as (s3 & c & E3). cbn [snd] in E3.
      destruct (Hshape _ _ _ E3) as (s' & ret & E). rewrite E in Hp |- *. clear E E3 Hshape. cbn [post fst snd] in Hp.
      destruct Hp as (B' & HQW' & HU' & _ & Hsrc & _).
      destruct Hsrc as [(x & Hx & Hxs & -> & Hxr & Hmin & _)|(Hno & p' & B1 & -> & Hgr & HH)]; [exfalso; eauto|].
      fold A sz in Hgr, HH. destruct Hgr as [[Ea' ->]|(w9 & e9 & s9 & w8 & Ea' & _)]; [|congruence].
      assert (p' = p) as -> by congruence.
      assert (HI' : Inv w1 ((p, sz + A) :: map b_held B)).
      { eapply (ps_perm _ _ _ PS); [exact HH|]. apply HQW'. }
      rewrite <- (ptr_round _ _ _ _ HI') by lia. exists s'. split; [reflexivity|].
      eapply pool_obs_perm; [exact HH|]. eapply obs_of_QI; eauto. rewrite HU'. now rewrite HU.
    - intros w1 e Ea s2 w2 Erel.
      assert (HI1 : Inv w1 (map b_held B)).
      { pose proof (ps_alloc _ _ _ PS w _ (sz + A) HI) as Hpa. rewrite Ea in Hpa. apply Hpa. lia. }
      pose proof (q_release_ok P limP Inv PS cfg CFG s w1 B (conj HQ (conj Hst HI1))) as Hrel.
      rewrite Erel in Hrel. cbn [post fst snd] in Hrel. destruct Hrel as (B2 & HP2 & HQW2 & Hnone2 & _).
      exists (map b_held (rel_blocks B)), (map b_held B2). rewrite <- map_app. split; [now apply Permutation_map|].
      assert (Hidle : forall b, In b B -> (b_rel b = true <-> idle A U (b_held b))).
      { intros b Hb. eapply (b_rel_idle limP cfg CFG s B U b); eauto. }
      split; [|split; [|split; [|split]]].
      + intros l Hl. apply in_map_iff in Hl as (b & <- & Hb). apply filter_In in Hb as [Hb Hbr]. now apply Hidle.
      + intros l Hl. apply in_map_iff in Hl as (b & <- & Hb). intros Hid.
        assert (HbB : In b B). { eapply Permutation_in; [apply Permutation_sym, HP2|]. apply in_or_app; auto. }
        apply Hidle in Hid; auto. assert (In b (rel_blocks B2)) by (apply filter_In; auto). rewrite Hnone2 in *. contradiction.
      + eapply obs_of_QI; eauto. rewrite HU. apply Permutation_sym, uregs_release; auto.
      + intros w3 p Ea3.
        destruct (new_block_retry_eq (aligned_round_up A n) s w w1 e s2 w2 _ (align_up A p)
                    ltac:(fold sz; rewrite grow_eq by lia; rewrite Ea; reflexivity) Erel
                    ltac:(fold sz; rewrite grow_eq by lia; rewrite Ea3; reflexivity)) as (s3 & c & E3). cbn [snd] in E3.
        destruct (Hshape _ _ _ E3) as (s' & ret & E). rewrite E in Hp |- *. clear E E3 Hshape. cbn [post fst snd] in Hp.
        destruct Hp as (B' & HQW' & HU' & _ & Hsrc & _).
        destruct Hsrc as [(x & Hx & Hxs & -> & Hxr & Hmin & _)|(Hno & p' & B1 & -> & Hgr & HH)]; [exfalso; eauto|].
        fold A sz in Hgr, HH. destruct Hgr as [[Ea' ->]|(w9 & e9 & s9 & w8 & Ea' & Er9 & Ea9 & HP9 & _)]; [congruence|].
        assert (w9 = w1) as -> by congruence.
        assert (s9 = s2 /\ w8 = w2) as [-> ->] by (rewrite Erel in Er9; split; congruence).
        assert (p' = p) as -> by congruence.
        assert (HBB : Permutation B1 B2).
        { apply (Permutation_app_inv_l (rel_blocks B)). eapply Permutation_trans; [apply Permutation_sym, HP9|exact HP2]. }
        assert (HI' : Inv w3 ((p, sz + A) :: map b_held B1)).
        { eapply (ps_perm _ _ _ PS); [exact HH|]. apply HQW'. }
        rewrite <- (ptr_round _ _ _ _ HI') by lia. exists s'. split; [reflexivity|].
        eapply pool_obs_perm; [eapply Permutation_trans; [exact HH|constructor; apply Permutation_map, HBB]|].
        eapply obs_of_QI; eauto. rewrite HU'. now rewrite HU.
      + intros w3 e3 Ea3.
        rewrite (new_block_fail_eq (aligned_round_up A n) s w w1 e s2 w2 (s2, w3) e3
                    ltac:(fold sz; rewrite grow_eq by lia; rewrite Ea; reflexivity) Erel
                    ltac:(fold sz; rewrite grow_eq by lia; rewrite Ea3; reflexivity)). reflexivity.
  Qed.
End Thms2.
