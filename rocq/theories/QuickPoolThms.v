(** Consequences of the QuickPool invariant for whole histories. *)
From Verif Require Import Base BaseFacts AlignedModel AlignedFacts QuickPoolModel QuickPoolInv
  QuickPoolFacts QuickPoolOps QuickPoolFree QuickPoolMain QuickPoolSpec.

Lemma round_to_spec A n : 0 < A -> n <= round_to A n < n + A /\ round_to A n mod A = 0.
Proof.
  intros HA. unfold round_to.
  pose proof (Z.div_mod (n + A - 1) A ltac:(lia)). pose proof (Z.mod_pos_bound (n + A - 1) A HA).
  split; [nia|]. apply Z.mod_mul; lia.
Qed.

Lemma mult_unique A a b x : 0 < A -> a mod A = 0 -> b mod A = 0 -> x <= a < x + A -> x <= b < x + A -> a = b.
Proof.
  intros HA Ha Hb H1 H2.
  pose proof (Z.div_mod a A ltac:(lia)) as E1. pose proof (Z.div_mod b A ltac:(lia)) as E2.
  assert (a / A = b / A); [|congruence]. nia.
Qed.

Lemma aligned_round_up_round_to A n :
  0 < A -> 0 < n -> n + A <= M64 -> aligned_round_up A n = round_to A n.
Proof.
  intros HA Hn Hb. pose proof (aligned_round_up_spec A n HA Hn Hb) as [H1 H2].
  pose proof (round_to_spec A n HA) as [H3 H4].
  apply (mult_unique A _ _ n HA); auto; lia.
Qed.

Lemma align_up_round_to A p :
  pow2_align A -> 0 <= p -> p + A <= M64 -> align_up A p = round_to A p.
Proof.
  intros HA Hn Hb. pose proof (align_up_spec A p HA Hn Hb) as [H1 H2].
  pose proof (pow2_align_pos A HA).
  pose proof (round_to_spec A p ltac:(lia)) as [H3 H4].
  apply (mult_unique A _ _ p); auto; lia.
Qed.

  Lemma largest_key_spec l : sorted_sm l -> (forall e, In e l -> e_size e <= largest_key l) /\
    (l <> [] -> exists e, In e l /\ e_size e = largest_key l) /\ (l = [] -> largest_key l = 0).
  Proof.
    intros Hs. unfold largest_key. destruct l as [|e0 l0] using rev_ind; [cbn; split; [intros ? []|split; [congruence|auto]]|].
    clear IHl0. rewrite rev_app_distr. cbn [rev app]. split; [|split].
    - intros e He. apply in_app_or in He as [He|[<-|[]]]; [|lia].
      clear -Hs He. induction l0 as [|y l0 IH]; [destruct He|]. cbn [app sorted_sm] in Hs. destruct Hs as [H1 H2].
      destruct He as [<-|He]; auto. apply H1, in_or_app; simpl; auto.
    - intros _. exists e0. split; auto. apply in_or_app; simpl; auto.
    - destruct l0; discriminate.
  Qed.
  Lemma sum_over_map {T} (f : T -> Z) l : sum_over f l = sumZ (map f l).
  Proof. unfold sum_over. induction l; cbn; congruence. Qed.
  Lemma sum_over_perm {T} (f : T -> Z) l l' : Permutation l l' -> sum_over f l = sum_over f l'.
  Proof. intros H. rewrite !sum_over_map. apply sumZ_perm, Permutation_map, H. Qed.
  Lemma gap_in_cells a l g :
    contig a l -> merged l -> (forall x, In x l -> stable x) ->
    0 < snd g -> a <= fst g -> fst g + snd g <= a + csum l ->
    (forall x, In x l -> is_used x = true -> disj g (cell_region x)) ->
    exists x, In x l /\ is_used x = false /\ inside g (cell_region x).
  Proof.
    revert a. induction l as [|x l IH]; intros a Hc Hm Hst Hg Hlo Hhi Hun.
    - unfold csum in Hhi. cbn [map sumZ] in Hhi. lia.
    - cbn [contig] in Hc. destruct Hc as (Hd & Hp & Hc). cbn [merged] in Hm. destruct Hm as [Hm1 Hm2].
      rewrite csum_cons in Hhi.
      destruct (Z.le_gt_cases (a + k_size x) (fst g)) as [Hge|Hlt].
      + destruct (IH (a + k_size x)) as (y & Hy & Hy2 & Hy3); auto; try lia.
        * intros; apply Hst; simpl; auto.
        * intros; apply Hun; simpl; auto.
        * exists y. simpl; auto.
      + destruct (is_used x) eqn:Ux.
        { specialize (Hun x (or_introl eq_refl) Ux). unfold disj, cell_region in Hun; cbn [fst snd] in Hun. lia. }
        exists x. split; [simpl; auto|]. split; [auto|].
        unfold inside, cell_region; cbn [fst snd]. split; [lia|].
        destruct (Z.le_gt_cases (fst g + snd g) (k_data x + k_size x)); auto. exfalso.
        assert (Rx : is_rel x = true).
        { destruct (Hst x (or_introl eq_refl)) as [E|[r E]]; unfold is_rel, is_used in *; rewrite E in *; auto; discriminate. }
        rewrite Rx in Hm1. cbn [andb] in Hm1.
        destruct l as [|y l]; [unfold csum in Hhi; cbn [map sumZ] in Hhi; lia|].
        cbn [hd_rel] in Hm1. cbn [contig] in Hc.
        assert (Uy : is_used y = true).
        { destruct (Hst y ltac:(simpl; auto)) as [E|[r E]]; unfold is_rel, is_used in *; rewrite E in *; auto; discriminate. }
        specialize (Hun y ltac:(simpl; auto) Uy). unfold disj, cell_region in Hun; cbn [fst snd] in Hun. lia.
  Qed.

Section Thms.
  Context {W : Type} (P : Parent W) (limP : Z) (Inv : W -> list region -> Prop).
  Hypothesis PS : ParentSpec P limP Inv.
  Context (cfg : qcfg) (fuel : nat).
  Let A := cf_align cfg.
  Hypothesis CFG : qcfg_ok cfg limP.

  Notation QW := (QW Inv cfg).
  Notation lim := (limP - 2 * cf_align cfg).
  Notation hstep := (hstep P cfg fuel lim Inv).
  Notation hist := (hist P cfg fuel lim Inv).
  Notation reachable := (reachable P cfg fuel lim Inv).

  Let HA : 0 < A := HA limP cfg CFG.

  Lemma hstep_inv U sw U' sw' :
    hstep (U, sw) (U', sw') ->
    forall B, QW (fst sw) (snd sw) B -> Permutation U (uregs B) ->
    exists B', QW (fst sw') (snd sw') B' /\ Permutation U' (uregs B').
  Proof.
    intros Hs B HQW HU.
    inversion Hs as [U0 sw0 n sw1 p Hn Ha|U0 sw0 n sw1 e Hn Ha|U0 U1 sw0 p n sw1 HP Ha|U0 sw0 sw1 Ha|U0 sw0 sw1 Ha|U0 s0 w0 w1 Hw];
      subst; clear Hs.
    - destruct sw as [s w]. pose proof (q_allocate_ok P limP Inv PS cfg CFG s w B n HQW ltac:(lia) ltac:(lia)) as Hp.
      rewrite Ha in Hp. cbn [post] in Hp. destruct Hp as (B' & HQW' & HU' & _).
      exists B'. split; auto. now rewrite HU', HU.
    - destruct sw as [s w]. pose proof (q_allocate_ok P limP Inv PS cfg CFG s w B n HQW ltac:(lia) ltac:(lia)) as Hp.
      rewrite Ha in Hp. cbn [post] in Hp. destruct Hp as (B' & HQW' & _ & (w1 & e1 & w2 & e2 & _ & _ & _ & HP & _) & _).
      exists B'. split; auto. now rewrite (uregs_release _ _ HP).
    - destruct sw as [s w].
      assert (Hin : In (p, n) (uregs B)).
      { eapply Permutation_in; [exact HU|]. eapply Permutation_in; [apply Permutation_sym; eauto|simpl; auto]. }
      pose proof (q_deallocate_ok P limP Inv PS cfg CFG fuel s w B p n HQW Hin) as Hp.
      rewrite Ha in Hp. cbn [post] in Hp. destruct Hp as (B' & HQW' & HU' & _).
      exists B'. split; auto. rewrite <- HU in HU'. rewrite HP in HU'.
      now apply Permutation_cons_inv, Permutation_sym in HU'.
    - destruct sw as [s w]. pose proof (q_release_ok P limP Inv PS cfg CFG s w B HQW) as Hp.
      rewrite Ha in Hp. cbn [post] in Hp. destruct Hp as (B' & HP & HQW' & _).
      exists B'. split; auto. now rewrite (uregs_release _ _ HP).
    - destruct sw as [s w]. pose proof (q_coalesce_ok P limP Inv PS cfg CFG fuel s w B HQW) as Hp.
      rewrite Ha in Hp. cbn [post] in Hp. destruct Hp as (B' & HQW' & HU' & _).
      exists B'. split; auto. now rewrite HU'.
    - cbn [fst snd] in *. destruct HQW as (HQ & Hst & HI). exists B. split; auto. split; auto.
  Qed.

  Lemma hist_inv U sw H : hist U sw H ->
    exists B, QW (fst sw) (snd sw) B /\ Permutation U (uregs B).
  Proof.
    induction 1 as [w Hw|U sw H U' sw' Hh IH Hs].
    - exists []. split; [|constructor]. split; [apply QI_init|]. split; [intros x []|exact Hw].
    - destruct IH as (B & HQW & HU). eapply hstep_inv; eauto.
  Qed.

  (** Relating ghost blocks to the independent notions. *)
  Lemma block_data_range s B b : QI A s B [] -> In b B ->
    data_range A (b_held b) = (b_data b, b_size b).
  Proof.
    intros HQ Hb. pose proof (qi_blk _ _ _ _ HQ b Hb) as Hok. unfold data_range, b_held; cbn [fst snd].
    rewrite (bo_total _ _ Hok).
    destruct (proj1 (qi_good _ _ _ _ HQ) (b_held b) (in_map _ _ _ Hb)) as (G1 & G2 & G3).
    cbn [b_held fst snd] in *. pose proof (b_size_pos _ _ Hok). pose proof ASP_M64.
    rewrite <- align_up_round_to.
    - rewrite <- (bo_base _ _ Hok). f_equal. lia.
    - apply (HpA limP cfg CFG).
    - lia.
    - rewrite (bo_total _ _ Hok) in G3. lia.
  Qed.

  Lemma cell_extent s B x r : QI A s B [] -> In x (cells B) -> k_st x = SUsed r ->
    extent A (k_data x, r) = cell_region x.
  Proof.
    intros HQ Hx Hs. pose proof (cells_sizes_pos A B (qi_blk _ _ _ _ HQ) x Hx) as (C1 & C2 & C3).
    rewrite Hs in C3. destruct C3 as (C3 & C4 & C5). unfold extent, cell_region; cbn [fst snd].
    f_equal. rewrite C5. symmetry. apply aligned_round_up_round_to; auto.
    pose proof (qi_actual_b _ _ _ _ HA HQ) as Ba.
    assert (k_size x <= q_actual s).
    { rewrite (qi_actual _ _ _ _ HQ), <- sum_cells_blocks.
      apply in_split in Hx as (l1 & l2 & E). rewrite E, map_app, sumZ_app. cbn [map sumZ].
      assert (HN : forall l, incl l (cells B) -> 0 <= sumZ (map k_size l)).
      { intros l Hl. apply sumZ_nonneg. intros z Hz. apply in_map_iff in Hz as (y & <- & Hy).
        pose proof (cells_sizes_pos A B (qi_blk _ _ _ _ HQ) y (Hl y Hy)) as [Hp _]. lia. }
      assert (incl l1 (cells B)) by (intros y Hy; rewrite E; apply in_or_app; auto).
      assert (incl l2 (cells B)) by (intros y Hy; rewrite E; apply in_or_app; simpl; auto).
      pose proof (HN l1 H). pose proof (HN l2 H0). lia. }
    pose proof (HpA limP cfg CFG) as Hpa. pose proof (pow2_align_pos _ Hpa). fold A in H0.
    unfold ASP, M64 in *. lia.
  Qed.

  Lemma extents_used s B U : QI A s B [] -> Permutation U (uregs B) ->
    forall u, In u U -> exists x, In x (cells B) /\ is_used x = true /\ extent A u = cell_region x /\ u = cell_alloc x.
  Proof.
    intros HQ HU u Hu. eapply Permutation_in in Hu; [|exact HU]. destruct u as [p n].
    apply uregs_in in Hu as (x & Hx & Hd & Hs). exists x. split; auto.
    split; [unfold is_used; now rewrite Hs|]. split.
    - rewrite <- Hd. eapply cell_extent; eauto.
    - unfold cell_alloc, cell_req. now rewrite Hs, Hd.
  Qed.

  Lemma used_extents s B U : QI A s B [] -> Permutation U (uregs B) ->
    forall x, In x (cells B) -> is_used x = true -> exists u, In u U /\ extent A u = cell_region x.
  Proof.
    intros HQ HU x Hx Hus. unfold is_used in Hus. destruct (k_st x) as [| | |r] eqn:E; try discriminate.
    exists (k_data x, r). split.
    - eapply Permutation_in; [apply Permutation_sym, HU|]. apply uregs_in. eauto.
    - eapply cell_extent; eauto.
  Qed.

  (** *** C08 *)
  Lemma hist_disjoint U sw H : hist U sw H -> good U.
  Proof.
    intros Hh. destruct (hist_inv _ _ _ Hh) as (B & (HQ & _) & HU).
    eapply good_perm; [apply Permutation_sym, HU|]. eapply uregs_good; eauto.
  Qed.

  Lemma hist_held U sw H : hist U sw H ->
    exists L, Inv (snd sw) L /\ forall u, In u U -> exists l, In l L /\ inside (extent A u) (data_range A l) /\ inside u l.
  Proof.
    intros Hh. destruct (hist_inv _ _ _ Hh) as (B & (HQ & Hst & HI) & HU).
    exists (map b_held B). split; auto. intros u Hu.
    destruct (extents_used _ _ _ HQ HU u Hu) as (x & Hx & Hus & He & Hal).
    apply in_cells in Hx as (b & Hb & Hx). exists (b_held b). split; [now apply in_map|].
    pose proof (qi_blk _ _ _ _ HQ b Hb) as Hok. split.
    - rewrite He. erewrite block_data_range by eauto. unfold b_size.
      apply contig_inside; auto. apply (bo_contig _ _ Hok).
    - eapply inside_trans; [|eapply cell_in_held; eauto].
      destruct (bo_cells _ _ Hok x Hx) as (C1 & C2 & C3). subst u.
      unfold is_used, inside, cell_alloc, cell_region, cell_req in *. cbn [fst snd].
      destruct (k_st x); try discriminate. lia.
  Qed.

  (** *** C09 *)
  Lemma hist_aligned U sw H : hist U sw H -> forall p n, In (p, n) U -> p mod A = 0.
  Proof.
    intros Hh p n Hin. destruct (hist_inv _ _ _ Hh) as (B & (HQ & Hst & HI) & HU).
    eapply Permutation_in in Hin; [|exact HU]. apply uregs_in in Hin as (x & Hx & Hd & Hs).
    pose proof (cells_sizes_pos A B (qi_blk _ _ _ _ HQ) x Hx) as (C1 & C2 & C3). now subst p.
  Qed.

  (** *** idle blocks *)

  Lemma b_rel_all_free b : blk_ok A b -> (forall x, In x (b_cells b) -> stable x) ->
    (b_rel b = true <-> forall x, In x (b_cells b) -> is_used x = false).
  Proof.
    intros Hok Hst. unfold b_rel. pose proof (bo_ne _ _ Hok) as Hne. pose proof (bo_merged _ _ Hok) as Hm.
    destruct (b_cells b) as [|x [|y l]]; [congruence| |].
    - split.
      + intros Hr z [<-|[]]. unfold is_rel, is_used in *. destruct (k_st x); auto; discriminate.
      + intros Hu. specialize (Hu x (or_introl eq_refl)). destruct (Hst x (or_introl eq_refl)) as [E|[r E]];
          unfold is_rel, is_used in *; rewrite E in *; auto; discriminate.
    - split; [discriminate|]. intros Hu. exfalso.
      cbn [merged hd_rel] in Hm. destruct Hm as [Hm _].
      assert (is_rel x = true /\ is_rel y = true) as [E1 E2]; [|now rewrite E1, E2 in Hm].
      split.
      + specialize (Hu x (or_introl eq_refl)). destruct (Hst x (or_introl eq_refl)) as [E|[r E]];
          unfold is_rel, is_used in *; rewrite E in *; auto; discriminate.
      + specialize (Hu y (or_intror (or_introl eq_refl))). destruct (Hst y (or_intror (or_introl eq_refl))) as [E|[r E]];
          unfold is_rel, is_used in *; rewrite E in *; auto; discriminate.
  Qed.

  Lemma b_rel_idle s B U b : QI A s B [] -> (forall x, In x (cells B) -> stable x) ->
    Permutation U (uregs B) -> In b B -> (b_rel b = true <-> idle A U (b_held b)).
  Proof.
    intros HQ Hst HU Hb. pose proof (qi_blk _ _ _ _ HQ b Hb) as Hok.
    assert (Hstb : forall x, In x (b_cells b) -> stable x).
    { intros x Hx. apply Hst, in_cells; eauto. }
    rewrite (b_rel_all_free b Hok Hstb). unfold idle. erewrite block_data_range by eauto. split.
    - intros Hf u Hu. destruct (extents_used _ _ _ HQ HU u Hu) as (x & Hx & Hus & He & _). rewrite He.
      pose proof Hx as Hxc. apply in_cells in Hx as (b' & Hb' & Hx).
      destruct (in_split _ _ Hb) as (B1 & B2 & EB).
      assert (HbB : In b' (b :: B1 ++ B2)).
      { rewrite EB in Hb'. apply in_app_or in Hb' as [H|[H|H]]; [right|left; auto|right]; apply in_or_app; auto. }
      destruct HbB as [<-|HbB]; [rewrite (Hf x Hx) in Hus; discriminate|].
      pose proof (qi_good _ _ _ _ HQ) as Hg. rewrite EB in Hg.
      assert (Hg' : good (map b_held (b :: B1 ++ B2))).
      { eapply good_perm; [|exact Hg]. apply Permutation_map, Permutation_sym, Permutation_middle. }
      cbn [map] in Hg'. apply good_cons in Hg' as (_ & Hd & _).
      specialize (Hd _ (in_map b_held _ _ HbB)).
      pose proof (cell_in_held A b' x (qi_blk _ _ _ _ HQ b' Hb') Hx) as Hi.
      pose proof (bo_lo _ _ Hok). pose proof (bo_hi _ _ Hok).
      unfold disj, inside, b_held, b_size in *; cbn [fst snd] in *. lia.
    - intros Hun x Hx. destruct (is_used x) eqn:Hus; auto. exfalso.
      destruct (used_extents _ _ _ HQ HU x ltac:(apply in_cells; eauto) Hus) as (u & Hu & He).
      specialize (Hun u Hu). rewrite He in Hun.
      pose proof (contig_inside _ _ _ (bo_contig _ _ Hok) Hx) as Hi.
      destruct (bo_cells _ _ Hok x Hx) as (C1 & _).
      unfold disj, inside, b_size, cell_region in *; cbn [fst snd] in *. lia.
  Qed.

  (** *** Free fragments are exactly the maximal gaps *)
  Lemma free_cell_gap s B U x : QI A s B [] -> Permutation U (uregs B) ->
    In x (cells B) -> is_used x = false -> gap A U (map b_held B) (cell_region x).
  Proof.
    intros HQ HU Hx Hf. pose proof (cells_sizes_pos A B (qi_blk _ _ _ _ HQ) x Hx) as [Hp _].
    split; [exact Hp|]. split.
    - apply in_cells in Hx as (b & Hb & Hx). exists (b_held b). split; [now apply in_map|].
      rewrite (block_data_range _ _ _ HQ Hb). unfold b_size. apply contig_inside; auto.
      apply (bo_contig _ _ (qi_blk _ _ _ _ HQ b Hb)).
    - intros u Hu. destruct (extents_used _ _ _ HQ HU u Hu) as (y & Hy & Hus & He & _). rewrite He.
      pose proof (cells_disj A B (qi_blk _ _ _ _ HQ) (qi_good _ _ _ _ HQ)) as HD.
      destruct (in_split _ _ Hx) as (c1 & c2 & E).
      assert (HP : Permutation (cells B) (x :: c1 ++ c2)) by (rewrite E; apply Permutation_sym, Permutation_middle).
      eapply pairwise_perm in HD; [|apply disj_sym|apply (Permutation_map cell_region HP)].
      cbn [map pairwise] in HD. destruct HD as [HD _]. apply HD, in_map.
      eapply Permutation_in in Hy; [|exact HP]. destruct Hy as [<-|Hy]; auto. congruence.
  Qed.


  Lemma gap_in_free s B U g : QI A s B [] -> (forall x, In x (cells B) -> stable x) ->
    Permutation U (uregs B) -> gap A U (map b_held B) g ->
    exists x, In x (cells B) /\ is_used x = false /\ inside g (cell_region x).
  Proof.
    intros HQ Hst HU (Hp & (l & Hl & Hin) & Hun).
    apply in_map_iff in Hl as (b & <- & Hb). rewrite (block_data_range _ _ _ HQ Hb) in Hin.
    pose proof (qi_blk _ _ _ _ HQ b Hb) as Hok. unfold inside in Hin; cbn [fst snd] in Hin.
    destruct (gap_in_cells (b_data b) (b_cells b) g) as (x & Hx & H1 & H2); auto; try apply Hok; try tauto.
    - intros x Hx. apply Hst, in_cells; eauto.
    - intros x Hx Hus. destruct (used_extents _ _ _ HQ HU x ltac:(apply in_cells; eauto) Hus) as (u & Hu & He).
      rewrite <- He. auto.
    - exists x. split; auto. apply in_cells; eauto.
  Qed.

  Lemma cell_region_overlap s B x y g : QI A s B [] -> In x (cells B) -> In y (cells B) ->
    0 < snd g -> inside g (cell_region x) -> inside g (cell_region y) -> x = y.
  Proof.
    intros HQ Hx Hy Hg H1 H2.
    pose proof (cells_disj A B (qi_blk _ _ _ _ HQ) (qi_good _ _ _ _ HQ)) as HD.
    destruct (in_split _ _ Hx) as (c1 & c2 & E).
    assert (HP : Permutation (cells B) (x :: c1 ++ c2)) by (rewrite E; apply Permutation_sym, Permutation_middle).
    eapply pairwise_perm in HD; [|apply disj_sym|apply (Permutation_map cell_region HP)].
    cbn [map pairwise] in HD. destruct HD as [HD _].
    eapply Permutation_in in Hy; [|exact HP]. destruct Hy as [<-|Hy]; auto.
    specialize (HD _ (in_map cell_region _ _ Hy)). unfold disj, inside, cell_region in *; cbn [fst snd] in *. lia.
  Qed.

  Lemma max_gap_iff s B U g : QI A s B [] -> (forall x, In x (cells B) -> stable x) ->
    Permutation U (uregs B) ->
    (max_gap A U (map b_held B) g <-> In g (map cell_region (filter is_free (cells B)))).
  Proof.
    intros HQ Hst HU. rewrite in_map_iff. split.
    - intros [Hg Hmax]. destruct (gap_in_free _ _ _ _ HQ Hst HU Hg) as (x & Hx & Hf & Hin).
      exists x. split.
      + apply Hmax; auto. eapply free_cell_gap; eauto.
      + apply filter_In. split; auto. destruct (Hst x Hx) as [E|[r E]]; unfold is_free, is_used in *; rewrite E in *; auto.
    - intros (x & <- & Hx). apply filter_In in Hx as [Hx Hf].
      assert (Huf : is_used x = false) by (unfold is_free, is_used in *; destruct (k_st x); auto; discriminate).
      pose proof (free_cell_gap _ _ _ _ HQ HU Hx Huf) as Hgx. split; auto.
      intros g' Hg' Hin. destruct (gap_in_free _ _ _ _ HQ Hst HU Hg') as (y & Hy & Hfy & Hiny).
      assert (x = y) as <-.
      { eapply (cell_region_overlap s B x y (cell_region x)); eauto.
        - apply Hgx. - apply inside_refl. - eapply inside_trans; eauto. }
      destruct g' as [a n]. destruct Hg' as [Hp _]. unfold inside, cell_region in *; cbn [fst snd] in *. f_equal; lia.
  Qed.



  Lemma held_size s B b : QI A s B [] -> In b B -> snd (b_held b) - A = b_size b.
  Proof. intros HQ Hb. unfold b_held; cbn [snd]. rewrite (bo_total _ _ (qi_blk _ _ _ _ HQ b Hb)). lia. Qed.

  Lemma sum_held s B B' : QI A s B [] -> incl B' B ->
    sum_over (fun l => snd l - A) (map b_held B') = sumZ (map b_size B').
  Proof.
    intros HQ Hi. rewrite sum_over_map, map_map. f_equal. apply map_ext_in. intros b Hb.
    eapply held_size; eauto.
  Qed.


  Lemma obs_of_QI s B U w : QW s w B -> Permutation U (uregs B) ->
    pool_obs A U (map b_held B) (q_view s).
  Proof.
    intros (HQ & Hst & HI) HU.
    assert (Hspec : forall g, max_gap A U (map b_held B) g <-> In g (map cell_region (filter is_free (cells B))))
      by (intros; eapply max_gap_iff; eauto).
    constructor; cbn [q_view v_actual v_total_blocks v_aligned v_rel_blocks v_releasable v_blocks_in_pool v_largest].
    - eapply good_perm; [apply Permutation_sym, HU|]. eapply uregs_good; eauto.
    - intros u Hu. destruct (extents_used _ _ _ HQ HU u Hu) as (x & Hx & Hus & He & Hal).
      pose proof Hx as Hxc. apply in_cells in Hx as (b & Hb & Hx). exists (b_held b). split; [now apply in_map|].
      pose proof (qi_blk _ _ _ _ HQ b Hb) as Hok. rewrite He. rewrite (block_data_range _ _ _ HQ Hb).
      pose proof (bo_lo _ _ Hok). pose proof (bo_hi _ _ Hok). split; [|split].
      + destruct (bo_cells _ _ Hok x Hx) as (C1 & C2 & C3). subst u.
        unfold is_used, inside, cell_alloc, cell_region, cell_req in *. cbn [fst snd].
        destruct (k_st x); try discriminate. lia.
      + unfold b_size. apply contig_inside; auto. apply (bo_contig _ _ Hok).
      + unfold inside, b_held; cbn [fst snd]. lia.
    - intros u Hu. destruct (extents_used _ _ _ HQ HU u Hu) as (x & Hx & Hus & He & Hal). subst u.
      pose proof (cells_sizes_pos A B (qi_blk _ _ _ _ HQ) x Hx) as (C1 & C2 & C3). exact C2.
    - rewrite (qi_actual _ _ _ _ HQ). symmetry. eapply sum_held; eauto. apply incl_refl.
    - rewrite map_length. apply (qi_total _ _ _ _ HQ).
    - rewrite (qi_aligned _ _ _ _ HQ), (sum_over_perm _ _ _ HU). unfold uregs.
      rewrite sum_over_map, map_map. f_equal. apply map_ext_in. intros x Hx. apply filter_In in Hx as [Hx Hus].
      unfold is_used in Hus. unfold cell_alloc, cell_req. destruct (k_st x) as [| | |r] eqn:E; try discriminate. cbn [snd].
      pose proof (cell_extent _ _ _ _ HQ Hx E) as He. unfold extent, cell_region in He. cbn [fst snd] in He. congruence.
    - exists (map b_held (rel_blocks B)), (map b_held (filter (fun b => negb (b_rel b)) B)). split; [|split; [|split; [|split]]].
      + rewrite <- map_app. apply Permutation_map. unfold rel_blocks. clear. induction B as [|b B IH]; cbn [filter]; auto.
        destruct (b_rel b); cbn [negb app]; [now constructor|]. rewrite IH at 1. apply Permutation_middle.
      + intros l Hl. apply in_map_iff in Hl as (b & <- & Hb). apply filter_In in Hb as [Hb Hr].
        eapply (b_rel_idle s B U b); eauto.
      + intros l Hl. apply in_map_iff in Hl as (b & <- & Hb). apply filter_In in Hb as [Hb Hr].
        intros Hid. eapply (b_rel_idle s B U b) in Hid; eauto. rewrite Hid in Hr; discriminate.
      + rewrite map_length. apply (qi_relb _ _ _ _ HQ).
      + rewrite (qi_rel _ _ _ _ HQ). symmetry. eapply sum_held; eauto. intros b Hb. now apply filter_In in Hb.
    - exists (map cell_region (filter is_free (cells B))). split; [|split].
      + pose proof (cells_disj A B (qi_blk _ _ _ _ HQ) (qi_good _ _ _ _ HQ)) as HD.
        assert (NoDup (map cell_region (cells B))).
        { eapply pairwise_NoDup; [|exact HD]. intros r Hr Hd. apply in_map_iff in Hr as (x & <- & Hx).
          pose proof (cells_sizes_pos A B (qi_blk _ _ _ _ HQ) x Hx) as [Hp _].
          unfold disj, cell_region in Hd; cbn [fst snd] in Hd. lia. }
        now apply NoDup_filter_map.
      + intros g. symmetry. apply Hspec.
      + rewrite (Permutation_length (qi_pm _ _ _ _ HQ)), (Permutation_length (qi_sm _ _ _ _ HQ)).
        rewrite (Permutation_length HU). unfold uregs. cbn [app]. rewrite !map_length.
        apply w64_small. split; [lia|].
        assert (Hlen : (length (filter is_used (cells B)) + length (filter is_free (cells B)) <= length (cells B))%nat).
        { clear. induction (cells B) as [|x l IH]; [cbn; lia|]. cbn [filter length].
          unfold is_used, is_free in *. destruct (k_st x); cbn [length]; lia. }
        assert (Hsz : Z.of_nat (length (cells B)) <= sumZ (map k_size (cells B))).
        { assert (Hp : forall x, In x (cells B) -> 0 < k_size x).
          { intros x Hx. apply (cells_sizes_pos A B (qi_blk _ _ _ _ HQ) x Hx). }
          revert Hp. clear. induction (cells B) as [|x l IH]; intros Hp; cbn [length map sumZ]; [lia|].
          pose proof (Hp x (or_introl eq_refl)). specialize (IH (fun y Hy => Hp y (or_intror Hy))). lia. }
        rewrite sum_cells_blocks, <- (qi_actual _ _ _ _ HQ) in Hsz. pose proof (qi_actual_b _ _ _ _ HA HQ).
        pose proof ASP_M64. lia.
    - destruct (largest_key_spec _ (qi_sorted _ _ _ _ HQ)) as (K1 & K2 & K3). split; [|split].
      + intros g Hg. destruct (gap_in_free _ _ _ _ HQ Hst HU Hg) as (x & Hx & Hf & Hin).
        assert (Hfx : is_free x = true).
        { destruct (Hst x Hx) as [E|[r E]]; unfold is_free, is_used in *; rewrite E in *; auto. }
        assert (He : In (cell_entry x) (q_sizemap s)).
        { eapply Permutation_in; [apply Permutation_sym, (qi_sm _ _ _ _ HQ)|]. apply in_map, filter_In; auto. }
        specialize (K1 _ He). unfold e_size, cell_entry in K1; cbn [fst snd] in K1.
        unfold inside, cell_region in Hin; cbn [fst snd] in Hin. lia.
      + intros Hpos. destruct (q_sizemap s) as [|e0 l0] eqn:E; [rewrite K3 in Hpos by auto; lia|].
        destruct K2 as (e & He & Hk); [discriminate|]. rewrite <- E in He.
        eapply Permutation_in in He; [|apply (qi_sm _ _ _ _ HQ)]. apply in_map_iff in He as (x & <- & Hx).
        exists (cell_region x). split.
        * apply Hspec. now apply in_map.
        * rewrite <- Hk. reflexivity.
      + destruct (q_sizemap s) as [|e0 l0] eqn:E; [rewrite K3 by auto; lia|].
        destruct K2 as (e & He & Hk); [discriminate|]. rewrite <- E in He.
        eapply Permutation_in in He; [|apply (qi_sm _ _ _ _ HQ)]. apply in_map_iff in He as (x & <- & Hx).
        apply filter_In in Hx as [Hx _]. pose proof (cells_sizes_pos A B (qi_blk _ _ _ _ HQ) x Hx) as [Hp _].
        unfold e_size, cell_entry in Hk; cbn [fst snd] in Hk. lia.
  Qed.

  Theorem hist_obs U sw H : hist U sw H ->
    exists L, Inv (snd sw) L /\ pool_obs A U L (q_view (fst sw)).
  Proof.
    intros Hh. destruct (hist_inv _ _ _ Hh) as (B & HQW & HU).
    exists (map b_held B). split; [apply HQW|]. destruct sw as [s w]. eapply obs_of_QI; eauto.
  Qed.
End Thms.
