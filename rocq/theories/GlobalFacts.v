(** Any collection of allocators keeps all live allocations disjoint. *)
From Verif Require Import Base BaseFacts AlignedFacts HeapModel HeapFacts StratModel StratFacts WrapModel WrapFacts LeafFacts
  QuickPoolModel QuickPoolMain QuickPoolStrat QuickPoolStratFacts FixedPoolModel FixedPoolFacts MixedPoolModel MixedPoolFacts
  DynPoolModel DynPoolMain DynPoolStratFacts GlobalModel GlobalSpec.

Definition kind_rel (k : kind) : st_ty (strat_of k) -> list region -> list region -> Prop :=
  match k return st_ty (strat_of k) -> list region -> list region -> Prop with
  | KQuick cfg _ => QInv (cf_align cfg)
  | KSizeLimiter _ => same_rel
  | KAligned a => al_rel a
  | KPassThrough => same_rel
  | KAdvised fails => lossy_rel fails
  | KMonotonic capacity => mo_rel capacity
  | KSlotPool _ => sp_rel
  | KFixed obj per _ => fx_rel obj per
  | KMixed cfg _ _ => mx_rel cfg
  | KDynamic cfg => DInv (dc_align cfg)
  | KDynamicKeep _ _ align => DInv align
  end.

Lemma kind_strat_ok k limP lim :
  kind_ok k limP -> limP < M64 -> kind_lim k limP = Some lim -> StratOk (strat_of k) (kind_rel k) limP lim.
Proof.
  intros Hk HM Hl. destruct k; cbn [kind_lim] in Hl; try discriminate; injection Hl as <-;
    cbn [strat_of kind_rel kind_ok] in *.
  - now apply QuickPool_ok.
  - apply SizeLimiter_ok.
  - destruct Hk as [Hk _]. apply (AlignedAllocator_ok alignment Hk limP HM).
  - apply PassThrough_ok.
  - apply Advised_ok.
  - destruct Hk as (H1 & H2 & H3). apply FixedPool_ok; auto. lia.
  - destruct Hk as (H1 & H2 & H3 & H4 & H5). apply MixedPool_ok. constructor; auto.
  - apply (DynamicPoolList_ok (mkDcfg first next align dh_percent_0) limP Hk). reflexivity.
Qed.

Definition kind_loud (k : kind) : Prop := match k with KDynamic _ => True | _ => False end.

Lemma kind_leaf_ok k limP :
  kind_ok k limP -> limP < M64 -> LeafOk (strat_of k) (kind_rel k) (kind_guard k limP) (kind_loud k) limP.
Proof.
  intros Hk HM.
  destruct k;
    try (match goal with |- LeafOk (strat_of ?K) _ _ _ _ =>
           apply (StratOk_Leaf _ _ _ _ (kind_strat_ok K limP _ Hk HM eq_refl)) end).
  - cbn in *. now apply Monotonic_ok.
  - cbn in *. apply SlotPool_ok.
  - cbn in *. now apply DynamicPoolList_leaf.
Qed.

Lemma climit_lt C : (forall c C1 C2, C = C1 ++ c :: C2 -> node_ok C2 c) ->
  forall i lim, climit C i = Some lim -> lim < M64 /\ (i <= length C)%nat.
Proof.
  induction C as [|c C IH]; intros HC i lim H; cbn [climit length] in *.
  - destruct (Nat.eqb_spec i 0); [|discriminate]. assert (lim = M64 - 1) by congruence. subst lim. split; lia.
  - assert (HC' : forall c C1 C2, C = C1 ++ c :: C2 -> node_ok C2 c).
    { intros c' C1 C2 ->. apply (HC c' (c :: C1) C2). reflexivity. }
    destruct (Nat.eqb_spec i (S (length C))) as [->|Hi].
    + destruct (climit C (nc_parent c)) as [limP|] eqn:E; [|discriminate].
      destruct (IH HC' _ _ E) as [H1 H2]. split; [|lia].
      destruct (HC c [] C eq_refl) as (limP' & E' & Hk). rewrite E in E'. injection E' as <-.
      destruct (nc_kind c); cbn [kind_lim kind_ok] in H, Hk; try discriminate;
        match type of H with Some ?x = _ => assert (lim = x) by congruence end; subst lim; try lia.
      * destruct Hk. pose proof (pow2_align_pos _ qc_align). lia.
      * nia.
      * destruct Hk as (_ & _ & _ & _ & []). pose proof (pow2_align_pos _ qc_align). lia.
      * destruct Hk. cbn [dc_align] in *. pose proof (pow2_align_pos _ dk_align). lia.
    + destruct (IH HC' _ _ H). split; lia.
Qed.

Lemma kind_at_cons c C i : kind_at (c :: C) i = if Nat.eqb i (S (length C)) then Some (nc_kind c) else kind_at C i.
Proof.
  unfold kind_at. destruct i as [|i]; [reflexivity|]. cbn [rev Nat.eqb].
  destruct (Nat.eqb_spec i (length C)) as [->|Hi].
  - rewrite nth_error_app2 by (rewrite rev_length; lia). rewrite rev_length, Nat.sub_diag. reflexivity.
  - destruct (Nat.lt_ge_cases i (length C)).
    + rewrite nth_error_app1 by (rewrite rev_length; lia). reflexivity.
    + rewrite !(proj2 (nth_error_None _ _)) by (rewrite ?app_length, rev_length; cbn; lia). reflexivity.
Qed.

(** Well-formed collections. *)
Fixpoint config_ok (C : list nodecfg) : Prop :=
  match C with [] => True | c :: C' => node_ok C' c /\ config_ok C' end.

Lemma config_ok_all C : config_ok C -> forall c C1 C2, C = C1 ++ c :: C2 -> node_ok C2 c.
Proof.
  induction C as [|c0 C IH]; cbn; intros H c C1 C2 E.
  - destruct C1; discriminate.
  - destruct H as [H1 H2]. destruct C1 as [|c1 C1]; cbn in E; injection E as -> E.
    + now subst.
    + eauto.
Qed.

Section WithStats.
(** [R i]: something that is true of the statistics of allocator [i]; it must survive the calls of
    [allocate_internal]/[deallocate_internal] on the allocators that serve as parents, [Cl]. *)
Context (R : nat -> stats -> Prop).

Fixpoint GInv (C : list nodecfg) : gworld C -> holdings -> Prop :=
  match C return gworld C -> holdings -> Prop with
  | [] => fun w X => heap_own (snd w) (X 0%nat) /\ R 0%nat (fst w)
  | c :: C' => fun nw X =>
      exists L, kind_rel (nc_kind c) (snd (fst nw)) (X (S (length C'))) L /\
                R (S (length C')) (fst (fst nw)) /\
                GInv C' (snd nw) (hold X (nc_parent c) (L ++ X (nc_parent c)))
  end.

Definition hperm (n : nat) (X Y : holdings) : Prop :=
  forall i, (i <= n)%nat -> Permutation (X i) (Y i).

Lemma hold_eq X i l : hold X i l i = l.
Proof. unfold hold. now rewrite Nat.eqb_refl. Qed.
Lemma hold_ne X i l j : j <> i -> hold X i l j = X j.
Proof. intros H. unfold hold. destruct (Nat.eqb_spec j i); congruence. Qed.

Lemma kind_rel_perm k s U U' L L' limP :
  kind_ok k limP -> limP < M64 ->
  Permutation U U' -> Permutation L L' -> kind_rel k s U L -> kind_rel k s U' L'.
Proof. intros Hk HM. apply (lo_perm _ _ _ _ _ (kind_leaf_ok k limP Hk HM)). Qed.

Lemma node_ok_lim C c : config_ok (c :: C) -> exists limP, climit C (nc_parent c) = Some limP /\
  kind_ok (nc_kind c) limP /\ limP < M64 /\ (nc_parent c <= length C)%nat.
Proof.
  intros [H1 H2]. destruct H1 as (limP & E & Hk). exists limP.
  destruct (climit_lt C (config_ok_all C H2) _ _ E). auto.
Qed.

Lemma GInv_ext C : config_ok C -> forall w X Y, hperm (length C) X Y -> GInv C w X -> GInv C w Y.
Proof.
  induction C as [|c C IH]; intros HC w X Y HP HG; cbn [GInv length] in *.
  - destruct HG as ((H1 & H2) & HS). split; auto. split; auto. rewrite H1. now rewrite (HP 0%nat (le_n _)).
  - destruct (node_ok_lim C c HC) as (limP & E & Hk & HM & Hle). destruct HG as (L & HR & HS & HG). exists L. split; [|split; [exact HS|]].
    + eapply (kind_rel_perm _ _ _ _ _ _ limP Hk HM); [| |exact HR]; [apply HP; lia|reflexivity].
    + destruct HC as [_ HC]. eapply IH; [exact HC| |exact HG]. intros i Hi.
      destruct (Nat.eq_dec i (nc_parent c)) as [->|Hne].
      * rewrite !hold_eq. apply Permutation_app_head, HP. lia.
      * rewrite !hold_ne by auto. apply HP. lia.
Qed.

Lemma GInv_good_all C : config_ok C -> forall w X, GInv C w X -> good (all_held X (S (length C))).
Proof.
  induction C as [|c C IH]; intros HC w X HG; cbn [GInv length] in *.
  - destruct HG as ((H1 & H2) & _). unfold all_held. cbn. rewrite app_nil_r.
    now apply (good_perm _ _ H1) in H2.
  - destruct (node_ok_lim C c HC) as (limP & E & Hk & HM & Hle). destruct HG as (L & HR & HS & HG).
    apply IH in HG; [|apply HC].
    assert (HPm : Permutation (all_held (hold X (nc_parent c) (L ++ X (nc_parent c))) (S (length C)))
                              (L ++ all_held X (S (length C)))).
    { unfold all_held. assert (Hin : In (nc_parent c) (seq 0 (S (length C)))) by (apply in_seq; lia).
      pose proof (seq_NoDup (S (length C)) 0) as ND.
      destruct (in_split _ _ Hin) as (l1 & l2 & El). rewrite El in ND |- *.
      rewrite !flat_map_app. cbn [flat_map]. rewrite hold_eq.
      apply NoDup_remove in ND as [_ ND].
      assert (E1 : forall l, ~ In (nc_parent c) l -> flat_map (hold X (nc_parent c) (L ++ X (nc_parent c))) l = flat_map X l).
      { induction l as [|a l IHl]; cbn; auto. intros Hn. rewrite IHl by tauto. rewrite hold_ne; auto. }
      rewrite (E1 l1), (E1 l2) by (intros Hc; apply ND, in_or_app; auto).
      rewrite <- app_assoc. rewrite Permutation_app_swap_app. reflexivity. }
    apply (good_perm _ _ HPm) in HG. apply good_app in HG as (G1 & G2 & G3).
    destruct (lo_inside _ _ _ _ _ (kind_leaf_ok _ limP Hk HM) _ _ _ HR G1) as [G4 G5].
    unfold all_held in *. rewrite seq_S, flat_map_app. cbn [flat_map Nat.add]. rewrite app_nil_r.
    apply good_app. split; [exact G2|]. split; [exact G4|].
    intros x y Hx Hy. destruct (G5 y Hy) as (l & Hl & Hi). specialize (G3 l x Hl Hx).
    unfold disj, inside in *. lia.
Qed.

Lemma good_flat_map_in (X : holdings) l i : good (flat_map X l) -> In i l -> good (X i).
Proof.
  induction l as [|a l IH]; cbn; [tauto|]. rewrite good_app. intros (H1 & H2 & _) [<-|Hi]; auto.
Qed.

Lemma GInv_good C w X i : config_ok C -> GInv C w X -> (i <= length C)%nat -> good (X i).
Proof.
  intros HC HG Hi. apply (good_flat_map_in X (seq 0 (S (length C)))).
  - apply (GInv_good_all C HC w X HG).
  - apply in_seq. lia.
Qed.

Context (Cl : nat -> Prop).
Hypothesis HCl : forall i n s, Cl i -> R i s -> R i (stats_add n s) /\ R i (stats_sub n s).
Definition parents_cl (C : list nodecfg) : Prop := forall c, In c C -> Cl (nc_parent c).

(** Every allocator that may be used as a parent meets the parent contract, whatever else
    is held from all the others. *)
Theorem gparent_spec C : config_ok C -> parents_cl C -> forall i lim X, Cl i -> climit C i = Some lim ->
  ParentSpec (gparent C i) lim (fun w L => GInv C w (hold X i (L ++ X i))).
Proof.
  induction C as [|c C IH]; intros HC HCC i lim X Hcl Hl.
  - cbn [climit] in Hl. destruct (Nat.eqb_spec i 0) as [->|]; [|discriminate]. assert (lim = M64 - 1) by congruence. subst lim. clear Hl.
    cbn [gparent GInv]. pose proof host_own_spec as HS. constructor.
    + intros [st h] L L' HP. cbn [snd]. rewrite !hold_eq. intros [H H0]. split; auto. revert H. apply (ps_perm _ _ _ HS). now apply Permutation_app_tail.
    + intros [st h] L. cbn [snd]. rewrite hold_eq. intros [H _]. apply (ps_good _ _ _ HS), good_app in H. tauto.
    + intros [st h] L n. cbn [snd fst host_internal p_alloc]. rewrite hold_eq. intros [H H0] Hn. apply post_omap.
      destruct (HCl 0%nat n st Hcl H0) as [Ha _].
      eapply post_impl; [| |apply (ps_alloc _ _ _ HS h _ n H Hn)]; cbn [fst snd].
      * intros w p Hw. rewrite hold_eq. auto.
      * intros w e Hw. auto.
    + intros [st h] L p n. cbn [snd fst host_internal p_dealloc]. rewrite hold_eq. intros [H H0]. apply post_omap.
      destruct (HCl 0%nat n st Hcl H0) as [_ Ha].
      eapply post_impl; [| |apply (ps_dealloc _ _ _ HS h _ p n H)]; cbn [fst snd]; auto.
  - destruct (node_ok_lim C c HC) as (limP & E & Hk & HM & Hle). cbn [climit] in Hl. cbn [gparent].
    assert (HCC' : parents_cl C) by (intros c' Hc'; apply HCC; now right).
    assert (HPERM : forall w L L', Permutation L L' ->
              GInv (c :: C) w (hold X i (L ++ X i)) -> GInv (c :: C) w (hold X i (L' ++ X i))).
    { intros w L L' HP. apply GInv_ext; auto. intros j Hj. destruct (Nat.eq_dec j i) as [->|Hne].
      - rewrite !hold_eq. now apply Permutation_app_tail.
      - rewrite !hold_ne; auto. }
    destruct (Nat.eqb_spec i (S (length C))) as [->|Hi].
    + rewrite E in Hl. pose proof (kind_strat_ok _ _ _ Hk HM Hl) as HSO.
      assert (HPS : ParentSpec (gparent C (nc_parent c)) limP
                (fun w L => GInv C w (hold X (nc_parent c) (L ++ X (nc_parent c))))) by (apply IH; [apply HC|exact HCC'|apply HCC; now left|auto]).
      set (InvP := fun w L => GInv C w (hold X (nc_parent c) (L ++ X (nc_parent c)))) in *.
      assert (HI : forall st s w U, GInv (c :: C) ((st, s), w) (hold X (S (length C)) U) <->
                R (S (length C)) st /\ exists L, kind_rel (nc_kind c) s U L /\ InvP w L).
      { intros st s w U. cbn [GInv fst snd]. rewrite hold_eq. unfold InvP.
        assert (EE : forall L, GInv C w (hold (hold X (S (length C)) U) (nc_parent c) (L ++ hold X (S (length C)) U (nc_parent c)))
                  <-> GInv C w (hold X (nc_parent c) (L ++ X (nc_parent c)))).
        { intros L. assert (HH : hperm (length C) (hold (hold X (S (length C)) U) (nc_parent c) (L ++ hold X (S (length C)) U (nc_parent c)))
                                 (hold X (nc_parent c) (L ++ X (nc_parent c)))).
          { intros j Hj. destruct (Nat.eq_dec j (nc_parent c)) as [->|Hne].
            - rewrite !hold_eq. rewrite hold_ne by lia. reflexivity.
            - rewrite !hold_ne by (auto; lia). reflexivity. }
          split; apply GInv_ext; try apply HC; auto. intros j Hj. apply Permutation_sym, HH, Hj. }
        split; [intros (L & H1 & H0 & H2); (split; [exact H0|])|intros (H0 & L & H1 & H2)]; exists L; (split; [exact H1|]); try (split; [exact H0|]); now apply EE. }
      constructor.
      * exact HPERM.
      * intros w L HG. pose proof (GInv_good _ _ _ (S (length C)) HC HG (le_n _)) as G.
        rewrite hold_eq in G. apply good_app in G. tauto.
      * intros [[st s] w] U n HG Hn. apply HI in HG as (HS & L & HR & HW). destruct (HCl _ n st Hcl HS) as [Hadd _].
        cbn [internal p_alloc allocate_internal]. apply post_omap.
        eapply post_impl; [| |apply (so_alloc _ _ _ _ HSO _ _ InvP s w _ L n HPS HR HW Hn)].
        -- intros [s' w'] p (L' & H1 & H2). apply HI. cbn [fst snd] in *. split; [exact Hadd|]. exists L'. auto.
        -- intros [s' w'] e (L' & H1 & H2). apply HI. cbn [fst snd] in *. split; [exact Hadd|]. exists L'. auto.
      * intros [[st s] w] U p n HG. apply HI in HG as (HS & L & HR & HW). destruct (HCl _ n st Hcl HS) as [_ Hsub].
        cbn [internal p_dealloc deallocate_internal]. apply post_omap.
        eapply post_impl; [| |apply (so_dealloc _ _ _ _ HSO _ _ InvP s w _ L p n (st_cur (stats_sub n st)) HPS HR HW)]; auto.
        intros [s' w'] u (L' & H1 & H2). apply HI. cbn [fst snd] in *. split; [exact Hsub|]. exists L'. auto.
    + assert (Hile : (i <= length C)%nat) by (destruct (climit_lt C (config_ok_all C (proj2 HC)) _ _ Hl); lia).
      assert (HI : forall a w U, GInv (c :: C) (a, w) (hold X i U) <->
                exists L, kind_rel (nc_kind c) (snd a) (X (S (length C))) L /\
                          R (S (length C)) (fst a) /\
                          GInv C w (hold (hold X (nc_parent c) (L ++ X (nc_parent c))) i
                             (if Nat.eqb i (nc_parent c) then L ++ U else U))).
      { intros a w U. cbn [GInv fst snd].
        assert (EE : forall L, GInv C w (hold (hold X i U) (nc_parent c) (L ++ hold X i U (nc_parent c)))
                  <-> GInv C w (hold (hold X (nc_parent c) (L ++ X (nc_parent c))) i (if Nat.eqb i (nc_parent c) then L ++ U else U))).
        { intros L. assert (HH : hperm (length C) (hold (hold X i U) (nc_parent c) (L ++ hold X i U (nc_parent c)))
             (hold (hold X (nc_parent c) (L ++ X (nc_parent c))) i (if Nat.eqb i (nc_parent c) then L ++ U else U))).
          { intros j Hj. unfold hold. destruct (Nat.eqb_spec j (nc_parent c)) as [->|N1].
            - rewrite (Nat.eqb_sym i). destruct (Nat.eqb_spec (nc_parent c) i); reflexivity.
            - destruct (Nat.eqb_spec j i) as [->|N2]; [|reflexivity].
              destruct (Nat.eqb_spec i (nc_parent c)); [congruence|reflexivity]. }
          split; apply GInv_ext; try apply HC; auto. intros j Hj. apply Permutation_sym, HH, Hj. }
        assert (ER : hold X i U (S (length C)) = X (S (length C))) by (apply hold_ne; lia).
        rewrite ER. split; intros (L & H1 & H0 & H2); exists L; (split; [exact H1|]); (split; [exact H0|]); now apply EE. }
      assert (HPS : forall L, ParentSpec (gparent C i) lim
                (fun w U => GInv C w (hold (hold X (nc_parent c) (L ++ X (nc_parent c))) i
                             (if Nat.eqb i (nc_parent c) then L ++ U ++ X i else U ++ X i)))).
      { intros L. pose proof (IH (proj2 HC) HCC' i lim (hold X (nc_parent c) (L ++ X (nc_parent c))) Hcl Hl) as H.
        set (Y := hold X (nc_parent c) (L ++ X (nc_parent c))) in *.
        assert (EQ : forall w U, GInv C w (hold Y i (if Nat.eqb i (nc_parent c) then L ++ U ++ X i else U ++ X i)) <->
                     GInv C w (hold Y i (U ++ Y i))).
        { intros w U. assert (HH : hperm (length C) (hold Y i (if Nat.eqb i (nc_parent c) then L ++ U ++ X i else U ++ X i)) (hold Y i (U ++ Y i))).
          { intros j Hj. unfold hold at 1 2. destruct (Nat.eqb_spec j i) as [->|N]; [|reflexivity].
            unfold Y, hold. rewrite (Nat.eqb_sym). destruct (Nat.eqb_spec (nc_parent c) i) as [->|N2].
            - apply Permutation_app_swap_app.
            - reflexivity. }
          split; apply GInv_ext; try apply HC; auto. intros j Hj. apply Permutation_sym, HH, Hj. }
        destruct H as [P1 P2 P3 P4]. constructor.
        - intros w U U' HP HG. apply EQ. apply EQ in HG. eapply P1; eauto.
        - intros w U HG. apply EQ in HG. eapply P2; eauto.
        - intros w U n HG Hn. apply EQ in HG. eapply post_impl; [| |apply (P3 w U n HG Hn)].
          + intros w' p Hw. apply EQ. exact Hw.
          + intros w' e Hw. apply EQ. exact Hw.
        - intros w U p n HG. apply EQ in HG. eapply post_impl; [| |apply (P4 w U p n HG)]; auto.
          intros w' u Hw. apply EQ. exact Hw. }
      constructor.
      * exact HPERM.
      * intros w L HG. pose proof (GInv_good _ _ _ i HC HG ltac:(cbn [length]; lia)) as G.
        rewrite hold_eq in G. apply good_app in G. tauto.
      * intros [a w] U n HG Hn. apply HI in HG as (L & HR & HS & HW).
        cbn [lift_parent p_alloc fst snd]. apply post_omap.
        eapply post_impl; [| |apply (ps_alloc _ _ _ (HPS L) w U n)]; auto.
        -- intros w' p Hw. apply HI. exists L. auto.
        -- intros w' e Hw. apply HI. exists L. auto.
      * intros [a w] U p n HG. apply HI in HG as (L & HR & HS & HW).
        cbn [lift_parent p_dealloc fst snd]. apply post_omap.
        eapply post_impl; [| |apply (ps_dealloc _ _ _ (HPS L) w U p n)]; auto.
        intros w' u Hw. apply HI. exists L. auto.
Qed.

(** ** The program's operations *)

Lemma hold_top_ext C c w L X U : config_ok (c :: C) ->
  GInv C w (hold (hold X (S (length C)) U) (nc_parent c) (L ++ hold X (S (length C)) U (nc_parent c))) <->
  GInv C w (hold X (nc_parent c) (L ++ X (nc_parent c))).
Proof.
  intros HC. destruct (node_ok_lim C c HC) as (limP & E & Hk & HM & Hle).
  assert (HH : hperm (length C) (hold (hold X (S (length C)) U) (nc_parent c) (L ++ hold X (S (length C)) U (nc_parent c)))
                           (hold X (nc_parent c) (L ++ X (nc_parent c)))).
  { intros j Hj. destruct (Nat.eq_dec j (nc_parent c)) as [->|Hne].
    - rewrite !hold_eq. rewrite hold_ne by lia. reflexivity.
    - rewrite !hold_ne by (auto; lia). reflexivity. }
  split; apply GInv_ext; try apply HC; auto. intros j Hj. apply Permutation_sym, HH, Hj.
Qed.

Lemma hold_low_ext C c w L X i U : config_ok (c :: C) -> (i <= length C)%nat ->
  GInv C w (hold (hold X (nc_parent c) (L ++ X (nc_parent c))) i
              (if Nat.eqb i (nc_parent c) then L ++ U else U)) <->
  GInv C w (hold (hold X i U) (nc_parent c) (L ++ hold X i U (nc_parent c))).
Proof.
  intros HC Hi.
  assert (HH : hperm (length C) (hold (hold X (nc_parent c) (L ++ X (nc_parent c))) i (if Nat.eqb i (nc_parent c) then L ++ U else U))
     (hold (hold X i U) (nc_parent c) (L ++ hold X i U (nc_parent c)))).
  { intros j Hj. unfold hold. destruct (Nat.eqb_spec j (nc_parent c)) as [->|N1].
    - rewrite (Nat.eqb_sym i). destruct (Nat.eqb_spec (nc_parent c) i); reflexivity.
    - destruct (Nat.eqb_spec j i) as [->|N2]; [|reflexivity].
      destruct (Nat.eqb_spec i (nc_parent c)); [congruence|reflexivity]. }
  split; apply GInv_ext; try apply HC; auto. intros j Hj. apply Permutation_sym, HH, Hj.
Qed.

Lemma post_imp {W A} (o : outcome W A) (ok ok' : W -> A -> Prop) (thr thr' : W -> exn -> Prop) :
  post o ok thr -> (forall w a, ok w a -> ok' w a) -> (forall w e, thr w e -> thr' w e) -> post o ok' thr'.
Proof. intros H H1 H2. destruct o; cbn in *; auto. Qed.

Lemma graw_alloc_ok C : config_ok C -> parents_cl C -> forall i n X w, GInv C w X -> user_guard C i n w ->
  (i <= length C)%nat /\
  post (p_alloc (graw C i) n w)
    (fun w' p => GInv C w' (if p =? 0 then X else hold X i ((p, n) :: X i)))
    (fun w' _ => GInv C w' X).
Proof.
  induction C as [|c C IH]; intros HC HCC i n X w HG Hu.
  - cbn [user_guard] in Hu. destruct Hu as [-> Hn]. split; [auto|]. destruct w as [st h].
    cbn [graw lift_parent p_alloc GInv fst snd] in *. destruct HG as [HG HS]. apply post_omap.
    pose proof (ps_alloc _ _ _ host_own_spec h _ n HG ltac:(lia)) as Ha.
    destruct (p_alloc host n h) as [h' p|h' e| | |]; cbn [post fst snd] in *; auto.
    rewrite (good_nonnull _ _ _ (ps_good _ _ _ host_own_spec _ _ Ha)). rewrite hold_eq. auto.
  - destruct (node_ok_lim C c HC) as (limP & E & Hk & HM & Hle).
    assert (HCC' : parents_cl C) by (intros c' Hc'; apply HCC; now right).
    cbn [user_guard] in Hu. cbn [graw]. destruct w as [[st s] w]. cbn [fst snd] in Hu.
    destruct HG as (L & HR & HS & HG). cbn [fst snd] in HR, HS, HG.
    destruct (Nat.eqb_spec i (S (length C))) as [->|Hi].
    + split; [cbn; lia|]. rewrite E in Hu. cbn [p_alloc fst snd]. apply post_omap.
      pose proof (gparent_spec C (proj2 HC) HCC' _ _ X (HCC c (or_introl eq_refl)) E) as HPS.
      pose proof (lo_alloc _ _ _ _ _ (kind_leaf_ok _ limP Hk HM) _ _ _ s w _ L n HPS HR HG Hu) as Ha.
      destruct (st_alloc (strat_of (nc_kind c)) (gworld C) (gparent C (nc_parent c)) n (s, w)) as [[s' w'] p|[s' w'] e| | |];
        cbn [post fst snd] in *; auto.
      * destruct Ha as (L' & H1 & H2). exists L'. cbn [fst snd]. destruct (p =? 0); [auto|].
        rewrite hold_eq. split; [exact H1|]. split; [exact HS|]. now apply hold_top_ext.
      * destruct Ha as (L' & H1 & H2). exists L'. auto.
    + destruct (IH (proj2 HC) HCC' i n _ w HG Hu) as [Hile Ha]. split; [cbn; lia|].
      cbn [lift_parent p_alloc fst snd]. apply post_omap.
      eapply post_imp; [exact Ha| |].
      * intros w' p Hw. cbv beta in Hw. exists L. cbn [fst snd]. destruct (p =? 0); [auto|].
        rewrite hold_ne by lia. split; [exact HR|]. split; [exact HS|]. apply hold_low_ext; auto.
        eapply GInv_ext; [apply HC| |exact Hw]. intros j Hj. unfold hold.
        destruct (Nat.eqb_spec j i) as [->|]; [|reflexivity].
        destruct (Nat.eqb_spec i (nc_parent c)) as [->|]; [|reflexivity].
        apply Permutation_middle.
      * intros w' e Hw. exists L. auto.
Qed.

Lemma graw_free_ok C : config_ok C -> parents_cl C -> forall i p n l X w, GInv C w X -> (i <= length C)%nat ->
  Permutation (X i) ((p, n) :: l) ->
  post (p_dealloc (graw C i) p n w)
    (fun w' _ => GInv C w' (hold X i l))
    (fun w' _ => coalescing (kind_at C i) /\ GInv C w' (hold X i l)).
Proof.
  induction C as [|c C IH]; intros HC HCC i p n l X w HG Hi HX.
  - cbn [length] in Hi. assert (i = 0%nat) as -> by lia. destruct w as [st h].
    cbn [graw lift_parent p_dealloc GInv fst snd] in *. destruct HG as [HG HS]. apply post_omap.
    eapply post_imp; [apply (ps_dealloc _ _ _ host_own_spec h l p n)| |]; cbn; try tauto.
    eapply (ps_perm _ _ _ host_own_spec); eauto.
  - destruct (node_ok_lim C c HC) as (limP & E & Hk & HM & Hle).
    assert (HCC' : parents_cl C) by (intros c' Hc'; apply HCC; now right).
    cbn [graw]. rewrite kind_at_cons. destruct w as [[st s] w].
    destruct HG as (L & HR & HS & HG). cbn [fst snd] in HR, HS, HG.
    destruct (Nat.eqb_spec i (S (length C))) as [->|Hne].
    + cbn [p_dealloc fst snd]. apply post_omap.
      pose proof (gparent_spec C (proj2 HC) HCC' _ _ X (HCC c (or_introl eq_refl)) E) as HPS.
      pose proof (kind_leaf_ok _ limP Hk HM) as HL.
      assert (HR' : kind_rel (nc_kind c) s ((p, n) :: l) L).
      { eapply (kind_rel_perm _ _ _ _ _ _ limP Hk HM); [exact HX|reflexivity|exact HR]. }
      eapply post_imp; [apply (lo_dealloc _ _ _ _ _ HL _ _ _ s w l L p n (st_cur st) HPS HR' HG)| |].
      * intros [s' w'] u (L' & H1 & H2). cbn [fst snd] in *. exists L'. cbn [fst snd].
        rewrite hold_eq. split; [exact H1|]. split; [exact HS|]. now apply hold_top_ext.
      * intros [s' w'] u (Hl & L' & H1 & H2). cbn [fst snd] in *. split; [destruct (nc_kind c); exact Hl|]. exists L'. cbn [fst snd].
        rewrite hold_eq. split; [exact H1|]. split; [exact HS|]. now apply hold_top_ext.
    + cbn [length] in Hi. cbn [lift_parent p_dealloc fst snd]. apply post_omap.
      set (Y := hold X (nc_parent c) (L ++ X (nc_parent c))) in *.
      set (l' := if Nat.eqb i (nc_parent c) then L ++ l else l).
      assert (HY : Permutation (Y i) ((p, n) :: l')).
      { unfold Y, l', hold. destruct (Nat.eqb_spec i (nc_parent c)) as [<-|]; [|exact HX].
        rewrite HX. apply Permutation_sym, Permutation_middle. }
      eapply post_imp; [apply (IH (proj2 HC) HCC' i p n l' Y w HG ltac:(lia) HY)| |].
      * intros w' u Hw. exists L. cbn [fst snd]. rewrite hold_ne by lia. split; [exact HR|]. split; [exact HS|].
        apply hold_low_ext; auto. lia.
      * intros w' u [Hl Hw]. split; [exact Hl|]. exists L. cbn [fst snd]. rewrite hold_ne by lia. split; [exact HR|]. split; [exact HS|].
        apply hold_low_ext; auto. lia.
Qed.

(** The statistics of one allocator are changed. *)
Lemma gupd_ok C i f : forall w X, GInv C w X -> (i <= length C)%nat -> (R i (gstats C i w) -> R i (f (gstats C i w))) -> GInv C (gupd C i f w) X.
Proof using R.
  clear HCl Cl.
  induction C as [|c C IH]; intros w X HG Hi Hf.
  - assert (i = 0%nat) as -> by (cbn in Hi; lia). cbn in *. destruct HG. auto.
  - destruct HG as (L & HR & HS & HG). cbn [gupd gstats] in *. destruct (Nat.eqb_spec i (S (length C))) as [->|Hne].
    + exists L. cbn [fst snd]. auto.
    + exists L. cbn [fst snd]. split; [exact HR|]. split; [exact HS|]. apply IH; auto. cbn [length] in Hi. lia.
Qed.

Lemma GInv_stats C w X : GInv C w X -> forall i, (i <= length C)%nat -> R i (gstats C i w).
Proof using R.
  clear HCl Cl.
  revert w X. induction C as [|c C IH]; intros w X HG i Hi.
  - assert (i = 0%nat) as -> by (cbn in Hi; lia). apply HG.
  - destruct HG as (L & HR & HS & HG). cbn [gstats length] in *. destruct (Nat.eqb_spec i (S (length C))) as [->|Hne]; [exact HS|].
    eapply IH; [exact HG|lia].
Qed.

Lemma grelease_ok C : config_ok C -> parents_cl C -> forall i X w, GInv C w X ->
  post (grelease C i w) (fun w' _ => GInv C w' X) (fun w' _ => GInv C w' X).
Proof.
  induction C as [|c C IH]; intros HC HCC i X w HG; [exact HG|].
  destruct (node_ok_lim C c HC) as (limP & E & Hk & HM & Hle).
  assert (HCC' : parents_cl C) by (intros c' Hc'; apply HCC; now right).
  cbn [grelease]. destruct w as [[st s] w]. destruct HG as (L & HR & HS & HG). cbn [fst snd] in *.
  destruct (Nat.eqb_spec i (S (length C))) as [->|Hne]; apply post_omap.
  - pose proof (gparent_spec C (proj2 HC) HCC' _ _ X (HCC c (or_introl eq_refl)) E) as HPS.
    pose proof (lo_release _ _ _ _ _ (kind_leaf_ok _ limP Hk HM) _ _ _ s w _ L HPS HR HG) as H.
    eapply post_imp; [exact H| |]; intros [s' w'] u (L' & H1 & H2); exists L'; auto.
  - eapply post_imp; [apply (IH (proj2 HC) HCC' i _ w HG)| |]; intros w' u Hw; exists L; auto.
Qed.

Lemma gcoalesce_ok C : config_ok C -> parents_cl C -> forall i X w, GInv C w X ->
  post (gcoalesce C i w) (fun w' _ => GInv C w' X) (fun w' _ => GInv C w' X).
Proof.
  induction C as [|c C IH]; intros HC HCC i X w HG; [exact HG|].
  destruct (node_ok_lim C c HC) as (limP & E & Hk & HM & Hle).
  assert (HCC' : parents_cl C) by (intros c' Hc'; apply HCC; now right).
  cbn [gcoalesce]. destruct w as [[st s] w]. destruct HG as (L & HR & HS & HG). cbn [fst snd] in *.
  destruct (Nat.eqb_spec i (S (length C))) as [->|Hne]; apply post_omap.
  - pose proof (gparent_spec C (proj2 HC) HCC' _ _ X (HCC c (or_introl eq_refl)) E) as HPS.
    pose proof (lo_coalesce _ _ _ _ _ (kind_leaf_ok _ limP Hk HM) _ _ _ s w _ L (st_cur st) HPS HR HG) as H.
    eapply post_imp; [exact H| |]; intros [s' w'] u (L' & H1 & H2); exists L'; auto.
  - eapply post_imp; [apply (IH (proj2 HC) HCC' i _ w HG)| |]; intros w' u Hw; exists L; auto.
Qed.

Lemma gcreate_ok C c : config_ok (c :: C) -> parents_cl (c :: C) -> R (S (length C)) stats0 ->
  forall X w, GInv C w X -> X (S (length C)) = [] ->
  post (gcreate C c w) (fun _ v => GInv (c :: C) v X) (fun w' _ => GInv C w' X).
Proof.
  intros HC HCC H0 X w HG HX. destruct (node_ok_lim C c HC) as (limP & E & Hk & HM & Hle).
  assert (HCC' : parents_cl C) by (intros c' Hc'; apply HCC; now right).
  pose proof (gparent_spec C (proj2 HC) HCC' _ _ X (HCC c (or_introl eq_refl)) E) as HPS.
  assert (HG0 : GInv C w (hold X (nc_parent c) ([] ++ X (nc_parent c)))).
  { eapply GInv_ext; [apply HC| |exact HG]. intros j Hj. unfold hold.
    destruct (Nat.eqb_spec j (nc_parent c)) as [->|]; reflexivity. }
  pose proof (lo_make _ _ _ _ _ (kind_leaf_ok _ limP Hk HM) _ _ _ w HPS HG0) as H.
  unfold gcreate.
  destruct (st_make (strat_of (nc_kind c)) (gworld C) (gparent C (nc_parent c)) w) as [w' s|w' e| | |]; cbn [post] in *; auto.
  - destruct H as (L & H1 & H2). exists L. cbn [fst snd]. rewrite HX. auto.
  - eapply GInv_ext; [apply HC| |exact H]. intros j Hj. unfold hold.
    destruct (Nat.eqb_spec j (nc_parent c)) as [->|]; reflexivity.
Qed.
End WithStats.

(** The program's operations in terms of the raw ones. *)
Lemma guser_alloc_raw C i n : forall w, p_alloc (guser C i) n w =
  match p_alloc (graw C i) n w with
  | Ok w' p => Ok (gupd C i (stats_add n) w') p
  | Throw w' e => Throw w' e
  | UB => UB | Abort => Abort | NoFuel => NoFuel
  end.
Proof.
  induction C as [|c C IH]; intros w; cbn [guser graw gupd].
  - destruct w as [st h]. cbn [p_alloc lift_parent fst snd]. destruct (p_alloc host n h); reflexivity.
  - destruct (Nat.eqb i (S (length C))).
    + destruct w as [[st s] w]. cbn [p_alloc fst snd]. destruct (st_alloc _ _ _ _ _) as [[s' w'] p|[s' w'] e| | |]; reflexivity.
    + destruct w as [a w]. cbn [p_alloc lift_parent fst snd]. rewrite IH. destruct (p_alloc (graw C i) n w); reflexivity.
Qed.

Lemma guser_free_raw C i p n : forall w, p_dealloc (guser C i) p n w = p_dealloc (graw C i) p n (gupd C i (stats_sub n) w).
Proof.
  induction C as [|c C IH]; intros w; cbn [guser graw gupd].
  - destruct w as [st h]. reflexivity.
  - destruct (Nat.eqb i (S (length C))).
    + destruct w as [[st s] w]. reflexivity.
    + destruct w as [a w]. cbn [p_dealloc lift_parent fst snd]. rewrite IH. reflexivity.
Qed.

Notation GI := (GInv (fun _ _ => True)).
Definition anyCl (i : nat) : Prop := True.
Lemma trivial_cl : forall i n s, anyCl i -> (fun (_ : nat) (_ : stats) => True) i s ->
  (fun (_ : nat) (_ : stats) => True) i (stats_add n s) /\ (fun (_ : nat) (_ : stats) => True) i (stats_sub n s).
Proof. auto. Qed.
Lemma trivial_parents C : parents_cl anyCl C.
Proof. intros c _. exact I. Qed.

Lemma guser_alloc_ok C : config_ok C -> forall i n X w, GI C w X -> user_guard C i n w ->
  (i <= length C)%nat /\
  post (p_alloc (guser C i) n w)
    (fun w' p => GI C w' (if p =? 0 then X else hold X i ((p, n) :: X i)))
    (fun w' _ => GI C w' X).
Proof.
  intros HC i n X w HG Hu. destruct (graw_alloc_ok _ anyCl trivial_cl C HC (trivial_parents C) i n X w HG Hu) as [Hi Ha].
  split; auto. rewrite guser_alloc_raw. destruct (p_alloc (graw C i) n w); cbn [post] in *; auto. apply gupd_ok; auto.
Qed.

Lemma guser_free_ok C : config_ok C -> forall i p n l X w, GI C w X -> (i <= length C)%nat ->
  Permutation (X i) ((p, n) :: l) ->
  post (p_dealloc (guser C i) p n w)
    (fun w' _ => GI C w' (hold X i l))
    (fun w' _ => coalescing (kind_at C i) /\ GI C w' (hold X i l)).
Proof.
  intros HC i p n l X w HG Hi HX. rewrite guser_free_raw.
  apply (graw_free_ok _ anyCl trivial_cl C HC (trivial_parents C)); auto. apply gupd_ok; auto.
Qed.

Theorem ghist_inv C w X : ghist C w X ->
  config_ok C /\ GI C w X /\ (forall i, (length C < i)%nat -> X i = []).
Proof.
  induction 1 as [orc|C w X c w' v H (HC & HG & HX) Hn E|C w X c w' e H (HC & HG & HX) Hn E
                 |C w X i n w' p H (HC & HG & HX) Hu E Hp|C w X i n w' H (HC & HG & HX) Hu E
                 |C w X i n w' e H (HC & HG & HX) Hu E|C w X i p n l1 l2 w' H (HC & HG & HX) Hl E
                 |C w X i p n l1 l2 w' e H (HC & HG & HX) Hl E
                 |C w X i w' H (HC & HG & HX) E|C w X i w' e H (HC & HG & HX) E
                 |C w X i w' H (HC & HG & HX) E|C w X i w' e H (HC & HG & HX) E].
  - split; [exact I|]. split; [|auto]. cbn. split; [|exact I]. split; [constructor|apply good_nil].
  - assert (HC' : config_ok (c :: C)) by (split; auto). split; [exact HC'|].
    pose proof (gcreate_ok _ anyCl trivial_cl C c HC' (trivial_parents _) I X w HG (HX _ (le_n _))) as Hc. rewrite E in Hc. split; [exact Hc|].
    intros i Hi. apply HX. cbn [length] in Hi. lia.
  - assert (HC' : config_ok (c :: C)) by (split; auto). split; [exact HC|].
    pose proof (gcreate_ok _ anyCl trivial_cl C c HC' (trivial_parents _) I X w HG (HX _ (le_n _))) as Hc. rewrite E in Hc. auto.
  - destruct (guser_alloc_ok C HC i n X w HG Hu) as [Hi Ha]. rewrite E in Ha. cbn [post] in Ha.
    split; [exact HC|]. split.
    + destruct (Z.eqb_spec p 0); [contradiction|exact Ha].
    + intros j Hj. rewrite hold_ne by lia. auto.
  - destruct (guser_alloc_ok C HC i n X w HG Hu) as [Hi Ha]. rewrite E in Ha. auto.
  - destruct (guser_alloc_ok C HC i n X w HG Hu) as [Hi Ha]. rewrite E in Ha. auto.
  - assert (Hi : (i <= length C)%nat).
    { destruct (le_lt_dec i (length C)) as [|Hi]; auto. rewrite (HX i Hi) in Hl. destruct l1; discriminate. }
    assert (HP : Permutation (X i) ((p, n) :: l1 ++ l2)) by (rewrite Hl; apply Permutation_sym, Permutation_middle).
    pose proof (guser_free_ok C HC i p n (l1 ++ l2) X w HG Hi HP) as Hf. rewrite E in Hf.
    split; [exact HC|]. split; [exact Hf|]. intros j Hj. rewrite hold_ne by lia. auto.
  - assert (Hi : (i <= length C)%nat).
    { destruct (le_lt_dec i (length C)) as [|Hi]; auto. rewrite (HX i Hi) in Hl. destruct l1; discriminate. }
    assert (HP : Permutation (X i) ((p, n) :: l1 ++ l2)) by (rewrite Hl; apply Permutation_sym, Permutation_middle).
    pose proof (guser_free_ok C HC i p n (l1 ++ l2) X w HG Hi HP) as Hf. rewrite E in Hf. destruct Hf as [_ Hf].
    split; [exact HC|]. split; [exact Hf|]. intros j Hj. rewrite hold_ne by lia. auto.
  - pose proof (grelease_ok _ anyCl trivial_cl C HC (trivial_parents C) i X w HG) as Hr. rewrite E in Hr. auto.
  - pose proof (grelease_ok _ anyCl trivial_cl C HC (trivial_parents C) i X w HG) as Hr. rewrite E in Hr. auto.
  - pose proof (gcoalesce_ok _ anyCl trivial_cl C HC (trivial_parents C) i X w HG) as Hr. rewrite E in Hr. auto.
  - pose proof (gcoalesce_ok _ anyCl trivial_cl C HC (trivial_parents C) i X w HG) as Hr. rewrite E in Hr. auto.
Qed.

Lemma ghist_disjoint C w X : ghist C w X -> good (all_held X (S (length C))).
Proof. intros H. destruct (ghist_inv C w X H) as (HC & HG & _). exact (GInv_good_all (fun _ _ => True) C HC w X HG). Qed.

Lemma ghist_defined C w X i : ghist C w X ->
  (forall n, user_guard C i n w -> p_alloc (guser C i) n w <> UB) /\
  (forall p n, In (p, n) (X i) ->
     p_dealloc (guser C i) p n w <> UB /\
     (~ coalescing (kind_at C i) -> forall w' e, p_dealloc (guser C i) p n w <> Throw w' e)) /\
  grelease C i w <> UB /\ gcoalesce C i w <> UB /\
  (forall c, node_ok C c -> gcreate C c w <> UB).
Proof.
  intros H. destruct (ghist_inv C w X H) as (HC & HG & HX). repeat split.
  - intros n Hu E. destruct (guser_alloc_ok C HC i n X w HG Hu) as [_ Ha]. now rewrite E in Ha.
  - intros E. apply in_split in H0 as (l1 & l2 & Hl).
    assert (Hi : (i <= length C)%nat).
    { destruct (le_lt_dec i (length C)) as [|Hi]; auto. rewrite (HX i Hi) in Hl. destruct l1; discriminate. }
    pose proof (guser_free_ok C HC i p n (l1 ++ l2) X w HG Hi) as Hf. rewrite E in Hf. apply Hf.
    rewrite Hl; apply Permutation_sym, Permutation_middle.
  - intros Hco w' e E. apply in_split in H0 as (l1 & l2 & Hl).
    assert (Hi : (i <= length C)%nat).
    { destruct (le_lt_dec i (length C)) as [|Hi]; auto. rewrite (HX i Hi) in Hl. destruct l1; discriminate. }
    pose proof (guser_free_ok C HC i p n (l1 ++ l2) X w HG Hi) as Hf. rewrite E in Hf. apply Hco, Hf.
    rewrite Hl; apply Permutation_sym, Permutation_middle.
  - intros E. pose proof (grelease_ok _ anyCl trivial_cl C HC (trivial_parents C) i X w HG) as Hr. now rewrite E in Hr.
  - intros E. pose proof (gcoalesce_ok _ anyCl trivial_cl C HC (trivial_parents C) i X w HG) as Hr. now rewrite E in Hr.
  - intros c Hn E. pose proof (gcreate_ok _ anyCl trivial_cl C c (conj Hn HC) (trivial_parents _) I X w HG (HX _ (le_n _))) as Hr. now rewrite E in Hr.
Qed.
