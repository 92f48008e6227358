(** Destroying all allocators. *)
From Verif Require Import Base BaseFacts AlignedModel AlignedFacts HeapModel HeapFacts StratModel StratFacts WrapModel WrapFacts LeafFacts
  QuickPoolModel QuickPoolInv QuickPoolFacts QuickPoolFree QuickPoolOps QuickPoolMain QuickPoolSpec QuickPoolThms QuickPoolStrat QuickPoolStratFacts
  FixedPoolModel FixedPoolFacts MixedPoolModel MixedPoolFacts
  DynPoolModel DynPoolInv DynPoolView DynPoolMain DynPoolThms DynPoolStratFacts GlobalModel GlobalSpec GlobalFacts LooseSpec LooseFacts TeardownModel TeardownSpec.

(** ** One strategy *)

(** As long as no exception arises, destruction is [release]. *)
Lemma q_destroy_release W (P : Parent W) todo : forall sw,
  (forall sw' e, q_release_loop P todo sw <> Throw sw' e) -> q_destroy_loop P todo sw = q_release_loop P todo sw.
Proof.
  induction todo as [|e todo IH]; intros [s w] H; cbn [q_destroy_loop q_release_loop] in *; [reflexivity|].
  destruct (q_chunks s (e_chunk e)) as [c|]; [|reflexivity].
  destruct ((c_size c =? c_csize c) && c_free c); [|now apply IH].
  destruct (aligned_deallocate _ _ _ _) as [bw u|bw ex| | |]; try reflexivity.
  - destruct (sm_erase _ _); [|reflexivity]. now apply IH.
  - exfalso. eapply H. reflexivity.
Qed.

Lemma d_destroy_release W (P : Parent W) todo : forall keep sw,
  (forall sw' e, d_release_loop P keep todo sw <> Throw sw' e) -> d_destroy_loop P keep todo sw = d_release_loop P keep todo sw.
Proof.
  induction todo as [|c todo IH]; intros keep [s w] H; cbn [d_destroy_loop d_release_loop] in *; [reflexivity|].
  destruct (d_whole c); [|now apply IH].
  destruct (aligned_deallocate _ _ _ _) as [bw u|bw ex| | |]; try reflexivity.
  - now apply IH.
  - exfalso. eapply H. reflexivity.
Qed.

(** What the destructor of a strategy must do: give back blocks it holds, with those still in use kept. *)
Definition destroyed {W : Type} (Inv : W -> list region -> Prop) (U : list region) (kp cl : Prop) (o : outcome W unit) : Prop :=
  post o (fun w' _ => exists L', Inv w' L' /\ (kp -> covered U L') /\ (cl -> U = [] -> L' = [])) (fun _ _ => False).

Lemma q_destroy_ok cfg limP W (P : Parent W) Inv s w U L : qcfg_ok cfg limP -> ParentSpec P limP Inv ->
  QInv (cf_align cfg) s U L -> Inv w L -> destroyed Inv U True True (q_destroy P s w).
Proof.
  intros CFG HP (B & HQ & Hst & HU & HL) HI. unfold destroyed, q_destroy. apply post_omap.
  assert (HQW : QW Inv cfg s w B) by (split; [exact HQ|]; split; auto; eapply (ps_perm _ _ _ HP); eauto).
  pose proof (q_release_ok P limP Inv HP cfg CFG s w B HQW) as Hr. unfold q_release in Hr. cbn [fst] in Hr.
  rewrite q_destroy_release by (intros sw' e E; rewrite E in Hr; exact Hr).
  eapply post_impl; [| |exact Hr]; [|auto].
  intros [s' w'] u (B' & HPB & (HQ' & Hst' & HI') & Hnone & _). cbn [fst snd] in *.
  exists (map b_held B'). split; [exact HI'|].
  assert (HU' : Permutation U (uregs B')) by (rewrite HU; symmetry; now apply uregs_release). split.
  - intros _. eapply covered_perm; [apply Permutation_sym, HU'|reflexivity|]. eapply uregs_covered; eauto.
  - intros _ ->. destruct B' as [|b B']; [reflexivity|exfalso].
    assert (Hrel : b_rel b = true).
    { apply (b_rel_idle limP cfg CFG s' (b :: B') [] b HQ' Hst' HU' (or_introl eq_refl)). intros x []. }
    unfold rel_blocks in Hnone. cbn [filter] in Hnone. rewrite Hrel in Hnone. discriminate.
Qed.

Lemma d_destroy_ok cfg limP W (P : Parent W) Inv s w U L : dcfg_ok cfg limP -> ParentSpec P limP Inv ->
  DInv (dc_align cfg) s U L -> Inv w L -> destroyed Inv U True True (d_destroy P s w).
Proof.
  intros CFG HP (B & HQ & HU & HL) HI. unfold destroyed, d_destroy. apply post_omap.
  assert (HQW : DW Inv cfg s w B) by (split; [exact HQ|]; eapply (ps_perm _ _ _ HP); eauto).
  pose proof (d_release_ok P limP Inv HP cfg CFG s w B HQW) as Hr. unfold d_release in Hr. cbn [fst] in Hr.
  rewrite d_destroy_release by (intros sw' e E; rewrite E in Hr; exact Hr).
  eapply post_impl; [| |exact Hr]; [|auto].
  intros [s' w'] u (B' & HPB & (HQ' & HI') & Hnone & _). cbn [fst snd] in *.
  exists (map b_held B'). split; [exact HI'|].
  assert (HU' : Permutation U (uregs B')) by (rewrite HU; symmetry; now apply uregs_release). split.
  - intros _. eapply covered_perm; [apply Permutation_sym, HU'|reflexivity|]. eapply uregs_covered. apply QI_qof. exact HQ'.
  - intros _ ->. destruct B' as [|b B']; [reflexivity|exfalso].
    assert (Hrel : b_rel b = true).
    { eapply (d_rel_idle limP Inv cfg CFG s' w' (b :: B') [] b (conj HQ' HI') HU' (or_introl eq_refl)). intros x []. }
    unfold rel_blocks in Hnone. cbn [filter] in Hnone. rewrite Hrel in Hnone. discriminate.
Qed.

Lemma fx_free_all_ok obj per W (P : Parent W) Inv limP (HP : ParentSpec P limP Inv) : forall pools w F,
  Inv w (map (pool_held obj per) pools ++ F) ->
  post (fx_free_all obj per P pools w) (fun w' _ => Inv w' F) (fun _ _ => False).
Proof.
  induction pools as [|p pools IH]; intros w F HI; cbn [fx_free_all]; [exact HI|].
  cbn [map app] in HI. apply post_bind. eapply post_impl; [| |apply (ps_dealloc _ _ _ HP w _ (fp_data p) (fx_data_bytes obj per) HI)]; auto.
Qed.

Lemma fx_leaked_spec obj per s itss : Forall2 (pool_ok obj per) (fx_pools s) itss ->
  fx_leaked per s = false <-> all_used obj (fx_pools s) itss = [].
Proof.
  unfold fx_leaked. induction 1 as [|p its pools itss Hp HF IH]; [cbn; tauto|].
  cbn [existsb]. rewrite all_used_cons, orb_false_iff, IH.
  assert (E : (negb (fp_unused per p) && existsb negb (concat (fp_avail p))) = false <-> pool_used obj p its = []).
  { destruct Hp as (H1 & H2 & H3 & H4 & H5 & H6). unfold fp_unused. destruct its as [|x its].
    - cbn [length] in H5. replace (Z.of_nat per =? fp_num p) with true by lia. cbn. tauto.
    - cbn [length] in H5. replace (Z.of_nat per =? fp_num p) with false by lia. cbn [negb andb]. split; [|discriminate].
      intros E. exfalso. destruct (proj1 (H4 (fst x)) (or_introl eq_refl)) as [_ Hb].
      assert (Hl : (fst x < length (concat (fp_avail p)))%nat).
      { destruct (Nat.lt_ge_cases (fst x) (length (concat (fp_avail p)))); auto. rewrite nth_overflow in Hb by lia. discriminate. }
      assert (Hin : In false (concat (fp_avail p))) by (rewrite <- Hb; now apply nth_In).
      assert (existsb negb (concat (fp_avail p)) = true) by (apply existsb_exists; exists false; auto). congruence. }
  rewrite E. split.
  - intros [-> ->]. reflexivity.
  - apply app_eq_nil.
Qed.

Lemma fx_destroy_ok obj per limP W (P : Parent W) Inv s w U L : 0 < obj -> (0 < per)%nat -> obj * Z.of_nat per < M64 ->
  ParentSpec P limP Inv -> fx_rel obj per s U L -> Inv w L -> destroyed Inv U True True (fx_destroy obj per P s w).
Proof.
  intros Ho Hpr Hlt HP HR HI. pose proof HR as (itss & R1 & R2 & R3 & R4). unfold destroyed, fx_destroy.
  pose proof (fx_leaked_spec obj per s itss R1) as HL. destruct (fx_leaked per s) eqn:E.
  - cbn [post]. exists L. split; [exact HI|]. split.
    + intros _. pose proof (ps_good _ _ _ HP _ _ HI) as HG.
      apply (so_inside _ _ _ _ (FixedPool_ok obj per Ho Hlt Hpr 1 (obj * Z.of_nat per) ltac:(lia)) s U L HR HG).
    + intros _ ->. exfalso. apply Permutation_nil in R2. destruct HL as [_ HL]. discriminate (HL R2).
  - assert (U = []) as ->. { destruct HL as [HL _]. rewrite (HL eq_refl) in R2. now apply Permutation_sym, Permutation_nil in R2. }
    eapply post_impl; [| |apply (fx_free_all_ok obj per W P Inv limP HP (fx_pools s) w [])]; [|auto|].
    + intros w' u Hw. exists []. split; [exact Hw|]. split; [intros _ x []|auto].
    + rewrite app_nil_r. eapply (ps_perm _ _ _ HP); eauto.
Qed.

Lemma mx_destroy_fixed_ok limP max W (P : Parent W) Inv (HP : ParentSpec P limP Inv) : max < M64 -> forall l parts w F,
  Forall (class_ok max) l -> Forall2 class_rel l parts -> Inv w (concat (map snd parts) ++ F) ->
  destroyed (fun w L => Inv w (L ++ F)) (concat (map fst parts)) True True (mx_destroy_fixed P l w).
Proof.
  intros HM. induction l as [|c l IH]; intros parts w F Hc H2 HI; inversion H2 as [|? part ? parts' Hp Hps]; subst; cbn [mx_destroy_fixed map concat] in *.
  - cbn. exists []. split; [exact HI|]. split; [intros _ x []|auto].
  - inversion Hc as [|? ? Hc1 Hc2]; subst. destruct Hc1 as (K1 & K2 & K3).
    unfold destroyed. apply post_bind.
    assert (HI' : Inv w (snd part ++ concat (map snd parts') ++ F)) by (now rewrite app_assoc).
    eapply post_impl; [| |apply (fx_destroy_ok _ _ limP W P _ _ w _ _ K1 K2 ltac:(lia) (ParentSpec_frame P limP Inv (concat (map snd parts') ++ F) HP) Hp HI')]; [|auto].
    intros w1 _ (L1 & H1 & H3 & H4).
    assert (HI1 : Inv w1 (concat (map snd parts') ++ (L1 ++ F))).
    { eapply (ps_perm _ _ _ HP); [|exact H1]. rewrite !app_assoc. apply Permutation_app_tail, Permutation_app_comm. }
    eapply post_impl; [| |apply (IH parts' w1 (L1 ++ F) Hc2 Hps HI1)]; [|auto].
    intros w2 _ (L2 & H5 & H6 & H7). exists (L1 ++ L2). split; [|split].
    + eapply (ps_perm _ _ _ HP); [|exact H5]. rewrite !app_assoc. apply Permutation_app_tail, Permutation_app_comm.
    + intros _. apply covered_app; auto.
    + intros _ E. apply app_eq_nil in E as [E1 E2]. now rewrite (H4 I E1), (H7 I E2).
Qed.

Lemma mx_destroy_ok cfg limP W (P : Parent W) Inv s w U L : mcfg_ok cfg limP -> limP < M64 -> ParentSpec P limP Inv ->
  mx_rel cfg s U L -> Inv w L -> destroyed Inv U True True (mx_destroy P s w).
Proof.
  intros [M1 M2 M3 M4 M5] HM HP (parts & Uq & Lq & (H1 & H2 & H3 & H4 & H5 & H6) & HU & HL) HI. unfold destroyed, mx_destroy. apply post_bind.
  set (F := concat (map snd parts)) in *.
  assert (HI' : Inv w (Lq ++ F)) by (eapply (ps_perm _ _ _ HP); [|exact HI]; rewrite HL; apply Permutation_app_comm).
  eapply post_impl; [| |apply (q_destroy_ok _ limP W P _ _ w _ _ M5 (ParentSpec_frame P limP Inv F HP) H4 HI')]; [|auto].
  intros w1 _ (L1 & K1 & K2 & K3).
  assert (HI1 : Inv w1 (F ++ L1)) by (eapply (ps_perm _ _ _ HP); [apply Permutation_app_comm|exact K1]).
  eapply post_impl; [| |apply (mx_destroy_fixed_ok limP (mc_max_initial cfg) W P Inv HP ltac:(lia) _ _ w1 L1 H1 H3 HI1)]; [|auto].
  intros w2 _ (L2 & K4 & K5 & K6). exists (L2 ++ L1). split; [exact K4|]. split.
  - intros _. eapply covered_perm; [apply Permutation_sym, HU|reflexivity|]. apply covered_app; auto.
  - intros _ ->. apply Permutation_nil, app_eq_nil in HU as [E1 E2]. now rewrite (K6 I E1), (K3 I E2).
Qed.

Lemma sp_destroy_ok W (P : Parent W) Inv limP (HP : ParentSpec P limP Inv) (HL : loose P Inv) : forall l w F,
  Inv w (flat_map sl_held l ++ F) -> post (sp_destroy W P l w) (fun w' _ => Inv w' F) (fun _ _ => False).
Proof.
  induction l as [|[p len] l IH]; intros w F HI; cbn [sp_destroy flat_map] in *; [exact HI|].
  unfold sl_held in HI at 1. cbn [fst snd] in HI. destruct (p =? 0); [now apply IH|].
  apply post_bind. eapply post_impl; [| |apply (HL w _ p (Z.abs len) (w64 len) HI)]; [|auto].
  intros w' u Hw. apply IH. exact Hw.
Qed.

(** A strategy loses memory only if its advice fails. *)
Definition kind_clean (k : kind) : Prop :=
  match k with KAdvised fails => forall i p n, fails i p n = false | _ => True end.

Lemma kind_destroy_ok k limP W (P : Parent W) Inv s w U L : kind_ok k limP -> limP < M64 -> ParentSpec P limP Inv -> loose P Inv ->
  kind_rel k s U L -> Inv w L -> destroyed Inv U (keeps (Some k)) (kind_clean k) (kind_destroy k P s w).
Proof.
  intros Hk HM HP HLo HR HI.
  assert (HC : keeps (Some k) -> covered U L).
  { intros _. apply (lo_inside _ _ _ _ _ (kind_leaf_ok k limP Hk HM) s U L HR). eapply ps_good; eauto. }
  assert (HS : (kind_clean k -> U = [] -> L = []) -> destroyed Inv U (keeps (Some k)) (kind_clean k) (Ok w tt)).
  { intros H. exists L. auto. }
  assert (HN : forall x : list region, Permutation [] x -> x = []) by (intros x; apply Permutation_nil).
  destruct k; cbn [kind_destroy kind_rel kind_ok keeps kind_clean st_ty strat_of QuickPool SizeLimiter AlignedAllocator PassThrough Advised
    Monotonic SlotPool FixedPool MixedPool DynamicPoolList] in *.
  - eapply q_destroy_ok; eauto.
  - apply HS. intros _ ->. now apply HN.
  - apply HS. intros _ ->. destruct HR as (I0 & _ & H1 & H2). apply Permutation_nil in H1. destruct I0; [|discriminate].
    now apply Permutation_sym, Permutation_nil in H2.
  - apply HS. intros _ ->. now apply HN.
  - apply HS. intros Hf ->. destruct HR as (lost & H1 & H2). rewrite (H2 Hf) in H1. now apply Permutation_sym, Permutation_nil in H1.
  - destruct HR as (H1 & _). unfold destroyed, mo_destroy. cbn [fst snd].
    eapply post_impl; [| |apply (ps_dealloc _ _ _ HP w [] (mo_block s) capacity)]; [|auto|].
    + intros w' u Hw. exists []. split; [exact Hw|]. split; [tauto|auto].
    + eapply (ps_perm _ _ _ HP); eauto.
  - destruct HR as (_ & _ & H1). eapply post_impl; [| |apply (sp_destroy_ok W P Inv limP HP HLo s w [])]; [|auto|].
    + intros w' u Hw. exists []. split; [exact Hw|]. split; [tauto|auto].
    + rewrite app_nil_r. eapply (ps_perm _ _ _ HP); eauto.
  - destruct Hk as (K1 & K2 & K3). eapply fx_destroy_ok; eauto. lia.
  - destruct Hk as (K1 & K2 & K3 & K4 & K5). eapply mx_destroy_ok; eauto. constructor; auto.
  - eapply d_destroy_ok; eauto.
  - eapply (d_destroy_ok (mkDcfg first next align dh_percent_0)); eauto.
Qed.

(** ** All of them *)
Lemma galive_gparent dead C : (forall d, In d dead -> (length C < d)%nat) -> forall i, galive dead C i = gparent C i.
Proof.
  induction C as [|c C IH]; intros Hd i; cbn [galive gparent].
  - destruct (existsb (Nat.eqb 0) dead) eqn:E; [|reflexivity]. apply existsb_exists in E as (d & Hi & E). apply Nat.eqb_eq in E.
    specialize (Hd d Hi). cbn in Hd. lia.
  - assert (Hd' : forall d, In d dead -> (length C < d)%nat) by (intros d Hi; specialize (Hd d Hi); cbn [length] in Hd; lia).
    destruct (Nat.eqb_spec i (S (length C))) as [->|Hne]; [|now rewrite IH].
    destruct (existsb (Nat.eqb (S (length C))) dead) eqn:E; [|now rewrite IH]. apply existsb_exists in E as (d & Hi & E). apply Nat.eqb_eq in E.
    specialize (Hd d Hi). cbn [length] in Hd. lia.
Qed.

Lemma galloc_list_le C i : In i (galloc_list C) -> (i <= length C)%nat.
Proof.
  induction C as [|c C IH]; cbn [galloc_list length]; [intros [<-|[]]; lia|]. intros [<-|H]; [lia|]. apply IH in H. lia.
Qed.

Lemma gdestroy_list_low c C todo : (forall i, In i todo -> (i <= length C)%nat) -> forall dead a w,
  gdestroy_list dead (c :: C) todo (a, w) = omap (pair a) (fun u => u) (gdestroy_list dead C todo w).
Proof.
  induction todo as [|i todo IH]; intros Hle dead a w; cbn [gdestroy_list]; [reflexivity|].
  cbn [gdestroy fst snd]. destruct (Nat.eqb_spec i (S (length C))) as [->|Hne]; [specialize (Hle _ (or_introl eq_refl)); lia|].
  destruct (gdestroy dead C i w) as [w1 u| | | |]; cbn [omap bind]; try reflexivity.
  apply IH. intros j Hj. apply Hle. now right.
Qed.

Lemma kind_lim_keeps k limP lim : kind_lim k limP = Some lim -> keeps (Some k).
Proof. destruct k; cbn; try discriminate; auto. Qed.

Lemma climit_keeps C i lim : climit C i = Some lim -> keeps (kind_at C i).
Proof.
  induction C as [|c C IH]; cbn [climit]; intros H.
  - destruct (Nat.eqb_spec i 0) as [->|]; [exact I|discriminate].
  - rewrite kind_at_cons. destruct (Nat.eqb i (S (length C))); [|auto].
    destruct (climit C (nc_parent c)); [|discriminate]. eapply kind_lim_keeps; eauto.
Qed.

Lemma gdestroy_list_ok C : config_ok C -> forall dead X w, (forall d, In d dead -> (length C < d)%nat) -> GI C w X ->
  post (gdestroy_list dead C (galloc_list C) w)
    (fun w' _ => exists F, heap_own (host_heap C w') F /\ (forall i, (i <= length C)%nat -> keeps (kind_at C i) -> covered (X i) F) /\ (no_failed_advice C -> (forall i, (i <= length C)%nat -> X i = []) -> F = []))
    (fun _ _ => False).
Proof.
  induction C as [|c C IH]; intros HC dead X w Hd HG; cbn [galloc_list gdestroy_list].
  - cbn [gdestroy bind post host_heap]. destruct HG as [HG _]. exists (X 0%nat). split; [exact HG|]. split.
    + intros i Hi _. assert (i = 0%nat) as -> by (cbn in Hi; lia). apply covered_refl.
    + intros _ H. apply H. cbn. lia.
  - destruct (node_ok_lim C c HC) as (limP & E & Hk & HM & Hle). destruct w as [[st s] w].
    destruct HG as (L & HR & _ & HG). cbn [fst snd] in HR, HG.
    assert (Hd' : forall d, In d dead -> (length C < d)%nat) by (intros d Hi; specialize (Hd d Hi); cbn [length] in Hd; lia).
    pose proof (gparent_spec _ anyCl trivial_cl C (proj2 HC) (trivial_parents C) _ _ X I E) as HPS.
    pose proof (kind_destroy_ok _ limP _ _ _ s w _ L Hk HM HPS (gparent_loose C c X HC) HR HG) as HD.
    cbn [gdestroy]. rewrite Nat.eqb_refl, galive_gparent by exact Hd'. cbn [fst snd].
    apply post_bind, post_omap. eapply post_imp; [exact HD| |auto]. cbv beta. clear HD.
    intros w1 _ (L' & HG1 & HC1 & HC2).
    rewrite gdestroy_list_low by apply galloc_list_le. apply post_omap.
    eapply post_imp; [apply (IH (proj2 HC) (S (length C) :: dead) _ w1 ltac:(intros d [<-|Hi]; [lia|auto]) HG1)| |auto]. cbn [host_heap snd].
    intros w2 _ (F & HF & HK & HE). exists F. split; [exact HF|]. split.
    + intros i Hi Hke. rewrite kind_at_cons in Hke. destruct (Nat.eqb_spec i (S (length C))) as [->|Hne].
      * intros u Hu. destruct (HC1 Hke u Hu) as (l & Hl & Hin).
        destruct (HK (nc_parent c) Hle (climit_keeps _ _ _ E) l) as (f & Hf & Hin2).
        -- rewrite hold_eq. apply in_or_app; auto.
        -- exists f. split; [exact Hf|]. unfold inside in *. lia.
      * cbn [length] in Hi. intros u Hu. apply (HK i ltac:(lia) Hke). unfold hold.
        destruct (Nat.eqb_spec i (nc_parent c)) as [->|]; [apply in_or_app|]; auto.
    + intros Hna HX. apply HE.
      * intros c' fails Hc'. apply Hna. now right.
      * intros i Hi. assert (L' = []) as ->.
        { apply HC2; [|apply HX; cbn [length]; lia]. specialize (Hna c). destruct (nc_kind c) eqn:Ek; try exact I.
          exact (Hna fails (or_introl eq_refl) eq_refl). }
        unfold hold. destruct (Nat.eqb_spec i (nc_parent c)) as [->|]; cbn [app]; apply HX; cbn [length]; lia.
Qed.

Theorem teardown_ok C w X : lhist C w X ->
  post (gteardown C w)
    (fun w' _ =>
       (forall i p n, In (p, n) (X i) -> keeps (kind_at C i) -> exists l, In l (h_live (host_heap C w')) /\ inside (p, n) l) /\ (no_failed_advice C -> (forall i, X i = []) -> h_live (host_heap C w') = []))
    (fun _ _ => False).
Proof.
  intros H. destruct (lhist_inv C w X H) as (HC & HG & HX). unfold gteardown.
  eapply post_imp; [apply (gdestroy_list_ok C HC [] X w); [intros d []|exact HG]| |auto]. cbv beta.
  intros w' _ (F & (HF & _) & HK & HE). split.
  - intros i p n Hin Hke.
    assert (Hi : (i <= length C)%nat).
    { destruct (le_lt_dec i (length C)) as [|Hi]; auto. rewrite (HX i Hi) in Hin. destruct Hin. }
    destruct (HK i Hi Hke _ Hin) as (l & Hl & Hi2). exists l. split; [|exact Hi2]. eapply Permutation_in; [apply Permutation_sym, HF|exact Hl].
  - intros Hna HX0. rewrite (HE Hna) in HF by auto. now apply Permutation_sym, Permutation_nil in HF.
Qed.

Lemma teardown_defined C w X : lhist C w X -> gteardown C w <> UB /\ forall w' e, gteardown C w <> Throw w' e.
Proof.
  intros H. pose proof (teardown_ok C w X H) as HT. split; [|intros w' e]; intros E; now rewrite E in HT.
Qed.

Lemma teardown_returns_all C w X w' u : lhist C w X -> gteardown C w = Ok w' u ->
  no_failed_advice C -> (forall i, X i = []) -> h_live (host_heap C w') = [].
Proof. intros H E. pose proof (teardown_ok C w X H) as HT. rewrite E in HT. apply HT. Qed.

Lemma teardown_live_survives C w X w' u i p n : lhist C w X -> gteardown C w = Ok w' u ->
  keeps (kind_at C i) -> In (p, n) (X i) -> exists l, In l (h_live (host_heap C w')) /\ inside (p, n) l.
Proof. intros H E Hk Hi. pose proof (teardown_ok C w X H) as HT. rewrite E in HT. destruct HT as [HT _]. eauto. Qed.
