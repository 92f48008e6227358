(** Effect of the DynamicSizePool operations on the representation invariant. *)
From Verif Require Import Base BaseFacts AlignedModel AlignedFacts QuickPoolModel QuickPoolInv QuickPoolFacts QuickPoolOps QuickPoolFree
  QuickPoolMain DynPoolModel DynPoolInv DynPoolFacts.

Ltac ds := cbn [d_used d_free d_base d_aligned d_aligned_hwm d_actual d_actual_hwm d_rel_blocks d_total_blocks
  dset_lists dset_base dset_aligned dset_actual dset_rel d_data d_size d_bsize fst snd] in *; qs.

Lemma dwhole_focus a l1 x l2 : contig a (l1 ++ x :: l2) ->
  d_whole (dblk (x, nxt (csum (l1 ++ x :: l2)) l1)) = match l1, l2 with [], [] => true | _, _ => false end.
Proof.
  intros Hc. unfold d_whole, dblk. cbn [fst snd d_size d_bsize].
  pose proof (contig_pos _ _ Hc x ltac:(apply in_or_app; simpl; auto)) as Hp.
  destruct l1 as [|y l1].
  - cbn [nxt]. apply (whole_block a [] x l2 Hc).
  - cbn [nxt]. destruct l2; apply Z.eqb_neq; lia.
Qed.

Lemma used_not_free x : stable x -> is_used x = negb (is_free x).
Proof. unfold stable, is_used, is_free. intros [->|[r ->]]; reflexivity. Qed.
Lemma SFree_flags x : k_st x = SFree -> is_free x = true /\ is_used x = false /\ is_rel x = true.
Proof. unfold is_free, is_used, is_rel. intros ->. auto. Qed.
Lemma SUsed_flags x r : k_st x = SUsed r -> is_free x = false /\ is_used x = true /\ is_rel x = false.
Proof. unfold is_free, is_used, is_rel. intros ->. auto. Qed.

Section Lists.
  Context (A : Z) (s : dpool) (B : list blk).
  Hypothesis H : DI A s B.

  Lemma d_free_in c : In c (d_free s) -> exists x z, In (x, z) (dall B) /\ k_st x = SFree /\ c = dblk (x, z).
  Proof.
    intros Hc. apply (Permutation_in _ (di_free _ _ _ H)) in Hc. apply in_map_iff in Hc as ((x & z) & <- & Hx).
    apply filter_In in Hx as [Hx Hf]. exists x, z. split; [exact Hx|]. split; [|reflexivity].
    unfold freep, is_free in Hf. cbn [fst] in Hf. destruct (k_st x); auto; discriminate.
  Qed.
  Lemma in_d_free x z : In (x, z) (dall B) -> k_st x = SFree -> In (dblk (x, z)) (d_free s).
  Proof.
    intros Hx Hf. apply (Permutation_in _ (Permutation_sym (di_free _ _ _ H))). apply in_map, filter_In. split; [exact Hx|].
    unfold freep, is_free. cbn [fst]. now rewrite Hf.
  Qed.
  Lemma d_used_in c : In c (d_used s) -> exists x z r, In (x, z) (dall B) /\ k_st x = SUsed r /\ c = dblk (x, z).
  Proof.
    intros Hc. apply (Permutation_in _ (di_used _ _ _ H)) in Hc. apply in_map_iff in Hc as ((x & z) & <- & Hx).
    apply filter_In in Hx as [Hx Hf]. unfold usedp, is_used in Hf. cbn [fst] in Hf. destruct (k_st x) eqn:E; try discriminate.
    exists x, z. eauto.
  Qed.
  Lemma in_d_used x z r : In (x, z) (dall B) -> k_st x = SUsed r -> In (dblk (x, z)) (d_used s).
  Proof.
    intros Hx Hf. apply (Permutation_in _ (Permutation_sym (di_used _ _ _ H))). apply in_map, filter_In. split; [exact Hx|].
    unfold usedp, is_used. cbn [fst]. now rewrite Hf.
  Qed.
  Lemma same_block b b' x : In b B -> In b' B -> In x (b_cells b) -> In x (b_cells b') -> b = b'.
  Proof.
    intros Hb Hb' Hx Hx'. pose proof (proj2 (di_good _ _ _ H)) as HP. rewrite pairwise_map in HP.
    destruct (pairwise_in (fun b b' => disj (b_held b) (b_held b')) (fun _ _ => disj_sym _ _) B b b' HP Hb Hb') as [E|D]; auto.
    pose proof (cell_in_held A b x (di_blk _ _ _ H b Hb) Hx) as I1.
    pose proof (cell_in_held A b' x (di_blk _ _ _ H b' Hb') Hx') as I2.
    pose proof (bo_cells _ _ (di_blk _ _ _ H b Hb) x Hx) as [Hp _].
    unfold disj, inside, cell_region in *. cbn [fst snd] in *. lia.
  Qed.
End Lists.

Lemma di_focus_free A s l1 x l2 d p t B : DI A s (mkBlk (l1 ++ x :: l2) d p t :: B) -> k_st x = SFree ->
  Permutation (d_free s) (dblk (x, nxt (csum (l1 ++ x :: l2)) l1) :: map dblk (filter freep (drest (csum (l1 ++ x :: l2)) l1 l2 B))) /\
  Permutation (d_used s) (map dblk (filter usedp (drest (csum (l1 ++ x :: l2)) l1 l2 B))).
Proof.
  intros H Hx. destruct (SFree_flags _ Hx) as (Hf & Hu & _).
  pose proof (dfocus_perm l1 [x] l2 d p t B ltac:(discriminate)) as HP. cbn [app] in HP.
  split.
  - rewrite (di_free _ _ _ H), (Permutation_map dblk (Permutation_filter freep _ _ HP)), filter_app_map. cbn [tag filter map]. unfold freep at 1. cbn [fst]. now rewrite Hf.
  - rewrite (di_used _ _ _ H), (Permutation_map dblk (Permutation_filter usedp _ _ HP)), filter_app_map. cbn [tag filter map]. unfold usedp at 1. cbn [fst]. now rewrite Hu.
Qed.

Lemma di_focus_used A s l1 x l2 d p t B r : DI A s (mkBlk (l1 ++ x :: l2) d p t :: B) -> k_st x = SUsed r ->
  Permutation (d_used s) (dblk (x, nxt (csum (l1 ++ x :: l2)) l1) :: map dblk (filter usedp (drest (csum (l1 ++ x :: l2)) l1 l2 B))) /\
  Permutation (d_free s) (map dblk (filter freep (drest (csum (l1 ++ x :: l2)) l1 l2 B))).
Proof.
  intros H Hx. destruct (SUsed_flags _ _ Hx) as (Hf & Hu & _).
  pose proof (dfocus_perm l1 [x] l2 d p t B ltac:(discriminate)) as HP. cbn [app] in HP.
  split.
  - rewrite (di_used _ _ _ H), (Permutation_map dblk (Permutation_filter usedp _ _ HP)), filter_app_map. cbn [tag filter map]. unfold usedp at 1. cbn [fst]. now rewrite Hu.
  - rewrite (di_free _ _ _ H), (Permutation_map dblk (Permutation_filter freep _ _ HP)), filter_app_map. cbn [tag filter map]. unfold freep at 1. cbn [fst]. now rewrite Hf.
Qed.

Lemma di_focus_in l1 x l2 d p t B : In (x, nxt (csum (l1 ++ x :: l2)) l1) (dall (mkBlk (l1 ++ x :: l2) d p t :: B)).
Proof.
  pose proof (dfocus_perm l1 [x] l2 d p t B ltac:(discriminate)) as HP. cbn [app] in HP.
  apply (Permutation_in _ (Permutation_sym HP)). cbn [tag app]. now left.
Qed.

Lemma focus_in_cells l1 x l2 d p t B : In x (cells (mkBlk (l1 ++ x :: l2) d p t :: B)).
Proof. rewrite cells_cons. qs. apply in_or_app. left. apply in_or_app. simpl; auto. Qed.

(** ** Handing out a fragment *)
Section UseBlock.
  Context {W : Type}.

  Lemma d_use_ok A s l1 x l2 d p t B i req (w : W) rounded :
    0 < A ->
    DI A s (mkBlk (l1 ++ x :: l2) d p t :: B) ->
    k_st x = SFree ->
    nth_error (d_free s) i = Some (dblk (x, nxt (csum (l1 ++ x :: l2)) l1)) ->
    0 < req -> rounded = aligned_round_up A req -> req <= rounded -> rounded mod A = 0 ->
    rounded <= k_size x ->
    exists s' lx,
      d_use rounded i s w = Ok (s', w) (k_data x) /\
      DI A s' (mkBlk (l1 ++ lx ++ l2) d p t :: B) /\
      Permutation (uregs (mkBlk (l1 ++ lx ++ l2) d p t :: B))
                  ((k_data x, req) :: uregs (mkBlk (l1 ++ x :: l2) d p t :: B)) /\
      d_actual s' = d_actual s /\ d_total_blocks s' = d_total_blocks s /\
      d_aligned s' = d_aligned s + rounded /\
      d_aligned_hwm s' = Z.max (d_aligned_hwm s) (d_aligned s') /\
      d_actual_hwm s' = d_actual_hwm s.
  Proof.
    intros HA H Hx Hn Hreq Hr1 Hr2 Hr3 Hr4.
    set (bs := csum (l1 ++ x :: l2)) in *.
    destruct (SFree_flags _ Hx) as (Hf & Hu & Hrl).
    destruct (di_focus_free _ _ _ _ _ _ _ _ _ H Hx) as [PF PU]. fold bs in PF, PU.
    pose proof (di_blk _ _ _ H _ (or_introl eq_refl)) as Hb.
    pose proof (focus_in_cells l1 x l2 d p t B) as Hxc.
    destruct (di_cell _ _ _ H _ Hxc) as ((C1 & C2 & _) & C4 & C5).
    pose proof (focus_perm l1 [x] l2 d p t B) as HFx. change ([x] ++ l2) with (x :: l2) in HFx.
    pose proof ASP_M64 as HAM.
    pose proof (di_actual_b _ _ _ HA H) as Bact. pose proof (di_aligned_b _ _ _ H) as Bal.
    pose proof (di_relb_b _ _ _ HA H) as Brel.
    destruct (nth_error_split _ _ Hn) as (F1 & F2 & EF & EL).
    set (c := dblk (x, nxt bs l1)) in *.
    assert (E1 : firstn i (d_free s) = F1) by (rewrite EF, <- EL, firstn_app, Nat.sub_diag, firstn_all, app_nil_r; reflexivity).
    assert (E2 : skipn (S i) (d_free s) = F2).
    { rewrite EF, <- EL. replace (S (length F1)) with (length (F1 ++ [c])) by (rewrite app_length; cbn; lia).
      change (c :: F2) with ([c] ++ F2). rewrite app_assoc, skipn_app, Nat.sub_diag, skipn_all. reflexivity. }
    set (u := mkCell (k_data x) (k_data x) rounded (SUsed req) (k_data x)).
    set (v := mkCell (k_data x + rounded) (k_data x + rounded) (k_size x - rounded) SFree (k_data x + rounded)).
    set (lv := if k_size x =? rounded then [] else [v]).
    set (dv := if k_size x =? rounded then [] else [mkD (k_data x + rounded) (k_size x - rounded) 0]).
    assert (Hmrg := bo_merged _ _ Hb). qs. apply merged_app in Hmrg as (M1 & M2 & M3). cbn [merged hd_rel] in M2, M3.
    rewrite Hrl in *. rewrite andb_true_r in M3. cbn [andb] in M2. destruct M2 as [M2 M4].
    assert (Hsorted : pairwise dlt (F1 ++ dv ++ F2)).
    { pose proof (di_sorted _ _ _ H) as S0. rewrite EF in S0. apply pairwise_app in S0 as (S1 & S2 & S3). cbn [pairwise] in S2. destruct S2 as [S2 S4].
      unfold dv. destruct (Z.eqb_spec (k_size x) rounded) as [E|E].
      - cbn [app]. apply pairwise_app. split; [exact S1|]. split; [exact S4|]. intros a b Ha Hb'. apply S3; simpl; auto.
      - apply pairwise_app. split; [exact S1|]. split; [cbn [app pairwise]; split; [|exact S4]|].
        + intros b Hb'. unfold dlt. ds. assert (HbF : In b (d_free s)) by (rewrite EF; apply in_or_app; simpl; auto).
          destruct (d_free_in _ _ _ H b HbF) as (y & z & Hy & Hys & ->). specialize (S2 _ Hb'). unfold dlt, c, dblk in S2. ds. cbn [dblk fst snd d_data].
          destruct (Z.lt_ge_cases (k_data x + rounded) (k_data y)) as [|G]; auto.
          exfalso. assert (y = x) by (apply (di_overlap _ _ _ H y x (k_data y) (dall_in _ _ _ Hy) Hxc); destruct (di_cell _ _ _ H _ (dall_in _ _ _ Hy)) as ((? & _) & _); lia).
          subst y. lia.
        + intros a b Ha [<-|Hb'].
          * specialize (S3 a c Ha (or_introl eq_refl)). unfold dlt, c, dblk in *. ds. lia.
          * apply S3; simpl; auto. }
    assert (Hd : d_whole c = match l1, l2 with [], [] => true | _, _ => false end) by (apply (dwhole_focus _ _ _ _ (bo_contig _ _ Hb))).
    assert (Hrb : d_rel_blocks s = Z.of_nat (length (rel_blocks B)) + if d_whole c then 1 else 0).
    { rewrite (di_relb _ _ _ H), rel_blocks_mid, Hrl, Hd. destruct l1, l2; cbn [andb length]; lia. }
    assert (Hrb' : forall l, rel_blocks (mkBlk (l1 ++ u :: l) d p t :: B) = rel_blocks B) by (intros l; now rewrite rel_blocks_mid).
    assert (Hcs : csum (u :: lv) = csum [x]).
    { unfold lv. destruct (Z.eqb_spec (k_size x) rounded) as [E|E]; unfold csum; cbn [map sumZ u v k_size]; lia. }
    assert (Hal : d_aligned s + rounded <= d_actual s).
    { rewrite (di_aligned _ _ _ H), (di_actual _ _ _ H), <- sum_cells_blocks.
      rewrite (sumZ_perm _ _ (Permutation_map k_size (Permutation_filter is_used _ _ HFx))).
      rewrite (sumZ_perm _ _ (Permutation_map k_size HFx)). cbn [app filter map sumZ]. rewrite Hu.
      assert (sumZ (map k_size (filter is_used (rest l1 l2 B))) <= sumZ (map k_size (rest l1 l2 B))); [|lia].
      apply sum_filter_le. intros y Hy. assert (In y (cells (mkBlk (l1 ++ x :: l2) d p t :: B))).
      { apply (Permutation_in _ (Permutation_sym HFx)). apply in_or_app; auto. }
      destruct (di_cell _ _ _ H _ H0) as ((? & _) & _). lia. }
    exists (mkDP (mkD (k_data x) rounded (nxt bs l1) :: d_used s) (F1 ++ dv ++ F2) (d_base s) (d_aligned s + rounded)
                 (Z.max (d_aligned_hwm s) (d_aligned s + rounded)) (d_actual s) (d_actual_hwm s)
                 (Z.of_nat (length (rel_blocks B))) (d_total_blocks s)), (u :: lv).
    pose proof (di_hwm _ _ _ H) as Bhwm. pose proof (di_ahwm _ _ _ H) as Bahwm.
    split; [|split; [|split]].
    - unfold d_use. rewrite Hn. fold c.
      assert (HF : forall s0 : dpool, d_free (if d_whole c then dset_rel s0 (w64 (d_rel_blocks s0 - 1)) else s0) = d_free s0) by (intros; destruct (d_whole c); reflexivity).
      rewrite !HF, E1, E2. cbv zeta. change (d_size c) with (k_size x). change (d_data c) with (k_data x). change (d_bsize c) with (nxt bs l1).
      assert (Hdv : (if k_size x =? rounded then [] else [mkD (w64 (k_data x + rounded)) (w64 (k_size x - rounded)) 0]) = dv).
      { unfold dv. destruct (Z.eqb_spec (k_size x) rounded); [reflexivity|]. rewrite !w64_small by lia. reflexivity. }
      rewrite Hdv.
      assert (Hcu : (if k_size x =? rounded then c else mkD (k_data x) rounded (nxt bs l1)) = mkD (k_data x) rounded (nxt bs l1)).
      { destruct (Z.eqb_spec (k_size x) rounded) as [E|E]; [rewrite <- E|]; reflexivity. }
      rewrite Hcu. cbn [d_data].
      assert (Hz : zmax (d_aligned s + rounded) (d_aligned_hwm s) = Z.max (d_aligned_hwm s) (d_aligned s + rounded)).
      { unfold zmax. destruct (Z.ltb_spec (d_aligned_hwm s) (d_aligned s + rounded)); lia. }
      assert (Hw : w64 (d_aligned s + rounded) = d_aligned s + rounded) by (apply w64_small; lia).
      destruct (d_whole c) eqn:Ew.
      + rewrite Hrb. assert (Hw' : w64 (Z.of_nat (length (rel_blocks B)) + 1 - 1) = Z.of_nat (length (rel_blocks B))) by (rewrite w64_small; lia).
        rewrite Hw'. ds. rewrite Hw, Hz. reflexivity.
      + ds. rewrite Hw, Hz, <- (Z.add_0_r (Z.of_nat _)), <- Hrb. reflexivity.
    - change (x :: l2) with ([x] ++ l2) in H.
      apply (DI_replace A s _ l1 [x] l2 d p t B (u :: lv) H); ds; try discriminate; auto.
      + pose proof (bo_contig _ _ Hb) as Hc. qs. apply contig_app in Hc as [_ Hc]. cbn [contig] in Hc. destruct Hc as (Hc1 & Hc2 & _).
        cbn [contig u k_data k_size]. split; [exact Hc1|]. split; [lia|].
        unfold lv. destruct (Z.eqb_spec (k_size x) rounded); cbn [contig v k_data k_size]; auto. split; [lia|]. split; [lia|exact I].
      + intros y [<-|Hy].
        * split; [|split; [right; exists req; reflexivity|split; reflexivity]]. unfold cell_ok, u; qs. repeat split; auto; lia.
        * unfold lv in Hy. destruct (Z.eqb_spec (k_size x) rounded); [contradiction|]. destruct Hy as [<-|[]].
          split; [|split; [left; reflexivity|split; reflexivity]]. unfold cell_ok, v; qs. repeat split; auto; [lia|]. apply mod0_add; auto.
      + apply merged_app. split; [exact M1|]. cbn [app hd_rel]. change (is_rel u) with false. rewrite andb_false_r. split; [|reflexivity].
        cbn [merged]. split; [reflexivity|]. unfold lv. destruct (k_size x =? rounded); cbn [app merged]; auto.
      + cbn [app]. fold bs. rewrite PU. unfold lv. destruct (k_size x =? rounded); cbn [tag map filter]; change (usedp (u, nxt bs l1)) with true; cbn [map filter];
          try (change (usedp (v, 0)) with false); reflexivity.
      + cbn [app]. fold bs. assert (PF' : Permutation (F1 ++ F2) (map dblk (filter freep (drest bs l1 l2 B)))).
        { apply (Permutation_cons_inv (a := c)). rewrite <- PF, EF. apply Permutation_middle. }
        rewrite <- PF'. unfold lv, dv. destruct (k_size x =? rounded); cbn [tag map filter]; change (freep (u, nxt bs l1)) with false; cbn [map filter];
          try (change (freep (v, 0)) with true); cbn [map app]; [reflexivity|]. symmetry. apply Permutation_middle.
      + cbn [app]. now rewrite Hrb'.
      + rewrite (di_aligned _ _ _ H), (sumZ_perm _ _ (Permutation_map k_size (Permutation_filter is_used _ _ (focus_perm l1 [x] l2 d p t B)))).
        cbn [app filter map]. rewrite Hu. change (is_used u) with true. cbn [map sumZ u k_size].
        unfold lv. destruct (k_size x =? rounded); cbn [filter map sumZ]; try (change (is_used v) with false); cbn [map sumZ]; lia.
      + lia.
    - unfold uregs. rewrite (Permutation_map cell_alloc (Permutation_filter is_used _ _ (focus_perm l1 (u :: lv) l2 d p t B))).
      rewrite (Permutation_map cell_alloc (Permutation_filter is_used _ _ HFx)).
      cbn [app filter]. rewrite Hu. change (is_used u) with true. cbn [map].
      unfold lv. destruct (k_size x =? rounded); cbn [app filter map]; try (change (is_used v) with false); reflexivity.
    - ds. repeat split; lia.
  Qed.
End UseBlock.
