(** The DynamicPoolList operations over any parent that meets the client contract. *)
From Verif Require Import Base BaseFacts AlignedModel AlignedFacts QuickPoolModel QuickPoolInv QuickPoolFacts QuickPoolOps QuickPoolFree
  QuickPoolMain DynPoolModel DynPoolInv DynPoolFacts DynPoolOps DynPoolFree.

(** What a heuristic may return; met by all heuristics DynamicPoolList ships. *)
Definition dheur_ok (h : Z -> qview -> Z) : Prop :=
  forall cur v, 0 <= v_actual v < ASP -> 0 <= v_aligned_hwm v < ASP -> 0 <= h cur v < ASP.

Record dcfg_ok (cfg : dcfg) (limP : Z) : Prop := {
  dk_align : pow2_align (dc_align cfg);
  dk_first : 0 <= dc_first cfg /\ dc_first cfg + dc_align cfg <= limP;
  dk_next : 0 <= dc_next cfg /\ dc_next cfg + dc_align cfg <= limP;
  dk_lim : limP < M64;
  dk_asp : ASP <= limP - 2 * dc_align cfg;
  dk_heur : dheur_ok (dc_heur cfg)
}.

Lemma DI_remove_block A s x d p t B F :
  0 < A ->
  DI A s (mkBlk [x] d p t :: B) -> k_st x = SFree ->
  Permutation (d_free s) (dblk (x, k_size x) :: F) -> pairwise dlt F ->
  DI A (mkDP (d_used s) F (fdel (d_base s) d) (d_aligned s) (d_aligned_hwm s) (d_actual s - k_size x) (d_actual_hwm s)
             (d_rel_blocks s - 1) (d_total_blocks s - 1)) B.
Proof.
  intros HA H Hx PF SF. destruct (SFree_flags _ Hx) as (Xf & Xu & Xr).
  assert (Hsz : b_size (mkBlk [x] d p t) = k_size x) by (unfold b_size, csum; cbn; lia).
  assert (Hcs : csum ([] ++ x :: []) = k_size x) by exact Hsz.
  destruct (di_focus_free A s [] x [] d p t B H Hx) as [PF1 PU1]. rewrite Hcs in PF1, PU1. cbn [nxt] in PF1.
  change (drest (k_size x) [] [] B) with (dall B) in *.
  pose proof H as H0. destruct H.
  assert (Hrb : rel_blocks (mkBlk [x] d p t :: B) = mkBlk [x] d p t :: rel_blocks B).
  { unfold rel_blocks. cbn [filter]. unfold b_rel at 1. qs. now rewrite Xr. }
  assert (Hin : forall y, In y (cells B) -> In y (cells (mkBlk [x] d p t :: B))) by (intros y Hy; rewrite cells_cons; apply in_or_app; auto).
  constructor; ds; auto.
  - intros b Hb. apply di_blk; simpl; auto.
  - cbn [map] in di_good. now apply good_cons in di_good.
  - apply (Permutation_cons_inv (a := dblk (x, k_size x))). rewrite <- PF. exact PF1.
  - intros b Hb. rewrite fdel_ne; [apply di_base; simpl; auto|]. apply (b_data_inj A (mkBlk [x] d p t) B); auto.
  - rewrite di_actual. cbn [map sumZ]. lia.
  - rewrite di_total. cbn [length]. lia.
  - rewrite di_relb, Hrb. cbn [length]. lia.
  - rewrite di_aligned, cells_cons. qs. cbn [app filter]. rewrite Xu. reflexivity.
  - pose proof (b_size_pos _ _ (di_blk _ (or_introl eq_refl))). lia.
Qed.

Lemma DI_add_block A s d p t B size F :
  pow2_align A ->
  DI A s B -> 0 < size -> t = size + A -> d = align_up A p -> p <= d < p + A -> d mod A = 0 ->
  good ((p, t) :: map b_held B) ->
  Permutation F (mkD d size size :: d_free s) -> pairwise dlt F ->
  DI A (mkDP (d_used s) F (fset (d_base s) d (p, t)) (d_aligned s) (d_aligned_hwm s)
             (d_actual s + size) (Z.max (d_actual_hwm s) (d_actual s + size)) (d_rel_blocks s + 1) (d_total_blocks s + 1))
     (mkBlk [mkCell d d size SFree d] d p t :: B).
Proof.
  intros HpA H Hsz Ht Hau Hd Hm Hg PF SF. pose proof (pow2_align_pos A HpA) as HA.
  pose proof H as H0. destruct H.
  set (x := mkCell d d size SFree d). set (b := mkBlk [x] d p t).
  assert (Hbs : b_size b = size) by (unfold b_size, csum, b; cbn; lia).
  assert (Hbok : blk_ok A b).
  { constructor; unfold b; qs.
    - discriminate.
    - cbn [contig]. auto.
    - intros y [<-|[]]. unfold cell_ok, x; qs. auto.
    - cbn. auto.
    - lia.
    - fold b. rewrite Hbs. lia.
    - fold b. rewrite Hbs. lia.
    - exact Hau. }
  assert (Hok : forall b', In b' (b :: B) -> blk_ok A b') by (intros b' [<-|Hb']; auto).
  assert (Hgb : good (map b_held (b :: B))) by exact Hg.
  assert (Hrb : rel_blocks (b :: B) = b :: rel_blocks B) by reflexivity.
  pose proof (sum_blocks_bound A (b :: B) ltac:(lia) Hok Hgb) as HS. cbn [map sumZ length] in HS. rewrite Hbs in HS.
  assert (Hda : dall (b :: B) = (x, size) :: dall B) by (rewrite dall_cons, Hbs; reflexivity).
  constructor; ds; auto.
  - intros y [<-|Hy]; [left; reflexivity|auto].
  - intros y [<-|Hy]; [split; reflexivity|auto].
  - rewrite Hda, PF. cbn [filter]. change (freep (x, size)) with true. cbn [map]. constructor. exact di_free.
  - intros b' [<-|Hb'].
    + cbn [b b_data]. now rewrite fset_eq.
    + rewrite fset_ne; [apply di_base; auto|]. apply (b_data_inj A b B); auto.
  - rewrite di_actual. cbn [map sumZ]. lia.
  - rewrite di_total. cbn [length]. lia.
  - rewrite di_relb, Hrb. cbn [length]. lia.
  - lia.
Qed.

Section Main.
  Context {W : Type} (P : Parent W) (limP : Z) (Inv : W -> list region -> Prop).
  Hypothesis PS : ParentSpec P limP Inv.
  Context (cfg : dcfg).
  Let A := dc_align cfg.
  Hypothesis CFG : dcfg_ok cfg limP.
  Lemma dHpA : pow2_align A. Proof. apply CFG. Qed.
  Lemma dHA : 0 < A. Proof. pose proof (pow2_align_pos A dHpA). lia. Qed.

  Definition DW (s : dpool) (w : W) (B : list blk) : Prop := DI A s B /\ Inv w (map b_held B).

  Lemma d_release_loop_ok todo : forall keep s w B,
    DW (dset_lists s (d_used s) (rev keep ++ todo)) w B -> (forall c, In c keep -> d_whole c = false) ->
    post (d_release_loop P keep todo (s, w))
      (fun sw' _ => exists R B', Permutation B (R ++ B') /\ DW (fst sw') (snd sw') B' /\
         (forall b, In b R -> b_rel b = true) /\ (forall c, In c (d_free (fst sw')) -> d_whole c = false) /\
         d_used (fst sw') = d_used s /\ d_aligned (fst sw') = d_aligned s /\
         d_aligned_hwm (fst sw') = d_aligned_hwm s /\ d_actual_hwm (fst sw') = d_actual_hwm s)
      (fun _ _ => False).
  Proof.
    pose proof dHA as HA. pose proof ASP_M64 as HAM.
    induction todo as [|c todo IH]; intros keep s w B (H & HI) Hk; cbn [d_release_loop].
    - cbn [post fst snd]. rewrite app_nil_r in H. exists [], B. split; [reflexivity|]. split; [split; [exact H|exact HI]|].
      split; [intros b []|]. split; [|auto]. ds. intros c Hc. apply Hk. now rewrite in_rev.
    - assert (Hc : In c (d_free (dset_lists s (d_used s) (rev keep ++ c :: todo)))) by (ds; apply in_or_app; simpl; auto).
      destruct (d_free_in _ _ _ H c Hc) as (x & z & Hx & Hxs & Ec).
      destruct (dall_focus _ _ _ Hx) as (l1 & l2 & d & p & t & B1 & HP & Ez).
      pose proof (DI_perm _ _ _ _ HP H) as H1. pose proof (di_blk _ _ _ H1 _ (or_introl eq_refl)) as Hbok.
      pose proof (bo_contig _ _ Hbok) as Hcon. cbn [b_cells b_data] in Hcon.
      assert (Hw : d_whole c = match l1, l2 with [], [] => true | _, _ => false end) by (rewrite Ec, Ez; apply (dwhole_focus _ _ _ _ Hcon)).
      destruct (d_whole c) eqn:Ewc.
      + assert (l1 = [] /\ l2 = []) as [-> ->] by (destruct l1, l2; try discriminate; auto). cbn [app nxt] in *.
        assert (Hcs : csum [x] = k_size x) by (unfold csum; cbn; lia). rewrite Hcs in Ez. subst z.
        cbn [contig] in Hcon. destruct Hcon as (Hd & Hpos & _).
        assert (HI1 : Inv w ((p, t) :: map b_held B1)).
        { eapply (ps_perm _ _ _ PS); [|exact HI]. rewrite (Permutation_map b_held HP). reflexivity. }
        pose proof (di_base _ _ _ H1 _ (or_introl eq_refl)) as Hbase. ds.
        unfold aligned_deallocate. ds. rewrite Ec at 1. cbn [dblk d_data fst]. rewrite Hd, Hbase. unfold b_held at 1; ds.
        pose proof (ps_dealloc _ _ _ PS w (map b_held B1) p t HI1) as Hde.
        destruct (p_dealloc P p t w) as [w' []| | | |]; cbn [omap post] in *; auto; try contradiction. ds.
        pose proof (di_actual_b _ _ _ HA H) as Bact. pose proof (di_total_b _ _ _ HA H) as Btot. pose proof (di_relb_b _ _ _ HA H) as Brel. ds.
        pose proof (di_actual _ _ _ H1) as Ea. pose proof (di_total _ _ _ H1) as Et. pose proof (di_relb _ _ _ H1) as Er. ds.
        destruct (SFree_flags _ Hxs) as (Xf & Xu & Xr).
        assert (Hsz : b_size (mkBlk [x] d p t) = k_size x) by (unfold b_size; ds; exact Hcs).
        assert (Hge : k_size x <= d_actual s /\ 1 <= d_rel_blocks s /\ 1 <= d_total_blocks s).
        { rewrite Ea, Et, Er. unfold rel_blocks. cbn [filter]. unfold b_rel at 1. ds. rewrite Xr. cbn [map sumZ length]. rewrite Hsz.
          assert (HN : forall b, In b B1 -> 0 <= b_size b).
          { intros b Hb. pose proof (b_size_pos _ _ (di_blk _ _ _ H1 b (or_intror Hb))). lia. }
          pose proof (sum_filter_le (fun _ => true) b_size B1 HN). lia. }
        assert (Edc : d_size c = k_size x) by (rewrite Ec; reflexivity).
        rewrite Edc, Ec. cbn [dblk d_data fst]. rewrite !w64_small by lia.
        assert (PFx : Permutation (rev keep ++ c :: todo) (dblk (x, k_size x) :: rev keep ++ todo)) by (rewrite <- Ec; symmetry; apply Permutation_middle).
        assert (SFx : pairwise dlt (rev keep ++ todo)).
        { pose proof (di_sorted _ _ _ H) as S. ds. apply pairwise_app in S as (S1 & S2 & S3). cbn [pairwise] in S2. apply pairwise_app.
          split; [exact S1|]. split; [tauto|]. intros a b Ha Hb. apply S3; simpl; auto. }
        pose proof (DI_remove_block _ _ _ _ _ _ _ (rev keep ++ todo) HA H1 Hxs PFx SFx) as H2. ds.
        match goal with |- post (d_release_loop P keep todo (?s', _)) _ _ => specialize (IH keep s' w' B1) end. rewrite Hd in *.
        specialize (IH (conj H2 Hde) Hk).
        refine (post_impl _ _ _ _ _ _ _ IH); [|auto].
        intros [s3 w3] _ (R & B' & HPR & HQ3 & HR & Hno & E1 & E2 & E3 & E4). ds.
        exists (mkBlk [x] d p t :: R), B'. split; [rewrite HP; cbn [app]; constructor; exact HPR|]. split; [exact HQ3|]. split; [|auto].
        intros b [<-|Hb]; [exact Xr|auto].
      + specialize (IH (c :: keep) s w B). cbn [rev] in IH. rewrite <- app_assoc in IH. specialize (IH (conj H HI)).
        apply IH. intros c' [<-|Hc']; auto.
  Qed.

  Lemma d_release_ok s w B :
    DW s w B ->
    post (d_release P (s, w))
      (fun sw' _ => exists B', Permutation B (rel_blocks B ++ B') /\ DW (fst sw') (snd sw') B' /\
         rel_blocks B' = [] /\
         d_used (fst sw') = d_used s /\ d_aligned (fst sw') = d_aligned s /\
         d_aligned_hwm (fst sw') = d_aligned_hwm s /\ d_actual_hwm (fst sw') = d_actual_hwm s)
      (fun _ _ => False).
  Proof.
    intros HW. unfold d_release. cbn [fst].
    refine (post_impl _ _ _ _ _ _ _ (d_release_loop_ok (d_free s) [] s w B _ _)); auto.
    - intros [s' w'] _ (R & B' & HP & HW' & HR & Hno & E). cbn [fst snd] in *.
      assert (Hnone : rel_blocks B' = []).
      { destruct (rel_blocks B') as [|b l] eqn:El; auto. exfalso.
        assert (Hb : In b B' /\ b_rel b = true) by (apply filter_In; fold (rel_blocks B'); rewrite El; simpl; auto).
        destruct Hb as [Hb Hbr]. unfold b_rel in Hbr. destruct (b_cells b) as [|x [|y l']] eqn:Ec; try discriminate.
        destruct HW' as [HD _].
        assert (Hxc : In x (cells B')) by (apply in_cells; exists b; rewrite Ec; simpl; auto).
        assert (Hxs : k_st x = SFree) by (destruct (di_stable _ _ _ HD x Hxc) as [E0|[r E0]]; auto; unfold is_rel in Hbr; rewrite E0 in Hbr; discriminate).
        assert (Hxd : In (x, k_size x) (dall B')).
        { unfold dall. apply in_flat_map. exists b. split; [exact Hb|]. unfold b_size. rewrite Ec. cbn [tag]. left. f_equal. unfold csum; cbn; lia. }
        specialize (Hno _ (in_d_free _ _ _ HD _ _ Hxd Hxs)). unfold d_whole, dblk in Hno. cbn in Hno. rewrite Z.eqb_refl in Hno. discriminate. }
      exists B'. split; [|split; [exact HW'|split; [exact Hnone|exact E]]].
      assert (HRB : Permutation (rel_blocks B) R).
      { unfold rel_blocks. rewrite (Permutation_filter b_rel _ _ HP), filter_app.
        fold (rel_blocks B'). rewrite Hnone, app_nil_r.
        assert (filter b_rel R = R) as ->; [|reflexivity].
        clear -HR. induction R as [|b R IH]; simpl; auto. rewrite (HR b) by (simpl; auto).
        f_equal. apply IH. intros; apply HR; simpl; auto. }
      rewrite HRB. exact HP.
    - cbn [rev app]. destruct s; exact HW.
    - intros c [].
  Qed.

  Lemma d_grow_ok s w B size :
    DW s w B -> 0 < size -> size + A <= limP ->
    post (d_grow P cfg size (s, w))
      (fun sw' d => exists p,
         (fst sw' : dpool) = dset_base s (fset (d_base s) d (p, size + A)) /\
         p_alloc P (size + A) w = Ok (snd sw') p /\
         d = align_up A p /\ p <= d < p + A /\ d mod A = 0 /\ Inv (snd sw') ((p, size + A) :: map b_held B))
      (fun sw' e => (fst sw' : dpool) = s /\ DW (fst sw') (snd sw') B /\ p_alloc P (size + A) w = Throw (snd sw') e).
  Proof.
    intros (HQ & HI) Hs Hl. unfold d_grow, aligned_allocate. fold A.
    pose proof dHA as HA0. pose proof (dk_lim _ _ CFG) as HL.
    rewrite w64_small by lia.
    pose proof (ps_alloc _ _ _ PS w _ (size + A) HI ltac:(lia)) as Ha.
    destruct (p_alloc P (size + A) w) as [w' p|w' e| | |]; cbn [omap post fst snd] in *; auto.
    - exists p. split; [reflexivity|]. split; [reflexivity|].
      pose proof (ps_good _ _ _ PS _ _ Ha) as Hg. apply good_cons in Hg as ((G1 & G2 & G3) & _).
      cbn [fst snd] in *. pose proof ASP_M64.
      pose proof (align_up_spec A p dHpA ltac:(lia)) as Hal. cbv zeta in Hal.
      assert (p + A <= M64) by lia. specialize (Hal H0). split; [reflexivity|]. repeat split; try tauto; lia.
    - split; [destruct s; reflexivity|]. split; [|reflexivity]. split; auto. destruct s; exact HQ.
  Qed.

  (** Size of the block requested for a rounded request that no free fragment can serve. *)
  Definition dnew_size (B : list blk) (rounded : Z) : Z :=
    zmax rounded (match B with [] => dc_first cfg | _ => dc_next cfg end).

  Lemma d_empty_iff s B : DI A s B -> match d_free s, d_used s with [], [] => dc_first cfg | _, _ => dc_next cfg end
    = match B with [] => dc_first cfg | _ => dc_next cfg end.
  Proof.
    intros H. pose proof (Permutation_length (di_free _ _ _ H)) as L1. pose proof (Permutation_length (di_used _ _ _ H)) as L2.
    rewrite map_length in L1, L2. destruct B as [|b B].
    - destruct (d_free s); [|discriminate]. destruct (d_used s); [reflexivity|discriminate].
    - pose proof (bo_ne _ _ (di_blk _ _ _ H _ (or_introl eq_refl))) as Hne.
      destruct (b_cells b) as [|x l] eqn:Ec; [congruence|].
      assert (Hx : In (x, b_size b) (dall (b :: B))) by (rewrite dall_cons, Ec; cbn [tag]; simpl; auto).
      destruct (di_stable _ _ _ H x (dall_in _ _ _ Hx)) as [E|[r E]].
      + pose proof (in_d_free _ _ _ H _ _ Hx E) as Hi. destruct (d_free s); [destruct Hi|reflexivity].
      + pose proof (in_d_used _ _ _ H _ _ _ Hx E) as Hi. destruct (d_free s); [|reflexivity]. destruct (d_used s); [destruct Hi|reflexivity].
  Qed.

  (** The parent supplied [total] bytes at [p], at the first attempt or after the
      idle blocks were given back; [B'] are the blocks kept. *)
  Definition dgrown (s : dpool) (w : W) (B : list blk) (total : Z) (w' : W) (p : Z) (B' : list blk) : Prop :=
    (p_alloc P total w = Ok w' p /\ B' = B) \/
    (exists w1 e s2 w2, p_alloc P total w = Throw w1 e /\ d_release P (s, w1) = Ok (s2, w2) tt /\
       p_alloc P total w2 = Ok w' p /\ Permutation B (rel_blocks B ++ B') /\ rel_blocks B' = []).
  (** Both attempts failed. *)
  Definition dfailed (s : dpool) (w : W) (B : list blk) (total : Z) (sw' : dw (W := W)) (e2 : exn) (B' : list blk) : Prop :=
    exists w1 e w2, p_alloc P total w = Throw w1 e /\ d_release P (s, w1) = Ok (fst sw', w2) tt /\
       p_alloc P total w2 = Throw (snd sw') e2 /\ Permutation B (rel_blocks B ++ B') /\ rel_blocks B' = [].

  Lemma d_new_block_ok s w B rounded :
    DW s w B -> 0 < rounded -> rounded + A <= limP ->
    let total := dnew_size B rounded + A in
    post (d_new_block P cfg rounded (s, w))
      (fun sw' i => exists x d p B',
         nth_error (d_free (fst sw')) i = Some (dblk (x, k_size x)) /\ k_st x = SFree /\ rounded <= k_size x /\
         DI A (fst sw') (mkBlk [x] d p total :: B') /\
         Inv (snd sw') ((p, total) :: map b_held B') /\
         k_data x = align_up A p /\
         dgrown s w B total (snd sw') p B' /\
         d_used (fst sw') = d_used s /\ d_aligned (fst sw') = d_aligned s /\
         d_aligned_hwm (fst sw') = d_aligned_hwm s /\
         d_actual_hwm (fst sw') = Z.max (d_actual_hwm s) (d_actual (fst sw')))
      (fun sw' e => exists B', DW (fst sw') (snd sw') B' /\
         dfailed s w B total sw' e B' /\
         d_used (fst sw') = d_used s /\ d_aligned (fst sw') = d_aligned s /\
         d_aligned_hwm (fst sw') = d_aligned_hwm s /\ d_actual_hwm (fst sw') = d_actual_hwm s).
  Proof.
    intros HW Hr Hl total. unfold d_new_block. cbn [fst]. rewrite (d_empty_iff s B (proj1 HW)). fold (dnew_size B rounded).
    subst total. set (sz := dnew_size B rounded) in *.
    assert (Hsz : rounded <= sz /\ sz + A <= limP).
    { unfold sz, dnew_size, zmax. destruct (dk_first _ _ CFG) as [F1 F2]. destruct (dk_next _ _ CFG) as [N1 N2]. fold A in F2, N2.
      destruct B; match goal with |- context [?a <? ?b] => destruct (Z.ltb_spec a b) end; lia. }
    destruct Hsz as [Hsz1 Hsz2].
    (* the part after the block has been obtained *)
    assert (Hfin : forall s0 w1 B' d p, DI A s0 B' ->
      dgrown s w B (sz + A) w1 p B' ->
      d_used s0 = d_used s -> d_aligned s0 = d_aligned s -> d_aligned_hwm s0 = d_aligned_hwm s ->
      d_actual_hwm s0 = d_actual_hwm s ->
      d = align_up A p -> p <= d < p + A -> d mod A = 0 -> Inv w1 ((p, sz + A) :: map b_held B') ->
      exists s1 i,
        (let s := dset_base s0 (fset (d_base s0) d (p, sz + A)) in
         let actual := w64 (d_actual s + sz) in
         let s1 := dset_actual s actual (zmax actual (d_actual_hwm s)) (w64 (d_rel_blocks s + 1)) (w64 (d_total_blocks s + 1)) in
         let '(pre, next) := d_before d (d_free s1) in
         Ok (dset_lists s1 (d_used s1) (pre ++ mkD d sz sz :: next), w1) (length pre)) = Ok (s1, w1) i /\
        exists x d p B',
         nth_error (d_free s1) i = Some (dblk (x, k_size x)) /\ k_st x = SFree /\ rounded <= k_size x /\
         DI A s1 (mkBlk [x] d p (sz + A) :: B') /\
         Inv w1 ((p, sz + A) :: map b_held B') /\
         k_data x = align_up A p /\
         dgrown s w B (sz + A) w1 p B' /\
         d_used s1 = d_used s /\ d_aligned s1 = d_aligned s /\
         d_aligned_hwm s1 = d_aligned_hwm s /\
         d_actual_hwm s1 = Z.max (d_actual_hwm s) (d_actual s1)).
    { intros s0 w1 B' d p HQ HB E1 E2 E3 E4 Hau Hd Hm HI. cbv zeta. ds.
      pose proof (ps_good _ _ _ PS _ _ HI) as Hg.
      destruct (d_before d (d_free s0)) as [pre nx] eqn:Eb.
      destruct (d_before_spec _ _ _ _ (di_sorted _ _ _ HQ) Eb) as (EF & Hpre & Hnx).
      assert (PF : Permutation (pre ++ mkD d sz sz :: nx) (mkD d sz sz :: d_free s0)) by (rewrite EF; symmetry; apply Permutation_middle).
      assert (Hnd : forall b, In b (d_free s0) -> d_data b <> d).
      { intros b Hb E. destruct (d_free_in _ _ _ HQ b Hb) as (y & z & Hy & _ & ->). ds. cbn [dblk d_data fst] in E.
        apply dall_in in Hy. apply in_cells in Hy as (bb & Hbb & Hy).
        pose proof (cell_in_held A bb y (di_blk _ _ _ HQ bb Hbb) Hy) as Hi.
        pose proof (bo_cells _ _ (di_blk _ _ _ HQ bb Hbb) y Hy) as [Hp _].
        pose proof Hg as Hg0; apply good_cons in Hg0 as (_ & Hdj & _). specialize (Hdj _ (in_map b_held _ _ Hbb)).
        unfold disj, inside, cell_region in *. cbn [fst snd] in *. lia. }
      assert (SF : pairwise dlt (pre ++ mkD d sz sz :: nx)).
      { pose proof (di_sorted _ _ _ HQ) as S. rewrite EF in S, Hnd. apply pairwise_app in S as (S1 & S2 & S3). apply pairwise_app. split; [exact S1|].
        cbn [pairwise]. split; [split; [|exact S2]|].
        - intros y Hy. unfold dlt. ds. specialize (Hnx y Hy). specialize (Hnd y ltac:(apply in_or_app; auto)). lia.
        - intros a b Ha [<-|Hb]; [unfold dlt; ds; auto|auto]. }
      pose proof (DI_add_block A s0 d p (sz + A) B' sz _ dHpA HQ ltac:(lia) eq_refl Hau Hd Hm Hg PF SF) as HQ2.
      assert (Hb : sumZ (map b_size B') + sz + A * Z.of_nat (S (length B')) < ASP).
      { pose proof (sum_blocks_bound A _ dHA (di_blk _ _ _ HQ2) (di_good _ _ _ HQ2)) as HS.
        cbn [map sumZ length] in HS. unfold b_size at 1 3 in HS. unfold csum in HS. cbn [b_cells map sumZ k_size] in HS. lia. }
      pose proof (di_actual _ _ _ HQ) as Ea. pose proof (di_total _ _ _ HQ) as Et.
      pose proof (di_actual_b _ _ _ dHA HQ) as Bact.
      pose proof (di_relb_b _ _ _ dHA HQ) as Brelb. pose proof (di_relb _ _ _ HQ) as Er.
      pose proof ASP_M64 as HAM. pose proof dHA as HA0.
      pose proof (rel_len B') as Hrl.
      unfold dset_lists, dset_actual, dset_base. ds. rewrite !w64_small by nia.
      assert (Hz : zmax (d_actual s0 + sz) (d_actual_hwm s0) = Z.max (d_actual_hwm s0) (d_actual s0 + sz)).
      { unfold zmax. destruct (Z.ltb_spec (d_actual_hwm s0) (d_actual s0 + sz)); lia. }
      rewrite Hz. eexists _, _. split; [reflexivity|]. ds.
      exists (mkCell d d sz SFree d), d, p, B'. ds.
      split; [rewrite nth_error_app2, Nat.sub_diag by lia; reflexivity|].
      split; [reflexivity|]. split; [lia|]. split; [exact HQ2|]. split; [exact HI|]. split; [exact Hau|]. split; [exact HB|].
      repeat (split; [assumption|]). rewrite E4. reflexivity. }
    pose proof (d_grow_ok s w B sz HW ltac:(lia) Hsz2) as Hg1.
    destruct (d_grow P cfg sz (s, w)) as [[s1 w1] d|[s1 w1] e| | |]; cbn [bind post fst snd] in *; auto.
    - destruct Hg1 as (p & -> & Ep & Hau & Hd & Hm & HI). destruct HW as (HQ & _).
      destruct (Hfin s w1 B d p HQ (or_introl (conj Ep eq_refl)) eq_refl eq_refl eq_refl eq_refl Hau Hd Hm HI) as (s1 & i & Ee & HH).
      match goal with |- post ?t _ _ => replace t with (@Ok (dw (W := W)) nat (s1, w1) i) by (symmetry; exact Ee) end. cbn [post fst snd]. exact HH.
    - destruct Hg1 as (-> & Hg1 & Ep). pose proof (d_release_ok s w1 B Hg1) as Hrel.
      destruct (d_release P (s, w1)) as [[s2 w2] []|[s2 w2] e2| | |] eqn:Erel; cbn [bind post fst snd] in *; auto; try contradiction.
      destruct Hrel as (B' & HP & HQW2 & Hnone & R1 & R2 & R3 & R4).
      pose proof (d_grow_ok s2 w2 B' sz HQW2 ltac:(lia) Hsz2) as Hg2.
      destruct (d_grow P cfg sz (s2, w2)) as [[s3 w3] d|[s3 w3] e3| | |]; cbn [bind post fst snd] in *; auto.
      + destruct Hg2 as (p & -> & Ep2 & Hau & Hd & Hm & HI). destruct HQW2 as (HQ & _).
        assert (HG : dgrown s w B (sz + A) w3 p B') by (right; exists w1, e, s2, w2; auto).
        destruct (Hfin s2 w3 B' d p HQ HG R1 R2 R3 R4 Hau Hd Hm HI) as (s1 & i & Ee & HH).
        match goal with |- post ?t _ _ => replace t with (@Ok (dw (W := W)) nat (s1, w3) i) by (symmetry; exact Ee) end. cbn [post fst snd]. exact HH.
      + destruct Hg2 as (-> & Hg2 & Ep2). exists B'. split; [exact Hg2|]. split; [|auto].
        exists w1, e, w2. auto.
  Qed.

  (** Where the memory of a successful allocation came from. *)
  Definition dalloc_src (s : dpool) (w : W) (B : list blk) (rounded : Z) (w' : W) (ptr : Z) (B' : list blk) : Prop :=
    (exists x, In x (cells B) /\ k_st x = SFree /\ ptr = k_data x /\ rounded <= k_size x /\
       (forall y, In y (cells B) -> k_st y = SFree -> rounded <= k_size y -> k_size x <= k_size y) /\
       w' = w /\ Permutation (map b_held B') (map b_held B)) \/
    ((forall y, In y (cells B) -> k_st y = SFree -> k_size y < rounded) /\
     exists p B1, ptr = align_up A p /\ dgrown s w B (dnew_size B rounded + A) w' p B1 /\
       Permutation (map b_held B') ((p, dnew_size B rounded + A) :: map b_held B1)).

  Lemma d_allocate_ok s w B n :
    DW s w B -> 0 < n -> n + 2 * A <= limP ->
    post (d_allocate P cfg n (s, w))
      (fun sw' p => exists B', DW (fst sw') (snd sw') B' /\
         Permutation (uregs B') ((p, n) :: uregs B) /\
         d_aligned (fst sw') = d_aligned s + aligned_round_up A n /\
         dalloc_src s w B (aligned_round_up A n) (snd sw') p B' /\
         d_aligned_hwm (fst sw') = Z.max (d_aligned_hwm s) (d_aligned (fst sw')) /\
         d_actual_hwm (fst sw') = Z.max (d_actual_hwm s) (d_actual (fst sw')))
      (fun sw' e => exists B', DW (fst sw') (snd sw') B' /\
         (forall y, In y (cells B) -> k_st y = SFree -> k_size y < aligned_round_up A n) /\
         dfailed s w B (dnew_size B (aligned_round_up A n) + A) sw' e B' /\
         d_aligned (fst sw') = d_aligned s /\
         d_aligned_hwm (fst sw') = d_aligned_hwm s /\ d_actual_hwm (fst sw') = d_actual_hwm s).
  Proof.
    intros HW Hn Hl. unfold d_allocate. fold A. cbn [fst snd].
    pose proof dHA as HA0. pose proof (dk_lim _ _ CFG) as HL.
    pose proof (aligned_round_up_spec A n HA0 Hn ltac:(lia)) as Hru. cbv zeta in Hru.
    set (r := aligned_round_up A n) in *. destruct Hru as [Hr1 Hr2].
    assert (Hfr : forall y, In y (cells B) -> k_st y = SFree -> exists z, In (dblk (y, z)) (d_free s)).
    { intros y Hy Hys. destruct (cells_dall _ _ Hy) as (z & Hz). exists z. apply (in_d_free _ _ _ (proj1 HW)); auto. }
    destruct (d_find r 0 None (d_free s)) as [i|] eqn:Efd.
    - destruct (d_find_some _ _ _ Efd) as (c & Hc & Hge & Hleast). destruct HW as (HQ & HI).
      destruct (d_free_in _ _ _ HQ c (nth_error_In _ _ Hc)) as (x & z & Hx & Hsx & ->).
      destruct (dall_focus _ _ _ Hx) as (l1 & l2 & d & p & t & B1 & HP & Ez).
      pose proof (DI_perm _ _ _ _ HP HQ) as HQ1. rewrite Ez in Hc. cbn [dblk d_size fst] in Hge, Hleast.
      destruct (d_use_ok A s l1 x l2 d p t B1 i n w r HA0 HQ1 Hsx Hc Hn eq_refl ltac:(lia) Hr2 Hge) as
        (s' & lx & Eu & HQ3 & HU & Ea & Et & Eal & Ehw & Eahw).
      rewrite Eu. cbn [post fst snd].
      exists (mkBlk (l1 ++ lx ++ l2) d p t :: B1). split; [|split; [|split; [exact Eal|split; [|split; [exact Ehw|]]]]].
      + split; [exact HQ3|]. eapply (ps_perm _ _ _ PS); [|exact HI]. rewrite (Permutation_map b_held HP). reflexivity.
      + rewrite HU. constructor. rewrite (uregs_perm _ _ HP). reflexivity.
      + left. exists x. split; [exact (dall_in _ _ _ Hx)|]. split; [exact Hsx|]. split; [reflexivity|]. split; [exact Hge|].
        split; [|split; [reflexivity|]].
        * intros y Hy Hys Hyr. destruct (Hfr y Hy Hys) as (zy & Hzy). specialize (Hleast _ Hzy Hyr). exact Hleast.
        * rewrite (Permutation_map b_held HP). reflexivity.
      + rewrite Eahw, Ea. pose proof (di_ahwm _ _ _ HQ). lia.
    - assert (Hno : forall y, In y (cells B) -> k_st y = SFree -> k_size y < r).
      { intros y Hy Hys. destruct (Hfr y Hy Hys) as (zy & Hzy). apply (d_find_none _ _ Efd _ Hzy). }
      apply post_bind. refine (post_impl _ _ _ _ _ _ _ (d_new_block_ok s w B r HW _ _)); try lia.
      + intros [s1 w1] i (x & d & p & B' & Hi & Hst & Hsz & HQ & HI & Hxd & HB & Eus & Eal & Eh1 & Eh2). cbn [fst snd] in *.
        assert (Hcs : csum ([] ++ x :: []) = k_size x) by (unfold csum; cbn; lia).
        assert (Hi' : nth_error (d_free s1) i = Some (dblk (x, nxt (csum ([] ++ x :: [])) []))) by (rewrite Hcs; exact Hi).
        destruct (d_use_ok A s1 [] x [] d p _ B' i n w1 r HA0 HQ Hst Hi' Hn eq_refl ltac:(lia) Hr2 Hsz) as
          (s' & lx & Eu & HQ3 & HU & Ea & Et & Eal2 & Ehw & Eahw).
        rewrite Eu. cbn [post fst snd].
        exists (mkBlk ([] ++ lx ++ []) d p (dnew_size B r + A) :: B'). split; [|split; [|split; [|split; [|split]]]].
        * split; [exact HQ3|exact HI].
        * rewrite HU. constructor. change (mkBlk ([] ++ [x]) d p (dnew_size B r + A) :: B') with ([mkBlk [x] d p (dnew_size B r + A)] ++ B').
          rewrite uregs_app. rewrite (uregs_rel_nil [mkBlk [x] d p (dnew_size B r + A)]).
          -- cbn [app]. destruct HB as [[_ ->]|(w9 & e9 & s9 & w8 & _ & _ & _ & HB & _)]; [reflexivity|apply uregs_release, HB].
          -- intros b [<-|[]]. unfold b_rel. qs. unfold is_rel. now rewrite Hst.
        * rewrite Eal2, Eal. reflexivity.
        * right. split; [exact Hno|]. exists p, B'. split; [exact Hxd|]. split; [exact HB|]. reflexivity.
        * rewrite Ehw, Eh1. reflexivity.
        * rewrite Eahw, Ea. exact Eh2.
      + intros [s1 w1] e (B' & HQW' & Hf & E0 & E1 & E2 & E3). exists B'. auto 10.
  Qed.

  Lemma d_view_bounds s B cur : DI A s B -> 0 <= dc_heur cfg cur (d_view s) < ASP.
  Proof.
    intros HQ. apply (dk_heur _ _ CFG); cbn [d_view v_actual v_aligned_hwm].
    - apply (di_actual_b _ _ _ dHA HQ).
    - pose proof (di_aligned_b _ _ _ HQ). pose proof (di_hwm _ _ _ HQ). lia.
  Qed.

  Definition keeps (s : dpool) (B : list blk) (sw' : dw (W := W)) : Prop :=
    exists B', DW (fst sw') (snd sw') B' /\ Permutation (uregs B') (uregs B) /\
      d_aligned_hwm s <= d_aligned_hwm (fst sw') /\ d_actual_hwm s <= d_actual_hwm (fst sw').

  Lemma keeps_trans s B s1 w1 B1 sw' : DW s1 w1 B1 -> Permutation (uregs B1) (uregs B) ->
    d_aligned_hwm s <= d_aligned_hwm s1 -> d_actual_hwm s <= d_actual_hwm s1 -> keeps s1 B1 sw' -> keeps s B sw'.
  Proof. intros H1 H2 H3 H4 (B' & K1 & K2 & K3 & K4). exists B'. split; [exact K1|]. split; [now rewrite K2|lia]. Qed.

  Lemma d_coalesce_free_ok size s w B : DW s w B -> 0 < size < ASP ->
    post (d_coalesce_free P cfg size (s, w)) (fun sw' _ => keeps s B sw') (fun sw' _ => keeps s B sw').
  Proof.
    intros HW Hsz. unfold d_coalesce_free. apply post_bind.
    refine (post_impl _ _ _ _ _ _ _ (d_release_ok s w B HW)); [|contradiction].
    intros [s2 w2] _ (B2 & HP2 & HW2 & _ & _ & _ & Er1 & Er2). cbn [fst snd] in *. pose proof (uregs_release _ _ HP2) as HU2.
    pose proof (dk_asp _ _ CFG) as HASP. fold A in HASP.
    apply post_bind. refine (post_impl _ _ _ _ _ _ _ (d_allocate_ok s2 w2 B2 size HW2 _ _)); try lia.
    - intros [s3 w3] p3 (B3 & HW3 & HU3 & _ & _ & Ea1 & Ea2). cbn [post fst snd] in *.
      assert (Hin3 : In (p3, size) (uregs B3)) by (apply (Permutation_in _ (Permutation_sym HU3)); simpl; auto).
      destruct (d_free_core_ok A s3 B3 p3 size dHA (proj1 HW3) Hin3) as (B4 & HD4 & HU4 & HL4 & _ & _ & _ & _ & Eh1 & Eh2).
      exists B4. cbn [fst snd]. split; [split; [exact HD4|]|].
      + eapply (ps_perm _ _ _ PS); [apply Permutation_sym, HL4|apply HW3].
      + split; [|lia]. rewrite HU3 in HU4. apply Permutation_cons_inv in HU4. now rewrite HU4.
    - intros [s3 w3] e (B3 & HW3 & _ & (w4 & e4 & w5 & _ & _ & _ & HP3 & _) & _ & Ea1 & Ea2). cbn [fst snd] in *.
      exists B3. cbn [fst snd]. split; [exact HW3|]. split; [|lia]. rewrite (uregs_release _ _ HP3). exact HU2.
  Qed.

  Lemma d_dpa_coalesce_ok sug s w B : DW s w B -> 0 <= sug < ASP ->
    post (d_dpa_coalesce P cfg sug (s, w)) (fun sw' _ => keeps s B sw') (fun sw' _ => keeps s B sw').
  Proof.
    intros HW Hsz. unfold d_dpa_coalesce. cbn [fst].
    assert (H0 : keeps s B (s, w)) by (exists B; split; [exact HW|]; split; [reflexivity|cbn; lia]).
    destruct (1 <? d_free_blocks (d_free s)); [|exact H0].
    apply post_bind. refine (post_impl _ _ _ _ _ _ _ (d_release_ok s w B HW)); [|contradiction].
    intros [s2 w2] _ (B2 & HP2 & HW2 & _ & _ & _ & Er1 & Er2). cbn [fst snd] in *. pose proof (uregs_release _ _ HP2) as HU2.
    pose proof (di_actual_b _ _ _ dHA (proj1 HW2)) as Bact.
    destruct (Z.ltb_spec (d_actual s2) sug) as [Hlt|Hge].
    - refine (post_impl _ _ _ _ _ _ _ (d_coalesce_free_ok (sug - d_actual s2) s2 w2 B2 HW2 _)); [| |lia];
        intros sw' ? K; apply (keeps_trans s B s2 w2 B2 sw' HW2 HU2); auto; lia.
    - cbn [post]. apply (keeps_trans s B s2 w2 B2 (s2, w2) HW2 HU2); try lia. exists B2. cbn [fst snd]. split; [exact HW2|]. split; [reflexivity|lia].
  Qed.

  (** [deallocate] of a live allocation; the memory is given back even when the coalescing throws. *)
  Lemma d_deallocate_ok cur s w B p n :
    DW s w B -> In (p, n) (uregs B) ->
    let good_end := fun sw' => exists B', DW (fst sw') (snd sw') B' /\ Permutation ((p, n) :: uregs B') (uregs B) /\
         d_aligned_hwm s <= d_aligned_hwm (fst sw') /\ d_actual_hwm s <= d_actual_hwm (fst sw') in
    post (d_deallocate P cfg cur p (s, w)) (fun sw' _ => good_end sw') (fun sw' _ => good_end sw').
  Proof.
    intros [HD HI] Hin good_end. unfold d_deallocate. cbn [fst snd].
    destruct (d_free_core_ok A s B p n dHA HD Hin) as (B1 & HD1 & HU1 & HL1 & _ & _ & _ & _ & Eh1 & Eh2).
    set (s1 := d_free_core p s) in *.
    assert (HW1 : DW s1 w B1) by (split; [exact HD1|]; eapply (ps_perm _ _ _ PS); [apply Permutation_sym, HL1|exact HI]).
    pose proof (d_view_bounds s1 B1 cur HD1) as Hv.
    assert (HK : forall sw', keeps s1 B1 sw' -> good_end sw').
    { intros sw' (B' & K1 & K2 & K3 & K4). exists B'. split; [exact K1|]. split; [|lia]. rewrite K2. exact HU1. }
    destruct (dc_heur cfg cur (d_view s1) =? 0).
    - cbn [post]. apply HK. exists B1. cbn [fst snd]. split; [exact HW1|]. split; [reflexivity|lia].
    - refine (post_impl _ _ _ _ _ _ _ (d_dpa_coalesce_ok _ s1 w B1 HW1 Hv)); auto.
  Qed.

  Lemma d_coalesce_ok cur s w B : DW s w B ->
    post (d_coalesce P cfg cur (s, w)) (fun sw' _ => keeps s B sw') (fun _ _ => False).
  Proof.
    intros HW. unfold d_coalesce. cbn [fst]. pose proof (d_view_bounds s B cur (proj1 HW)) as Hv.
    destruct (dc_heur cfg cur (d_view s) =? 0).
    - cbn [post]. exists B. cbn [fst snd]. split; [exact HW|]. split; [reflexivity|lia].
    - pose proof (d_dpa_coalesce_ok _ s w B HW Hv) as H.
      destruct (d_dpa_coalesce P cfg (dc_heur cfg cur (d_view s)) (s, w)); cbn [noexcept post] in *; auto.
  Qed.
End Main.
