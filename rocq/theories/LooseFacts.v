(** Memory stays safe whatever size a deallocation declares. *)
From Verif Require Import Base BaseFacts AlignedFacts HeapModel HeapFacts StratModel StratFacts WrapModel WrapFacts LeafFacts
  QuickPoolModel QuickPoolMain QuickPoolStrat QuickPoolStratFacts FixedPoolModel FixedPoolFacts MixedPoolModel MixedPoolFacts
  DynPoolModel DynPoolMain DynPoolStratFacts GlobalModel GlobalSpec GlobalFacts LooseSpec.

(** A parent that takes back a block whatever size is declared. *)
Definition loose {W : Type} (P : Parent W) (Inv : W -> list region -> Prop) : Prop :=
  forall w L p n m, Inv w ((p, n) :: L) ->
    post (p_dealloc P p m w) (fun w' _ => Inv w' L) (fun _ _ => False).

(** The parent with the declared size replaced by [K]. *)
Definition const_size {W : Type} (P : Parent W) (K : Z) : Parent W :=
  mkParent (p_alloc P) (fun p _ w => p_dealloc P p K w).

Lemma const_size_spec W (P : Parent W) Inv limP K :
  ParentSpec P limP Inv -> loose P Inv -> ParentSpec (const_size P K) limP Inv.
Proof.
  intros [H1 H2 H3 H4] HL. constructor; auto. intros w L p n HI. cbn [const_size p_dealloc]. now apply (HL w L p n).
Qed.

Lemma kind_dealloc_loose k limP W (P : Parent W) Inv s w U L p n m cur :
  kind_ok k limP -> limP < M64 -> ParentSpec P limP Inv -> loose P Inv ->
  kind_rel k s ((p, n) :: U) L -> Inv w L ->
  post (st_dealloc (strat_of k) W P cur p m (s, w))
       (fun sw _ => exists L', kind_rel k (fst sw) U L' /\ Inv (snd sw) L')
       (fun sw _ => kind_loud k /\ exists L', kind_rel k (fst sw) U L' /\ Inv (snd sw) L').
Proof.
  intros Hk HM HP HL HR HI.
  pose proof (fun P' HP' => lo_dealloc _ _ _ _ _ (kind_leaf_ok k limP Hk HM) W P' Inv s w U L p n cur HP' HR HI) as H.
  destruct k; try exact (H P HP).
  - pose proof (lo_dealloc _ _ _ _ _ (kind_leaf_ok (KSizeLimiter limit) limP Hk HM) W _ Inv (s - m + n) w U L p n cur
                  (const_size_spec W P Inv limP m HP HL) HR HI) as H0.
    cbn [strat_of SizeLimiter st_dealloc st_ty] in *. unfold sl_deallocate in *. cbn [const_size p_dealloc] in H0.
    replace (s - m + n - n) with (s - m) in H0 by lia. exact H0.
  - exact (H _ (const_size_spec W P Inv limP (w64 (m + al_overhead alignment)) HP HL)).
  - exact (H _ (const_size_spec W P Inv limP m HP HL)).
  - exact (H _ (const_size_spec W P Inv limP m HP HL)).
Qed.

Lemma kind_lim_quiet k limP lim : kind_lim k limP = Some lim -> ~ kind_loud k.
Proof. destruct k; cbn; try discriminate; tauto. Qed.

Notation GI := (GInv (fun _ _ => True)).

Lemma hold_parent_ext C c w L X Y : config_ok (c :: C) -> hperm (length C) X Y ->
  GI C w (hold X (nc_parent c) L) -> GI C w (hold Y (nc_parent c) L).
Proof.
  intros HC HXY. apply GInv_ext; [apply HC|]. intros j Hj. unfold hold.
  destruct (Nat.eqb j (nc_parent c)); [reflexivity|auto].
Qed.

Lemma gparent_free_loose C : config_ok C -> forall i lim p n m l X w, GI C w X -> climit C i = Some lim ->
  Permutation (X i) ((p, n) :: l) ->
  post (p_dealloc (gparent C i) p m w) (fun w' _ => GI C w' (hold X i l)) (fun _ _ => False).
Proof.
  induction C as [|c C IH]; intros HC i lim p n m l X w HG Hl HX.
  - cbn [climit] in Hl. destruct (Nat.eqb_spec i 0) as [->|]; [|discriminate]. destruct w as [st h].
    cbn [gparent host_internal p_dealloc GInv fst snd] in *. destruct HG as [HG _]. apply post_omap.
    eapply post_imp; [apply (ps_dealloc _ _ _ host_own_spec h l p n)| |]; cbn; try tauto.
    eapply (ps_perm _ _ _ host_own_spec); eauto.
  - destruct (node_ok_lim C c HC) as (limP & E & Hk & HM & Hle).
    cbn [gparent climit] in *. destruct w as [[st s] w].
    destruct HG as (L & HR & HS & HG). cbn [fst snd] in HR, HS, HG.
    destruct (Nat.eqb_spec i (S (length C))) as [->|Hne].
    + rewrite E in Hl. cbn [internal p_dealloc deallocate_internal fst snd]. apply post_omap.
      pose proof (gparent_spec _ anyCl trivial_cl C (proj2 HC) (trivial_parents C) _ _ X I E) as HPS.
      assert (HLo : loose (gparent C (nc_parent c)) (fun w L => GI C w (hold X (nc_parent c) (L ++ X (nc_parent c))))).
      { intros w0 L0 p0 n0 m0 H0. eapply post_imp; [apply (IH (proj2 HC) _ _ p0 n0 m0 (L0 ++ X (nc_parent c)) _ w0 H0 E)| |]; cbv beta; [| |auto].
        - rewrite hold_eq. reflexivity.
        - intros w' _. apply GInv_ext; [apply HC|]. intros j Hj. unfold hold. destruct (Nat.eqb j (nc_parent c)); reflexivity. }
      assert (HR' : kind_rel (nc_kind c) s ((p, n) :: l) L).
      { eapply (kind_rel_perm _ _ _ _ _ _ limP Hk HM); [exact HX|reflexivity|exact HR]. }
      eapply post_imp; [apply (kind_dealloc_loose _ limP _ _ _ s w l L p n m _ Hk HM HPS HLo HR' HG)| |].
      * intros [s' w'] u (L' & H1 & H2). cbn [fst snd] in *. exists L'. cbn [fst snd].
        rewrite hold_eq. split; [exact H1|]. split; [exact I|]. exact (proj2 (hold_top_ext _ anyCl trivial_cl C c w' L' X l HC) H2).
      * intros sw' u (Hlo & _). exact (kind_lim_quiet _ _ _ Hl Hlo).
    + assert (Hile : (i <= length C)%nat) by (destruct (climit_lt C (config_ok_all C (proj2 HC)) _ _ Hl); lia).
      cbn [lift_parent p_dealloc fst snd]. apply post_omap.
      set (Y := hold X (nc_parent c) (L ++ X (nc_parent c))) in *.
      set (l' := if Nat.eqb i (nc_parent c) then L ++ l else l).
      assert (HY : Permutation (Y i) ((p, n) :: l')).
      { unfold Y, l', hold. destruct (Nat.eqb_spec i (nc_parent c)) as [<-|]; [|exact HX].
        rewrite HX. apply Permutation_sym, Permutation_middle. }
      eapply post_imp; [apply (IH (proj2 HC) i lim p n m l' Y w HG Hl HY)| |]; [|auto].
      intros w' u Hw. exists L. cbn [fst snd]. rewrite hold_ne by lia. split; [exact HR|]. split; [exact I|].
      exact (proj1 (hold_low_ext _ C c w' L X i l HC Hile) Hw).
Qed.

Lemma gparent_loose C c X : config_ok (c :: C) ->
  loose (gparent C (nc_parent c)) (fun w L => GI C w (hold X (nc_parent c) (L ++ X (nc_parent c)))).
Proof.
  intros HC w0 L0 p0 n0 m0 H0. destruct (node_ok_lim C c HC) as (limP & E & Hk & HM & Hle).
  eapply post_imp; [apply (gparent_free_loose C (proj2 HC) _ _ p0 n0 m0 (L0 ++ X (nc_parent c)) _ w0 H0 E)| |]; cbv beta; [| |auto].
  - rewrite hold_eq. reflexivity.
  - intros w' _. apply GInv_ext; [apply HC|]. intros j Hj. unfold hold. destruct (Nat.eqb j (nc_parent c)); reflexivity.
Qed.

Lemma graw_free_loose C : config_ok C -> forall i p n m l X w, GI C w X -> (i <= length C)%nat ->
  Permutation (X i) ((p, n) :: l) ->
  post (p_dealloc (graw C i) p m w)
    (fun w' _ => GI C w' (hold X i l))
    (fun w' _ => coalescing (kind_at C i) /\ GI C w' (hold X i l)).
Proof.
  induction C as [|c C IH]; intros HC i p n m l X w HG Hi HX.
  - cbn [length] in Hi. assert (i = 0%nat) as -> by lia. destruct w as [st h].
    cbn [graw lift_parent p_dealloc GInv fst snd] in *. destruct HG as [HG HS]. apply post_omap.
    eapply post_imp; [apply (ps_dealloc _ _ _ host_own_spec h l p n)| |]; cbn; try tauto.
    eapply (ps_perm _ _ _ host_own_spec); eauto.
  - destruct (node_ok_lim C c HC) as (limP & E & Hk & HM & Hle).
    cbn [graw]. rewrite kind_at_cons. destruct w as [[st s] w].
    destruct HG as (L & HR & HS & HG). cbn [fst snd] in HR, HS, HG.
    destruct (Nat.eqb_spec i (S (length C))) as [->|Hne].
    + cbn [p_dealloc fst snd]. apply post_omap.
      pose proof (gparent_spec _ anyCl trivial_cl C (proj2 HC) (trivial_parents C) _ _ X I E) as HPS.
      pose proof (gparent_loose C c X HC) as HLo.
      assert (HR' : kind_rel (nc_kind c) s ((p, n) :: l) L).
      { eapply (kind_rel_perm _ _ _ _ _ _ limP Hk HM); [exact HX|reflexivity|exact HR]. }
      eapply post_imp; [apply (kind_dealloc_loose _ limP _ _ _ s w l L p n m (st_cur st) Hk HM HPS HLo HR' HG)| |].
      * intros [s' w'] u (L' & H1 & H2). cbn [fst snd] in *. exists L'. cbn [fst snd].
        rewrite hold_eq. split; [exact H1|]. split; [exact HS|]. exact (proj2 (hold_top_ext _ anyCl trivial_cl C c w' L' X l HC) H2).
      * intros [s' w'] u (Hl & L' & H1 & H2). cbn [fst snd] in *. split; [destruct (nc_kind c); exact Hl|]. exists L'. cbn [fst snd].
        rewrite hold_eq. split; [exact H1|]. split; [exact HS|]. exact (proj2 (hold_top_ext _ anyCl trivial_cl C c w' L' X l HC) H2).
    + cbn [length] in Hi. cbn [lift_parent p_dealloc fst snd]. apply post_omap.
      set (Y := hold X (nc_parent c) (L ++ X (nc_parent c))) in *.
      set (l' := if Nat.eqb i (nc_parent c) then L ++ l else l).
      assert (HY : Permutation (Y i) ((p, n) :: l')).
      { unfold Y, l', hold. destruct (Nat.eqb_spec i (nc_parent c)) as [<-|]; [|exact HX].
        rewrite HX. apply Permutation_sym, Permutation_middle. }
      eapply post_imp; [apply (IH (proj2 HC) i p n m l' Y w HG ltac:(lia) HY)| |].
      * intros w' u Hw. exists L. cbn [fst snd]. rewrite hold_ne by lia. split; [exact HR|]. split; [exact HS|].
        exact (proj1 (hold_low_ext _ C c w' L X i l HC ltac:(lia)) Hw).
      * intros w' u [Hl Hw]. split; [exact Hl|]. exists L. cbn [fst snd]. rewrite hold_ne by lia. split; [exact HR|]. split; [exact HS|].
        exact (proj1 (hold_low_ext _ C c w' L X i l HC ltac:(lia)) Hw).
Qed.

Lemma gvia_alloc_ok b C : config_ok C -> forall i n X w, GI C w X -> user_guard C i n w ->
  (i <= length C)%nat /\
  post (p_alloc (gvia b C i) n w)
    (fun w' p => GI C w' (if p =? 0 then X else hold X i ((p, n) :: X i)))
    (fun w' _ => GI C w' X).
Proof.
  intros HC i n X w HG Hu. destruct b; cbn [gvia].
  - now apply guser_alloc_ok.
  - exact (graw_alloc_ok _ anyCl trivial_cl C HC (trivial_parents C) i n X w HG Hu).
Qed.

Lemma gvia_free_ok b C : config_ok C -> forall i p n m l X w, GI C w X -> (i <= length C)%nat ->
  Permutation (X i) ((p, n) :: l) ->
  post (p_dealloc (gvia b C i) p m w)
    (fun w' _ => GI C w' (hold X i l))
    (fun w' _ => coalescing (kind_at C i) /\ GI C w' (hold X i l)).
Proof.
  intros HC i p n m l X w HG Hi HX. destruct b; cbn [gvia].
  - rewrite guser_free_raw. apply (graw_free_loose C HC i p n m); auto. apply gupd_ok; auto.
  - now apply (graw_free_loose C HC i p n m).
Qed.

Theorem lhist_inv C w X : lhist C w X ->
  config_ok C /\ GI C w X /\ (forall i, (length C < i)%nat -> X i = []).
Proof.
  induction 1 as [orc|C w X c w' v H (HC & HG & HX) Hn E|C w X c w' e H (HC & HG & HX) Hn E
                 |C w X b i n w' p H (HC & HG & HX) Hu E Hp|C w X b i n w' H (HC & HG & HX) Hu E
                 |C w X b i n w' e H (HC & HG & HX) Hu E|C w X b i p n m l1 l2 w' H (HC & HG & HX) Hl E
                 |C w X b i p n m l1 l2 w' e H (HC & HG & HX) Hl E
                 |C w X i w' H (HC & HG & HX) E|C w X i w' e H (HC & HG & HX) E
                 |C w X i w' H (HC & HG & HX) E|C w X i w' e H (HC & HG & HX) E].
  - split; [exact I|]. split; [|auto]. cbn. split; [|exact I]. split; [constructor|apply good_nil].
  - assert (HC' : config_ok (c :: C)) by (split; auto). split; [exact HC'|].
    pose proof (gcreate_ok _ anyCl trivial_cl C c HC' (trivial_parents _) I X w HG (HX _ (le_n _))) as Hc. rewrite E in Hc. split; [exact Hc|].
    intros i Hi. apply HX. cbn [length] in Hi. lia.
  - assert (HC' : config_ok (c :: C)) by (split; auto). split; [exact HC|].
    pose proof (gcreate_ok _ anyCl trivial_cl C c HC' (trivial_parents _) I X w HG (HX _ (le_n _))) as Hc. rewrite E in Hc. auto.
  - destruct (gvia_alloc_ok b C HC i n X w HG Hu) as [Hi Ha]. rewrite E in Ha. cbn [post] in Ha.
    split; [exact HC|]. split.
    + destruct (Z.eqb_spec p 0); [contradiction|exact Ha].
    + intros j Hj. rewrite hold_ne by lia. auto.
  - destruct (gvia_alloc_ok b C HC i n X w HG Hu) as [Hi Ha]. rewrite E in Ha. auto.
  - destruct (gvia_alloc_ok b C HC i n X w HG Hu) as [Hi Ha]. rewrite E in Ha. auto.
  - assert (Hi : (i <= length C)%nat).
    { destruct (le_lt_dec i (length C)) as [|Hi]; auto. rewrite (HX i Hi) in Hl. destruct l1; discriminate. }
    assert (HP : Permutation (X i) ((p, n) :: l1 ++ l2)) by (rewrite Hl; apply Permutation_sym, Permutation_middle).
    pose proof (gvia_free_ok b C HC i p n m (l1 ++ l2) X w HG Hi HP) as Hf. rewrite E in Hf.
    split; [exact HC|]. split; [exact Hf|]. intros j Hj. rewrite hold_ne by lia. auto.
  - assert (Hi : (i <= length C)%nat).
    { destruct (le_lt_dec i (length C)) as [|Hi]; auto. rewrite (HX i Hi) in Hl. destruct l1; discriminate. }
    assert (HP : Permutation (X i) ((p, n) :: l1 ++ l2)) by (rewrite Hl; apply Permutation_sym, Permutation_middle).
    pose proof (gvia_free_ok b C HC i p n m (l1 ++ l2) X w HG Hi HP) as Hf. rewrite E in Hf. destruct Hf as [_ Hf].
    split; [exact HC|]. split; [exact Hf|]. intros j Hj. rewrite hold_ne by lia. auto.
  - pose proof (grelease_ok _ anyCl trivial_cl C HC (trivial_parents C) i X w HG) as Hr. rewrite E in Hr. auto.
  - pose proof (grelease_ok _ anyCl trivial_cl C HC (trivial_parents C) i X w HG) as Hr. rewrite E in Hr. auto.
  - pose proof (gcoalesce_ok _ anyCl trivial_cl C HC (trivial_parents C) i X w HG) as Hr. rewrite E in Hr. auto.
  - pose proof (gcoalesce_ok _ anyCl trivial_cl C HC (trivial_parents C) i X w HG) as Hr. rewrite E in Hr. auto.
Qed.

Lemma lhist_disjoint C w X : lhist C w X -> good (all_held X (S (length C))).
Proof. intros H. destruct (lhist_inv C w X H) as (HC & HG & _). exact (GInv_good_all (fun _ _ => True) C HC w X HG). Qed.

Lemma lhist_defined C w X i : lhist C w X ->
  (forall b n, user_guard C i n w -> p_alloc (gvia b C i) n w <> UB) /\
  (forall b p n m, In (p, n) (X i) ->
     p_dealloc (gvia b C i) p m w <> UB /\
     (~ coalescing (kind_at C i) -> forall w' e, p_dealloc (gvia b C i) p m w <> Throw w' e)) /\
  grelease C i w <> UB /\ gcoalesce C i w <> UB /\
  (forall c, node_ok C c -> gcreate C c w <> UB).
Proof.
  intros H. destruct (lhist_inv C w X H) as (HC & HG & HX).
  assert (HF : forall b p n m, In (p, n) (X i) ->
     post (p_dealloc (gvia b C i) p m w) (fun _ _ => True) (fun w' _ => coalescing (kind_at C i))).
  { intros b p n m Hin. apply in_split in Hin as (l1 & l2 & Hl).
    assert (Hi : (i <= length C)%nat).
    { destruct (le_lt_dec i (length C)) as [|Hi]; auto. rewrite (HX i Hi) in Hl. destruct l1; discriminate. }
    eapply post_imp; [apply (gvia_free_ok b C HC i p n m (l1 ++ l2) X w HG Hi)| |]; [|auto|intros ? ? [? _]; assumption].
    rewrite Hl; apply Permutation_sym, Permutation_middle. }
  split; [|split; [|split; [|split]]].
  - intros b n Hu E. destruct (gvia_alloc_ok b C HC i n X w HG Hu) as [_ Ha]. now rewrite E in Ha.
  - intros b p n m Hin. pose proof (HF b p n m Hin) as Hf. split.
    + intros E. now rewrite E in Hf.
    + intros Hco w' e E. rewrite E in Hf. exact (Hco Hf).
  - intros E. pose proof (grelease_ok _ anyCl trivial_cl C HC (trivial_parents C) i X w HG) as Hr. now rewrite E in Hr.
  - intros E. pose proof (gcoalesce_ok _ anyCl trivial_cl C HC (trivial_parents C) i X w HG) as Hr. now rewrite E in Hr.
  - intros c Hn E. pose proof (gcreate_ok _ anyCl trivial_cl C c (conj Hn HC) (trivial_parents _) I X w HG (HX _ (le_n _))) as Hr. now rewrite E in Hr.
Qed.

(** Every exact history is one of these. *)
Lemma ghist_lhist C w X : ghist C w X -> lhist C w X.
Proof.
  induction 1.
  - constructor.
  - eapply lh_create; eauto.
  - eapply lh_create_throw; eauto.
  - eapply (lh_alloc _ _ _ true); eauto.
  - eapply (lh_alloc_null _ _ _ true); eauto.
  - eapply (lh_alloc_throw _ _ _ true); eauto.
  - eapply (lh_free _ _ _ true); eauto.
  - eapply (lh_free_throw _ _ _ true); eauto.
  - eapply lh_release; eauto.
  - eapply lh_release_throw; eauto.
  - eapply lh_coalesce; eauto.
  - eapply lh_coalesce_throw; eauto.
Qed.
