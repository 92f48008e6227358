(** The counters of every allocator in a collection, including those others are built on. *)
From Coq Require Import String.
From Verif Require Import Base BaseFacts HeapModel HeapFacts StratModel StratSpec StratFacts NamingModel GlobalModel GlobalSpec GlobalRun
  GlobalFacts TreeModel TreeSpec.

Definition charged (s : stats) (L : list region) : Prop :=
  exists F, (forall n, In n F -> 0 < n) /\ counts s L F.

(** The same for the resource: the refused requests are among those [malloc] has turned down. *)
Definition charged_host (s : stats) (h : heap) (L : list region) : Prop :=
  exists F G, Permutation (h_refused h) (F ++ G) /\ counts s L F.

Lemma total_perm l l' : Permutation l l' -> total l = total l'.
Proof. induction 1; cbn [total]; lia. Qed.

Lemma w64_add a b : w64 (w64 a + b) = w64 (a + b).
Proof. unfold w64. rewrite Zplus_mod_idemp_l. reflexivity. Qed.
Lemma w64_minus a b : w64 (w64 a - b) = w64 (a - b).
Proof. unfold w64. rewrite Zminus_mod_idemp_l. reflexivity. Qed.

Lemma charged_perm s L L' : Permutation L L' -> charged s L -> charged s L'.
Proof.
  intros HP (F & HF & H1 & H2). exists F. split; [exact HF|]. split.
  - rewrite H1. f_equal. f_equal. apply total_perm, Permutation_map, HP.
  - rewrite H2. f_equal. f_equal. f_equal. apply Permutation_length, HP.
Qed.

Lemma charged_got s L n p : charged s L -> charged (stats_add n s) ((p, n) :: L).
Proof.
  intros (F & HF & H1 & H2). exists F. split; [exact HF|]. unfold counts, stats_add. cbn [st_cur st_cnt map snd total length].
  rewrite H1, H2, !w64_add. split; f_equal; lia.
Qed.

Lemma charged_refused s L n : 0 < n -> charged s L -> charged (stats_add n s) L.
Proof.
  intros Hn (F & HF & H1 & H2). exists (n :: F). split; [intros m [<-|Hm]; auto|]. unfold counts, stats_add. cbn [st_cur st_cnt total length].
  rewrite H1, H2, !w64_add. split; f_equal; lia.
Qed.

Lemma charged_returned s L n p : charged s ((p, n) :: L) -> charged (stats_sub n s) L.
Proof.
  intros (F & HF & H1 & H2). exists F. split; [exact HF|]. unfold counts, stats_sub in *. cbn [st_cur st_cnt map snd total length] in *.
  rewrite H1, H2, !w64_minus. split; f_equal; lia.
Qed.

Lemma charged_start : charged stats0 [].
Proof. exists []. split; [intros n []|]. split; reflexivity. Qed.

Lemma counts_perm s L L' F : Permutation L L' -> counts s L F -> counts s L' F.
Proof.
  intros HP (H1 & H2). split.
  - rewrite H1. f_equal. f_equal. apply total_perm, Permutation_map, HP.
  - rewrite H2. f_equal. f_equal. f_equal. apply Permutation_length, HP.
Qed.

Lemma host_perm s h L L' : Permutation L L' -> charged_host s h L -> charged_host s h L'.
Proof. intros HP (F & G & HF & H). exists F, G. split; [exact HF|]. exact (counts_perm _ _ _ _ HP H). Qed.

Lemma host_got s h h' L n p : h_refused h' = h_refused h -> charged_host s h L -> charged_host (stats_add n s) h' ((p, n) :: L).
Proof.
  intros E (F & G & HF & H1 & H2). exists F, G. rewrite E. split; [exact HF|]. unfold counts, stats_add. cbn [st_cur st_cnt map snd total length].
  rewrite H1, H2, !w64_add. split; f_equal; lia.
Qed.

Lemma host_refused s h h' L n : h_refused h' = n :: h_refused h -> charged_host s h L -> charged_host (stats_add n s) h' L.
Proof.
  intros E (F & G & HF & H1 & H2). exists (n :: F), G. rewrite E. split; [cbn [app]; now constructor|]. unfold counts, stats_add. cbn [st_cur st_cnt total length].
  rewrite H1, H2, !w64_add. split; f_equal; lia.
Qed.

(** A failure the counters do not see. *)
Lemma host_unseen s h h' L n : h_refused h' = n :: h_refused h -> charged_host s h L -> charged_host s h' L.
Proof.
  intros E (F & G & HF & H). exists F, (n :: G). rewrite E. split; [|exact H]. rewrite HF. apply Permutation_middle.
Qed.

Lemma host_returned s h h' L n p : h_refused h' = h_refused h -> charged_host s h ((p, n) :: L) -> charged_host (stats_sub n s) h' L.
Proof.
  intros E (F & G & HF & H1 & H2). exists F, G. rewrite E. split; [exact HF|]. unfold counts, stats_sub in *. cbn [st_cur st_cnt map snd total length] in *.
  rewrite H1, H2, !w64_minus. split; f_equal; lia.
Qed.

Lemma host_alloc_log n h : match p_alloc host n h with
  | Ok h' _ => h_refused h' = h_refused h | Throw h' _ => h_refused h' = n :: h_refused h | _ => False end.
Proof.
  cbn [host p_alloc]. unfold host_allocate, malloc. destruct (h_oracle h (h_step h) (h_live h) n) as [a|b]; [|reflexivity].
  destruct (legal (h_live h) a (at_least_1 n)); reflexivity.
Qed.

Lemma host_dealloc_log p n h : match p_dealloc host p n h with Ok h' _ => h_refused h' = h_refused h | Throw _ _ => False | _ => True end.
Proof.
  cbn [host p_dealloc]. unfold host_deallocate, free. destruct (p =? 0); [reflexivity|].
  destruct (take_block p (h_live h)) as [[m l]|]; [reflexivity|exact I].
Qed.

Fixpoint TInv (C : list nodecfg) : gworld C -> holdings -> Prop :=
  match C return gworld C -> holdings -> Prop with
  | [] => fun w X => heap_own (snd w) (X 0%nat) /\ charged_host (fst w) (snd w) (X 0%nat)
  | c :: C' => fun nw X =>
      exists L, kind_rel (nc_kind c) (snd (fst nw)) (X (S (length C'))) L /\
                charged (fst (fst nw)) (X (S (length C'))) /\
                TInv C' (snd nw) (hold X (nc_parent c) (L ++ X (nc_parent c)))
  end.

Lemma TInv_GI C : forall w X, TInv C w X -> GInv (fun _ _ => True) C w X.
Proof.
  induction C as [|c C IH]; intros w X; cbn [TInv GInv]; [tauto|].
  intros (L & H1 & _ & H2). exists L. auto.
Qed.

Lemma guard_pos k limP s n : kind_guard k limP s n -> 0 < n.
Proof. destruct k; cbn [kind_guard kind_lim]; lia. Qed.

Lemma TInv_ext C : config_ok C -> forall w X Y, hperm (length C) X Y -> TInv C w X -> TInv C w Y.
Proof.
  induction C as [|c C IH]; intros HC w X Y HP HG; cbn [TInv length] in *.
  - destruct HG as ((H1 & H2) & HS). pose proof (HP 0%nat (le_n _)) as HP0. split; [|now apply (host_perm _ _ _ _ HP0)]. split; auto. rewrite H1. exact HP0.
  - destruct (node_ok_lim C c HC) as (limP & E & Hk & HM & Hle). destruct HG as (L & HR & HS & HG). exists L. split; [|split; [apply (charged_perm _ (X (S (length C)))); [apply HP; lia|exact HS]|]].
    + eapply (kind_rel_perm _ _ _ _ _ _ limP Hk HM); [| |exact HR]; [apply HP; lia|reflexivity].
    + destruct HC as [_ HC]. eapply IH; [exact HC| |exact HG]. intros i Hi.
      destruct (Nat.eq_dec i (nc_parent c)) as [->|Hne].
      * rewrite !hold_eq. apply Permutation_app_head, HP. lia.
      * rewrite !hold_ne by auto. apply HP. lia.
Qed.

Lemma TInv_good C w X i : config_ok C -> TInv C w X -> (i <= length C)%nat -> good (X i).
Proof. intros HC HG Hi. exact (GInv_good (fun _ _ => True) C w X i HC (TInv_GI C w X HG) Hi). Qed.

(** Every allocator that may be used as a parent meets the parent contract, whatever else
    is held from all the others. *)
Theorem tgparent_spec C : config_ok C -> forall i lim X, climit C i = Some lim ->
  ParentSpec (gparent C i) lim (fun w L => TInv C w (hold X i (L ++ X i))).
Proof.
  induction C as [|c C IH]; intros HC i lim X Hl.
  - cbn [climit] in Hl. destruct (Nat.eqb_spec i 0) as [->|]; [|discriminate]. assert (lim = M64 - 1) by congruence. subst lim. clear Hl.
    cbn [gparent TInv]. pose proof host_own_spec as HS. constructor.
    + intros [st h] L L' HP. cbn [snd]. rewrite !hold_eq. intros [H H0]. split; [|apply (host_perm _ _ (L ++ X 0%nat)); [now apply Permutation_app_tail|exact H0]]. revert H. apply (ps_perm _ _ _ HS). now apply Permutation_app_tail.
    + intros [st h] L. cbn [snd]. rewrite hold_eq. intros [H _]. apply (ps_good _ _ _ HS), good_app in H. tauto.
    + intros [st h] L n. cbn [snd fst host_internal p_alloc]. rewrite hold_eq. intros [H H0] Hn. apply post_omap.
      pose proof (ps_alloc _ _ _ HS h _ n H Hn) as Ha. pose proof (host_alloc_log n h) as Hlog. cbn [snd] in Ha.
      destruct (p_alloc host n h) as [h' p|h' e| | |]; cbn [post fst snd] in *; auto.
      * rewrite hold_eq. split; [exact Ha|]. cbn [app]. exact (host_got _ _ _ _ _ _ Hlog H0).
      * split; [exact Ha|]. exact (host_refused _ _ _ _ _ Hlog H0).
    + intros [st h] L p n. cbn [snd fst host_internal p_dealloc]. rewrite hold_eq. intros [H H0]. apply post_omap.
      pose proof (ps_dealloc _ _ _ HS h _ p n H) as Ha. pose proof (host_dealloc_log p n h) as Hlog.
      destruct (p_dealloc host p n h) as [h' u|h' e| | |]; cbn [post fst snd] in *; auto.
      rewrite hold_eq. split; [exact Ha|]. exact (host_returned _ _ _ _ _ _ Hlog H0).
  - destruct (node_ok_lim C c HC) as (limP & E & Hk & HM & Hle). cbn [climit] in Hl. cbn [gparent].
    assert (HPERM : forall w L L', Permutation L L' ->
              TInv (c :: C) w (hold X i (L ++ X i)) -> TInv (c :: C) w (hold X i (L' ++ X i))).
    { intros w L L' HP. apply TInv_ext; auto. intros j Hj. destruct (Nat.eq_dec j i) as [->|Hne].
      - rewrite !hold_eq. now apply Permutation_app_tail.
      - rewrite !hold_ne; auto. }
    destruct (Nat.eqb_spec i (S (length C))) as [->|Hi].
    + rewrite E in Hl. pose proof (kind_strat_ok _ _ _ Hk HM Hl) as HSO.
      assert (HPS : ParentSpec (gparent C (nc_parent c)) limP
                (fun w L => TInv C w (hold X (nc_parent c) (L ++ X (nc_parent c))))) by (apply IH; [apply HC|auto]).
      set (InvP := fun w L => TInv C w (hold X (nc_parent c) (L ++ X (nc_parent c)))) in *.
      assert (HI : forall st s w U, TInv (c :: C) ((st, s), w) (hold X (S (length C)) U) <->
                charged st U /\ exists L, kind_rel (nc_kind c) s U L /\ InvP w L).
      { intros st s w U. cbn [TInv fst snd]. rewrite hold_eq. unfold InvP.
        assert (EE : forall L, TInv C w (hold (hold X (S (length C)) U) (nc_parent c) (L ++ hold X (S (length C)) U (nc_parent c)))
                  <-> TInv C w (hold X (nc_parent c) (L ++ X (nc_parent c)))).
        { intros L. assert (HH : hperm (length C) (hold (hold X (S (length C)) U) (nc_parent c) (L ++ hold X (S (length C)) U (nc_parent c)))
                                 (hold X (nc_parent c) (L ++ X (nc_parent c)))).
          { intros j Hj. destruct (Nat.eq_dec j (nc_parent c)) as [->|Hne].
            - rewrite !hold_eq. rewrite hold_ne by lia. reflexivity.
            - rewrite !hold_ne by (auto; lia). reflexivity. }
          split; apply TInv_ext; try apply HC; auto. intros j Hj. apply Permutation_sym, HH, Hj. }
        split; [intros (L & H1 & H0 & H2); (split; [exact H0|])|intros (H0 & L & H1 & H2)]; exists L; (split; [exact H1|]); try (split; [exact H0|]); now apply EE. }
      constructor.
      * exact HPERM.
      * intros w L HG. pose proof (TInv_good _ _ _ (S (length C)) HC HG (le_n _)) as G.
        rewrite hold_eq in G. apply good_app in G. tauto.
      * intros [[st s] w] U n HG Hn. apply HI in HG as (HS & L & HR & HW).
        cbn [internal p_alloc allocate_internal]. apply post_omap.
        eapply post_impl; [| |apply (so_alloc _ _ _ _ HSO _ _ InvP s w _ L n HPS HR HW Hn)].
        -- intros [s' w'] p (L' & H1 & H2). apply (HI _ _ _ ((p, n) :: U ++ X (S (length C)))). cbn [fst snd] in *. split; [now apply charged_got|]. exists L'. auto.
        -- intros [s' w'] e (L' & H1 & H2). apply HI. cbn [fst snd] in *. split; [apply charged_refused; [lia|exact HS]|]. exists L'. auto.
      * intros [[st s] w] U p n HG. apply HI in HG as (HS & L & HR & HW).
        cbn [internal p_dealloc deallocate_internal]. apply post_omap.
        eapply post_impl; [| |apply (so_dealloc _ _ _ _ HSO _ _ InvP s w _ L p n (st_cur (stats_sub n st)) HPS HR HW)]; auto.
        intros [s' w'] u (L' & H1 & H2). apply HI. cbn [fst snd] in *. split; [exact (charged_returned _ _ _ _ HS)|]. exists L'. auto.
    + assert (Hile : (i <= length C)%nat) by (destruct (climit_lt C (config_ok_all C (proj2 HC)) _ _ Hl); lia).
      assert (HI : forall a w U, TInv (c :: C) (a, w) (hold X i U) <->
                exists L, kind_rel (nc_kind c) (snd a) (X (S (length C))) L /\
                          charged (fst a) (X (S (length C))) /\
                          TInv C w (hold (hold X (nc_parent c) (L ++ X (nc_parent c))) i
                             (if Nat.eqb i (nc_parent c) then L ++ U else U))).
      { intros a w U. cbn [TInv fst snd].
        assert (EE : forall L, TInv C w (hold (hold X i U) (nc_parent c) (L ++ hold X i U (nc_parent c)))
                  <-> TInv C w (hold (hold X (nc_parent c) (L ++ X (nc_parent c))) i (if Nat.eqb i (nc_parent c) then L ++ U else U))).
        { intros L. assert (HH : hperm (length C) (hold (hold X i U) (nc_parent c) (L ++ hold X i U (nc_parent c)))
             (hold (hold X (nc_parent c) (L ++ X (nc_parent c))) i (if Nat.eqb i (nc_parent c) then L ++ U else U))).
          { intros j Hj. unfold hold. destruct (Nat.eqb_spec j (nc_parent c)) as [->|N1].
            - rewrite (Nat.eqb_sym i). destruct (Nat.eqb_spec (nc_parent c) i); reflexivity.
            - destruct (Nat.eqb_spec j i) as [->|N2]; [|reflexivity].
              destruct (Nat.eqb_spec i (nc_parent c)); [congruence|reflexivity]. }
          split; apply TInv_ext; try apply HC; auto. intros j Hj. apply Permutation_sym, HH, Hj. }
        assert (ER : hold X i U (S (length C)) = X (S (length C))) by (apply hold_ne; lia).
        rewrite ER. split; intros (L & H1 & H0 & H2); exists L; (split; [exact H1|]); (split; [exact H0|]); now apply EE. }
      assert (HPS : forall L, ParentSpec (gparent C i) lim
                (fun w U => TInv C w (hold (hold X (nc_parent c) (L ++ X (nc_parent c))) i
                             (if Nat.eqb i (nc_parent c) then L ++ U ++ X i else U ++ X i)))).
      { intros L. pose proof (IH (proj2 HC) i lim (hold X (nc_parent c) (L ++ X (nc_parent c))) Hl) as H.
        set (Y := hold X (nc_parent c) (L ++ X (nc_parent c))) in *.
        assert (EQ : forall w U, TInv C w (hold Y i (if Nat.eqb i (nc_parent c) then L ++ U ++ X i else U ++ X i)) <->
                     TInv C w (hold Y i (U ++ Y i))).
        { intros w U. assert (HH : hperm (length C) (hold Y i (if Nat.eqb i (nc_parent c) then L ++ U ++ X i else U ++ X i)) (hold Y i (U ++ Y i))).
          { intros j Hj. unfold hold at 1 2. destruct (Nat.eqb_spec j i) as [->|N]; [|reflexivity].
            unfold Y, hold. rewrite (Nat.eqb_sym). destruct (Nat.eqb_spec (nc_parent c) i) as [->|N2].
            - apply Permutation_app_swap_app.
            - reflexivity. }
          split; apply TInv_ext; try apply HC; auto. intros j Hj. apply Permutation_sym, HH, Hj. }
        destruct H as [P1 P2 P3 P4]. constructor.
        - intros w U U' HP HG. apply EQ. apply EQ in HG. eapply P1; eauto.
        - intros w U HG. apply EQ in HG. eapply P2; eauto.
        - intros w U n HG Hn. apply EQ in HG. eapply post_impl; [| |apply (P3 w U n HG Hn)].
          + intros w' p Hw. apply EQ. exact Hw.
          + intros w' e Hw. apply EQ. exact Hw.
        - intros w U p n HG. apply EQ in HG. eapply post_impl; [| |apply (P4 w U p n HG)]; auto.
          intros w' u Hw. apply EQ. exact Hw. }
      constructor.
      * exact HPERM.
      * intros w L HG. pose proof (TInv_good _ _ _ i HC HG ltac:(cbn [length]; lia)) as G.
        rewrite hold_eq in G. apply good_app in G. tauto.
      * intros [a w] U n HG Hn. apply HI in HG as (L & HR & HS & HW).
        cbn [lift_parent p_alloc fst snd]. apply post_omap.
        eapply post_impl; [| |apply (ps_alloc _ _ _ (HPS L) w U n)]; auto.
        -- intros w' p Hw. apply HI. exists L. auto.
        -- intros w' e Hw. apply HI. exists L. auto.
      * intros [a w] U p n HG. apply HI in HG as (L & HR & HS & HW).
        cbn [lift_parent p_dealloc fst snd]. apply post_omap.
        eapply post_impl; [| |apply (ps_dealloc _ _ _ (HPS L) w U p n)]; auto.
        intros w' u Hw. apply HI. exists L. auto.
Qed.

(** ** The program's operations *)

Lemma thold_top_ext C c w L X U : config_ok (c :: C) ->
  TInv C w (hold (hold X (S (length C)) U) (nc_parent c) (L ++ hold X (S (length C)) U (nc_parent c))) <->
  TInv C w (hold X (nc_parent c) (L ++ X (nc_parent c))).
Proof.
  intros HC. destruct (node_ok_lim C c HC) as (limP & E & Hk & HM & Hle).
  assert (HH : hperm (length C) (hold (hold X (S (length C)) U) (nc_parent c) (L ++ hold X (S (length C)) U (nc_parent c)))
                           (hold X (nc_parent c) (L ++ X (nc_parent c)))).
  { intros j Hj. destruct (Nat.eq_dec j (nc_parent c)) as [->|Hne].
    - rewrite !hold_eq. rewrite hold_ne by lia. reflexivity.
    - rewrite !hold_ne by (auto; lia). reflexivity. }
  split; apply TInv_ext; try apply HC; auto. intros j Hj. apply Permutation_sym, HH, Hj.
Qed.

Lemma thold_low_ext C c w L X i U : config_ok (c :: C) -> (i <= length C)%nat ->
  TInv C w (hold (hold X (nc_parent c) (L ++ X (nc_parent c))) i
              (if Nat.eqb i (nc_parent c) then L ++ U else U)) <->
  TInv C w (hold (hold X i U) (nc_parent c) (L ++ hold X i U (nc_parent c))).
Proof.
  intros HC Hi.
  assert (HH : hperm (length C) (hold (hold X (nc_parent c) (L ++ X (nc_parent c))) i (if Nat.eqb i (nc_parent c) then L ++ U else U))
     (hold (hold X i U) (nc_parent c) (L ++ hold X i U (nc_parent c)))).
  { intros j Hj. unfold hold. destruct (Nat.eqb_spec j (nc_parent c)) as [->|N1].
    - rewrite (Nat.eqb_sym i). destruct (Nat.eqb_spec (nc_parent c) i); reflexivity.
    - destruct (Nat.eqb_spec j i) as [->|N2]; [|reflexivity].
      destruct (Nat.eqb_spec i (nc_parent c)); [congruence|reflexivity]. }
  split; apply TInv_ext; try apply HC; auto. intros j Hj. apply Permutation_sym, HH, Hj.
Qed.

Lemma tuser_alloc_ok C : config_ok C -> forall i n X w, TInv C w X -> user_guard C i n w ->
  (i <= length C)%nat /\
  post (p_alloc (guser C i) n w)
    (fun w' p => TInv C w' (if p =? 0 then X else hold X i ((p, n) :: X i)))
    (fun w' _ => TInv C w' X).
Proof.
  induction C as [|c C IH]; intros HC i n X w HG Hu.
  - cbn [user_guard] in Hu. destruct Hu as [-> Hn]. split; [auto|]. destruct w as [st h].
    cbn [guser p_alloc TInv fst snd] in *. destruct HG as [HG HS].
    pose proof (ps_alloc _ _ _ host_own_spec h _ n HG ltac:(lia)) as Ha.
    pose proof (host_alloc_log n h) as Hlog.
    destruct (p_alloc host n h) as [h' p|h' e| | |]; cbn [post fst snd] in *; auto.
    + rewrite (good_nonnull _ _ _ (ps_good _ _ _ host_own_spec _ _ Ha)). rewrite hold_eq. split; [exact Ha|]. exact (host_got _ _ _ _ _ _ Hlog HS).
    + split; [exact Ha|]. exact (host_unseen _ _ _ _ _ Hlog HS).
  - destruct (node_ok_lim C c HC) as (limP & E & Hk & HM & Hle).
    cbn [user_guard] in Hu. cbn [guser]. destruct w as [[st s] w]. cbn [fst snd] in Hu.
    destruct HG as (L & HR & HS & HG). cbn [fst snd] in HR, HS, HG.
    destruct (Nat.eqb_spec i (S (length C))) as [->|Hi].
    + split; [cbn; lia|]. rewrite E in Hu. cbn [p_alloc fst snd].
      pose proof (tgparent_spec C (proj2 HC) _ _ X E) as HPS.
      pose proof (lo_alloc _ _ _ _ _ (kind_leaf_ok _ limP Hk HM) _ _ _ s w _ L n HPS HR HG Hu) as Ha.
      destruct (st_alloc (strat_of (nc_kind c)) (gworld C) (gparent C (nc_parent c)) n (s, w)) as [[s' w'] p|[s' w'] e| | |];
        cbn [post fst snd] in *; auto.
      * destruct Ha as (L' & H1 & H2). exists L'. cbn [fst snd]. destruct (p =? 0).
        { split; [exact H1|]. split; [|exact H2]. apply charged_refused; [|exact HS]. exact (guard_pos _ _ _ _ Hu). }
        rewrite hold_eq. split; [exact H1|]. split; [now apply charged_got|]. now apply thold_top_ext.
      * destruct Ha as (L' & H1 & H2). exists L'. auto.
    + destruct (IH (proj2 HC) i n _ w HG Hu) as [Hile Ha]. split; [cbn; lia|].
      cbn [lift_parent p_alloc fst snd]. apply post_omap.
      eapply post_imp; [exact Ha| |].
      * intros w' p Hw. cbv beta in Hw. exists L. cbn [fst snd]. destruct (p =? 0); [auto|].
        rewrite hold_ne by lia. split; [exact HR|]. split; [exact HS|]. apply thold_low_ext; auto.
        eapply TInv_ext; [apply HC| |exact Hw]. intros j Hj. unfold hold.
        destruct (Nat.eqb_spec j i) as [->|]; [|reflexivity].
        destruct (Nat.eqb_spec i (nc_parent c)) as [->|]; [|reflexivity].
        apply Permutation_middle.
      * intros w' e Hw. exists L. auto.
Qed.

Lemma tuser_free_ok C : config_ok C -> forall i p n l X w, TInv C w X -> (i <= length C)%nat ->
  Permutation (X i) ((p, n) :: l) ->
  post (p_dealloc (guser C i) p n w)
    (fun w' _ => TInv C w' (hold X i l))
    (fun w' _ => coalescing (kind_at C i) /\ TInv C w' (hold X i l)).
Proof.
  induction C as [|c C IH]; intros HC i p n l X w HG Hi HX.
  - cbn [length] in Hi. assert (i = 0%nat) as -> by lia. destruct w as [st h].
    cbn [guser host_internal p_dealloc TInv fst snd] in *. destruct HG as [HG HS]. apply post_omap.
    apply (host_perm _ _ _ _ HX) in HS.
    pose proof (ps_dealloc _ _ _ host_own_spec h l p n (ps_perm _ _ _ host_own_spec _ _ _ HX HG)) as Ha.
    pose proof (host_dealloc_log p n h) as Hlog.
    destruct (p_dealloc host p n h) as [h' u|h' e| | |]; cbn [post fst snd] in *; auto; [|destruct Ha].
    rewrite hold_eq. split; [exact Ha|]. exact (host_returned _ _ _ _ _ _ Hlog HS).
  - destruct (node_ok_lim C c HC) as (limP & E & Hk & HM & Hle).
    cbn [guser]. rewrite kind_at_cons. destruct w as [[st s] w].
    destruct HG as (L & HR & HS & HG). cbn [fst snd] in HR, HS, HG.
    destruct (Nat.eqb_spec i (S (length C))) as [->|Hne].
    + cbn [p_dealloc deallocate_internal fst snd]. apply post_omap. pose proof (charged_perm _ _ _ HX HS) as HS'. apply charged_returned in HS'.
      pose proof (tgparent_spec C (proj2 HC) _ _ X E) as HPS.
      pose proof (kind_leaf_ok _ limP Hk HM) as HL.
      assert (HR' : kind_rel (nc_kind c) s ((p, n) :: l) L).
      { eapply (kind_rel_perm _ _ _ _ _ _ limP Hk HM); [exact HX|reflexivity|exact HR]. }
      eapply post_imp; [apply (lo_dealloc _ _ _ _ _ HL _ _ _ s w l L p n (st_cur (stats_sub n st)) HPS HR' HG)| |].
      * intros [s' w'] u (L' & H1 & H2). cbn [fst snd] in *. exists L'. cbn [fst snd].
        rewrite hold_eq. split; [exact H1|]. split; [exact HS'|]. now apply thold_top_ext.
      * intros [s' w'] u (Hl & L' & H1 & H2). cbn [fst snd] in *. split; [destruct (nc_kind c); exact Hl|]. exists L'. cbn [fst snd].
        rewrite hold_eq. split; [exact H1|]. split; [exact HS'|]. now apply thold_top_ext.
    + cbn [length] in Hi. cbn [lift_parent p_dealloc fst snd]. apply post_omap.
      set (Y := hold X (nc_parent c) (L ++ X (nc_parent c))) in *.
      set (l' := if Nat.eqb i (nc_parent c) then L ++ l else l).
      assert (HY : Permutation (Y i) ((p, n) :: l')).
      { unfold Y, l', hold. destruct (Nat.eqb_spec i (nc_parent c)) as [<-|]; [|exact HX].
        rewrite HX. apply Permutation_sym, Permutation_middle. }
      eapply post_imp; [apply (IH (proj2 HC) i p n l' Y w HG ltac:(lia) HY)| |].
      * intros w' u Hw. exists L. cbn [fst snd]. rewrite hold_ne by lia. split; [exact HR|]. split; [exact HS|].
        apply thold_low_ext; auto. lia.
      * intros w' u [Hl Hw]. split; [exact Hl|]. exists L. cbn [fst snd]. rewrite hold_ne by lia. split; [exact HR|]. split; [exact HS|].
        apply thold_low_ext; auto. lia.
Qed.

Lemma tgrelease_ok C : config_ok C -> forall i X w, TInv C w X ->
  post (grelease C i w) (fun w' _ => TInv C w' X) (fun w' _ => TInv C w' X).
Proof.
  induction C as [|c C IH]; intros HC i X w HG; [exact HG|].
  destruct (node_ok_lim C c HC) as (limP & E & Hk & HM & Hle).
  cbn [grelease]. destruct w as [[st s] w]. destruct HG as (L & HR & HS & HG). cbn [fst snd] in *.
  destruct (Nat.eqb_spec i (S (length C))) as [->|Hne]; apply post_omap.
  - pose proof (tgparent_spec C (proj2 HC) _ _ X E) as HPS.
    pose proof (lo_release _ _ _ _ _ (kind_leaf_ok _ limP Hk HM) _ _ _ s w _ L HPS HR HG) as H.
    eapply post_imp; [exact H| |]; intros [s' w'] u (L' & H1 & H2); exists L'; auto.
  - eapply post_imp; [apply (IH (proj2 HC) i _ w HG)| |]; intros w' u Hw; exists L; auto.
Qed.

Lemma tgcoalesce_ok C : config_ok C -> forall i X w, TInv C w X ->
  post (gcoalesce C i w) (fun w' _ => TInv C w' X) (fun w' _ => TInv C w' X).
Proof.
  induction C as [|c C IH]; intros HC i X w HG; [exact HG|].
  destruct (node_ok_lim C c HC) as (limP & E & Hk & HM & Hle).
  cbn [gcoalesce]. destruct w as [[st s] w]. destruct HG as (L & HR & HS & HG). cbn [fst snd] in *.
  destruct (Nat.eqb_spec i (S (length C))) as [->|Hne]; apply post_omap.
  - pose proof (tgparent_spec C (proj2 HC) _ _ X E) as HPS.
    pose proof (lo_coalesce _ _ _ _ _ (kind_leaf_ok _ limP Hk HM) _ _ _ s w _ L (st_cur st) HPS HR HG) as H.
    eapply post_imp; [exact H| |]; intros [s' w'] u (L' & H1 & H2); exists L'; auto.
  - eapply post_imp; [apply (IH (proj2 HC) i _ w HG)| |]; intros w' u Hw; exists L; auto.
Qed.

Lemma tgcreate_ok C c : config_ok (c :: C) -> 
  forall X w, TInv C w X -> X (S (length C)) = [] ->
  post (gcreate C c w) (fun _ v => TInv (c :: C) v X) (fun w' _ => TInv C w' X).
Proof.
  intros HC X w HG HX. destruct (node_ok_lim C c HC) as (limP & E & Hk & HM & Hle).
  pose proof (tgparent_spec C (proj2 HC) _ _ X E) as HPS.
  assert (HG0 : TInv C w (hold X (nc_parent c) ([] ++ X (nc_parent c)))).
  { eapply TInv_ext; [apply HC| |exact HG]. intros j Hj. unfold hold.
    destruct (Nat.eqb_spec j (nc_parent c)) as [->|]; reflexivity. }
  pose proof (lo_make _ _ _ _ _ (kind_leaf_ok _ limP Hk HM) _ _ _ w HPS HG0) as H.
  unfold gcreate.
  destruct (st_make (strat_of (nc_kind c)) (gworld C) (gparent C (nc_parent c)) w) as [w' s|w' e| | |]; cbn [post] in *; auto.
  - destruct H as (L & H1 & H2). exists L. cbn [fst snd]. rewrite HX. split; [exact H1|]. split; [apply charged_start|exact H2].
  - eapply TInv_ext; [apply HC| |exact H]. intros j Hj. unfold hold.
    destruct (Nat.eqb_spec j (nc_parent c)) as [->|]; reflexivity.
Qed.

Theorem ghist_tinv C w X : ghist C w X ->
  config_ok C /\ TInv C w X /\ (forall i, (length C < i)%nat -> X i = []).
Proof.
  induction 1 as [orc|C w X c w' v H (HC & HG & HX) Hn E|C w X c w' e H (HC & HG & HX) Hn E
                 |C w X i n w' p H (HC & HG & HX) Hu E Hp|C w X i n w' H (HC & HG & HX) Hu E
                 |C w X i n w' e H (HC & HG & HX) Hu E|C w X i p n l1 l2 w' H (HC & HG & HX) Hl E
                 |C w X i p n l1 l2 w' e H (HC & HG & HX) Hl E
                 |C w X i w' H (HC & HG & HX) E|C w X i w' e H (HC & HG & HX) E
                 |C w X i w' H (HC & HG & HX) E|C w X i w' e H (HC & HG & HX) E].
  - split; [exact I|]. split; [|auto]. cbn. split; [|exists [], []; split; [constructor|split; reflexivity]]. split; [constructor|apply good_nil].
  - assert (HC' : config_ok (c :: C)) by (split; auto). split; [exact HC'|].
    pose proof (tgcreate_ok C c HC' X w HG (HX _ (le_n _))) as Hc. rewrite E in Hc. split; [exact Hc|].
    intros i Hi. apply HX. cbn [length] in Hi. lia.
  - assert (HC' : config_ok (c :: C)) by (split; auto). split; [exact HC|].
    pose proof (tgcreate_ok C c HC' X w HG (HX _ (le_n _))) as Hc. rewrite E in Hc. auto.
  - destruct (tuser_alloc_ok C HC i n X w HG Hu) as [Hi Ha]. rewrite E in Ha. cbn [post] in Ha.
    split; [exact HC|]. split.
    + destruct (Z.eqb_spec p 0); [contradiction|exact Ha].
    + intros j Hj. rewrite hold_ne by lia. auto.
  - destruct (tuser_alloc_ok C HC i n X w HG Hu) as [Hi Ha]. rewrite E in Ha. auto.
  - destruct (tuser_alloc_ok C HC i n X w HG Hu) as [Hi Ha]. rewrite E in Ha. auto.
  - assert (Hi : (i <= length C)%nat).
    { destruct (le_lt_dec i (length C)) as [|Hi]; auto. rewrite (HX i Hi) in Hl. destruct l1; discriminate. }
    assert (HP : Permutation (X i) ((p, n) :: l1 ++ l2)) by (rewrite Hl; apply Permutation_sym, Permutation_middle).
    pose proof (tuser_free_ok C HC i p n (l1 ++ l2) X w HG Hi HP) as Hf. rewrite E in Hf.
    split; [exact HC|]. split; [exact Hf|]. intros j Hj. rewrite hold_ne by lia. auto.
  - assert (Hi : (i <= length C)%nat).
    { destruct (le_lt_dec i (length C)) as [|Hi]; auto. rewrite (HX i Hi) in Hl. destruct l1; discriminate. }
    assert (HP : Permutation (X i) ((p, n) :: l1 ++ l2)) by (rewrite Hl; apply Permutation_sym, Permutation_middle).
    pose proof (tuser_free_ok C HC i p n (l1 ++ l2) X w HG Hi HP) as Hf. rewrite E in Hf. destruct Hf as [_ Hf].
    split; [exact HC|]. split; [exact Hf|]. intros j Hj. rewrite hold_ne by lia. auto.
  - pose proof (tgrelease_ok C HC i X w HG) as Hr. rewrite E in Hr. auto.
  - pose proof (tgrelease_ok C HC i X w HG) as Hr. rewrite E in Hr. auto.
  - pose proof (tgcoalesce_ok C HC i X w HG) as Hr. rewrite E in Hr. auto.
  - pose proof (tgcoalesce_ok C HC i X w HG) as Hr. rewrite E in Hr. auto.
Qed.

(** ** What is out of each allocator *)

Lemma built_ext C B B' i : (forall j, (1 <= j <= length C)%nat -> B j = B' j) -> built C B i = built C B' i.
Proof.
  induction C as [|c C IH]; intros H; cbn [built]; [reflexivity|]. cbn [length] in H.
  rewrite IH by (intros j Hj; apply H; lia). rewrite H by lia. reflexivity.
Qed.

Lemma built_beyond C : config_ok C -> forall B i, (length C <= i)%nat -> (1 <= i)%nat -> built C B i = [].
Proof.
  induction C as [|c C IH]; intros HC B i Hi H1; cbn [built]; [reflexivity|]. cbn [length] in Hi.
  destruct (node_ok_lim C c HC) as (limP & E & Hk & HM & Hle).
  destruct (Nat.eqb_spec (nc_parent c) i) as [Ei|_]; [lia|]. apply IH; [apply HC|lia|lia].
Qed.

Lemma TInv_out C : config_ok C -> forall w X, TInv C w X ->
  exists B,
    charged_host (gstats C 0 w) (gheap C w) (out C X B 0) /\
    (forall i, (1 <= i <= length C)%nat -> charged (gstats C i w) (out C X B i)) /\
    Permutation (h_live (gheap C w)) (out C X B 0) /\
    (forall i, (i <= length C)%nat -> good (out C X B i)) /\
    (forall i, (1 <= i <= length C)%nat -> covered (out C X B i) (B i)).
Proof.
  induction C as [|c C IH]; intros HC w X HG.
  - exists (fun _ => []). unfold out. cbn [built gstats gheap length]. destruct HG as [[H1 H2] H3]. rewrite !app_nil_r.
    split; [exact H3|]. split; [intros i Hi; lia|]. split; [exact H1|]. split; [|intros i Hi; lia].
    intros i Hi. assert (i = 0%nat) as -> by lia. rewrite app_nil_r. now apply (good_perm _ _ H1).
  - destruct (node_ok_lim C c HC) as (limP & E & Hk & HM & Hle). pose proof (GInv_good _ (c :: C) w X (S (length C)) HC (TInv_GI _ _ _ HG) (le_n _)) as HT.
    destruct HG as (L & HR & HS & HG).
    assert (HL : good L).
    { pose proof (TInv_good C _ _ (nc_parent c) (proj2 HC) HG Hle) as H. rewrite hold_eq in H. apply good_app in H. tauto. }
    destruct (IH (proj2 HC) _ _ HG) as (B & H0 & H1 & H2 & H4 & H3).
    set (B' := hold B (S (length C)) L). exists B'.
    assert (EB : forall i, built C B' i = built C B i).
    { intros i. apply built_ext. intros j Hj. unfold B'. apply hold_ne. lia. }
    assert (EO : forall i, (i <= length C)%nat -> Permutation (out C (hold X (nc_parent c) (L ++ X (nc_parent c))) B i) (out (c :: C) X B' i)).
    { intros i Hi. unfold out. cbn [built]. rewrite EB. unfold B' at 1. rewrite hold_eq. unfold hold.
      rewrite (Nat.eqb_sym (nc_parent c) i). destruct (Nat.eqb_spec i (nc_parent c)) as [<-|]; [|reflexivity].
      rewrite <- app_assoc. apply Permutation_app_swap_app. }
    assert (ET : out (c :: C) X B' (S (length C)) = X (S (length C))).
    { unfold out. cbn [built]. destruct (Nat.eqb_spec (nc_parent c) (S (length C))) as [|_]; [lia|].
      rewrite EB, (built_beyond C (proj2 HC) B (S (length C))) by lia. cbn [app]. apply app_nil_r. }
    split; [|split; [|split; [|split]]].
    + cbn [gstats gheap Nat.eqb]. exact (host_perm _ _ _ _ (EO 0%nat ltac:(lia)) H0).
    + intros i Hi. cbn [gstats]. destruct (Nat.eqb_spec i (S (length C))) as [->|Hne].
      * rewrite ET. exact HS.
      * cbn [length] in Hi. apply (charged_perm _ _ _ (EO i ltac:(lia))). apply H1. lia.
    + cbn [gheap]. rewrite H2. apply EO. lia.
    + intros i Hi. destruct (Nat.eq_dec i (S (length C))) as [->|Hne]; [rewrite ET; exact HT|].
      cbn [length] in Hi. apply (good_perm _ _ (EO i ltac:(lia))). apply H4. lia.
    + intros i Hi. destruct (Nat.eq_dec i (S (length C))) as [->|Hne].
      * rewrite ET. unfold B'. rewrite hold_eq. exact (proj2 (lo_inside _ _ _ _ _ (kind_leaf_ok _ limP Hk HM) _ _ _ HR HL)).
      * cbn [length] in Hi. unfold B'. rewrite hold_ne by lia.
        specialize (H3 i ltac:(lia)). intros x Hx. apply H3. apply (Permutation_in _ (Permutation_sym (EO i ltac:(lia)))). exact Hx.
Qed.

Lemma tree_counts C w X : ghist C w X ->
  exists B,
    Permutation (h_live (gheap C w)) (out C X B 0) /\
    (forall i, (i <= length C)%nat -> good (out C X B i)) /\
    (forall i r, (1 <= i <= length C)%nat -> In r (out C X B i) -> exists b, In b (B i) /\ inside r b) /\
    (exists F G, Permutation (h_refused (gheap C w)) (F ++ G) /\ counts (gstats C 0 w) (out C X B 0) F) /\
    forall i, (1 <= i <= length C)%nat ->
      exists F, (forall n, In n F -> 0 < n) /\ counts (gstats C i w) (out C X B i) F.
Proof.
  intros H. destruct (ghist_tinv C w X H) as (HC & HT & _). destruct (TInv_out C HC w X HT) as (B & H0 & H1 & H2 & H3 & H4).
  exists B. split; [exact H2|]. split; [exact H3|]. split; [intros i r Hi Hr; exact (H4 i Hi r Hr)|]. split; [exact H0|exact H1].
Qed.

Lemma total_sumZ l : total l = sumZ l.
Proof. induction l as [|x l IH]; [reflexivity|]. cbn [total]. rewrite IH. reflexivity. Qed.

Lemma good_length L : good L -> Z.of_nat (length L) <= total (map snd L).
Proof.
  induction L as [|[p n] l IH]; cbn [map snd total length]; [lia|]. intros H. apply good_cons in H as ((_ & H & _) & _ & H2).
  cbn [snd] in H. specialize (IH H2). lia.
Qed.

Lemma tree_host C w X : ghist C w X -> h_refused (gheap C w) = [] ->
  st_cur (gstats C 0 w) = total (map snd (h_live (gheap C w))) /\
  st_cnt (gstats C 0 w) = Z.of_nat (length (h_live (gheap C w))).
Proof.
  intros H E. destruct (tree_counts C w X H) as (B & HL & HG & _ & (F & G & HF & H1 & H2) & _).
  rewrite E in HF. apply Permutation_nil, app_eq_nil in HF as [-> _]. cbn [total length] in H1, H2.
  specialize (HG 0%nat (Nat.le_0_l _)). pose proof (good_sum _ HG) as HS. rewrite <- total_sumZ in HS. pose proof (good_length _ HG) as Hl.
  rewrite (total_perm _ _ (Permutation_map snd HL)), (Permutation_length HL), H1, H2.
  assert (ASP < M64) by reflexivity. unfold w64. rewrite !Z.mod_small by lia. split; lia.
Qed.

(** ** NamingShim *)

Lemma shim_counts m_name W (f : string -> Z -> W -> outcome W Z) (g : Z -> Z -> W -> outcome W unit) asked gone s :
  shim_uses m_name f g asked gone s ->
  st_cur (fst (snd s)) = w64 (total asked) /\ st_cnt (fst (snd s)) = w64 (Z.of_nat (length asked) - Z.of_nat gone).
Proof.
  assert (HA : forall n s s' o, shim_allocate m_name f n s = o -> (exists p, o = Ok s' p) \/ (exists e, o = Throw s' e) ->
    fst (snd s') = stats_add n (fst (snd s))).
  { intros n [c [st w]] s' o Eo H. unfold shim_allocate, ns_allocate, allocate_named_internal in Eo. cbn [fst snd] in *.
    destruct (f (ns_name m_name c) n w) as [w' p|w' e| | |]; cbn [omap] in Eo; subst o;
      destruct H as [[q H]|[e' H]]; inversion H; reflexivity. }
  assert (HD : forall p n s s' o, shim_deallocate g p n s = o -> (o = Ok s' tt) \/ (exists e, o = Throw s' e) ->
    fst (snd s') = stats_sub 0 (fst (snd s))).
  { intros p n [c [st w]] s' o Eo H. unfold shim_deallocate, ns_deallocate, plain_deallocate_internal in Eo. cbn [fst snd] in *.
    destruct (g p 0 w) as [w' q|w' e| | |]; cbn [omap] in Eo; subst o;
      destruct H as [H|[e' H]]; inversion H; reflexivity. }
  induction 1 as [w|asked gone s n s' p H [I1 I2] E|asked gone s n s' e H [I1 I2] E|asked gone s p n s' H [I1 I2] E|asked gone s p n s' e H [I1 I2] E].
  - split; reflexivity.
  - rewrite (HA _ _ s' _ E) by eauto. unfold stats_add. cbn [st_cur st_cnt total length]. rewrite I1, I2, !w64_add. split; f_equal; lia.
  - rewrite (HA _ _ s' _ E) by eauto. unfold stats_add. cbn [st_cur st_cnt total length]. rewrite I1, I2, !w64_add. split; f_equal; lia.
  - rewrite (HD _ _ _ s' _ E) by eauto. unfold stats_sub. cbn [st_cur st_cnt]. rewrite I1, I2, !w64_minus. split; f_equal; lia.
  - rewrite (HD _ _ _ s' _ E) by eauto. unfold stats_sub. cbn [st_cur st_cnt]. rewrite I1, I2, !w64_minus. split; f_equal; lia.
Qed.

(** One allocation that comes and goes. *)
Lemma shim_drift m_name n : 0 < n < ASP - 16 ->
  exists c st h, shim_uses m_name (fun _ => p_alloc host) (p_dealloc host) [n] 1 (c, (st, h)) /\
    h_live h = [] /\ h_refused h = [] /\ st_cur st = n /\ st_cnt st = 0.
Proof.
  intros Hn. set (orc := fun (_ : nat) (_ : list region) (_ : Z) => Addr 16).
  assert (E1 : shim_allocate m_name (fun _ => p_alloc host) n (0, (stats0, mkHeap orc 0 [] [])) =
               Ok (1, (stats_add n stats0, mkHeap orc 1 [(16, n)] [])) 16).
  { unfold shim_allocate, ns_allocate, allocate_named_internal. cbn [host p_alloc fst snd]. unfold host_allocate, malloc. cbn [h_oracle h_step h_live h_refused orc].
    unfold legal, at_least_1. replace (n <? 1) with false by lia. replace (16 + n <=? ASP) with true by lia. reflexivity. }
  assert (E2 : shim_deallocate (p_dealloc host) 16 n (1, (stats_add n stats0, mkHeap orc 1 [(16, n)] [])) =
               Ok (1, (stats_sub 0 (stats_add n stats0), mkHeap orc 1 [] [])) tt) by reflexivity.
  exists 1, (stats_sub 0 (stats_add n stats0)), (mkHeap orc 1 [] []). split.
  - eapply su_free; [|exact E2]. eapply su_alloc; [|exact E1]. apply su_start.
  - assert (HS : shim_uses m_name (fun _ => p_alloc host) (p_dealloc host) [n] 1 (1, (stats_sub 0 (stats_add n stats0), mkHeap orc 1 [] []))).
    { eapply su_free; [|exact E2]. eapply su_alloc; [|exact E1]. apply su_start. }
    apply shim_counts in HS as [H1 H2]. cbn [fst snd total length] in H1, H2. split; [reflexivity|]. split; [reflexivity|].
    rewrite H1, H2. unfold w64. rewrite Z.mod_small by (unfold ASP, M64 in *; lia). split; [lia|reflexivity].
Qed.
