(** Lemmas behind the FixedPool properties. *)
From Verif Require Import Base BaseFacts StratModel StratFacts StratSpec StratThms FixedPoolModel FixedPoolFacts.

(** The largest number of allocations alive at the same time so far. *)
Fixpoint peak (t : list ev) : nat :=
  match t with
  | [] => 0%nat
  | e :: t' => Nat.max (length (live t)) (peak t')
  end.

Local Ltac same E H := let H' := fresh in pose proof (eq_trans (eq_sym E) H) as H'; clear H; rename H' into H.

Section FixedPoolThms.
  Context (obj : Z) (per : nat) (fuel : nat) {W : Type} (P : Parent W) (limP : Z) (Inv : W -> list region -> Prop).
  Hypothesis PS : ParentSpec P limP Inv.
  Hypothesis Hobj : 0 < obj.
  Hypothesis Hper : (0 < per)%nat.
  Hypothesis Hl : obj * Z.of_nat per <= limP.
  Hypothesis HM : limP < M64.
  Notation FP := (FixedPool obj per fuel).
  Notation Runs := (runs FP P Inv).

  Lemma fxt_inv t sw : Runs t sw -> (forall n, In n (requests t) -> n <= obj) ->
    exists L, fx_rel obj per (fst sw) (live t) L /\ Inv (snd sw) L.
  Proof.
    intros Hr Hq.
    apply (runs_inv FP P Inv (fx_rel obj per) (fun _ n => 0 < n <= obj) limP
             (fun t => forall n, In n (requests t) -> n <= obj) PS
             (StratOk_Leaf _ _ _ _ (FixedPool_ok obj per Hobj ltac:(lia) Hper fuel limP Hl))); auto.
    - intros [] t' Ha m Hm; apply Ha; cbn; auto.
    - intros t' s w n e L _ Ha Hn Erq _. split; [lia|]. apply Ha. rewrite Erq. simpl; auto.
  Qed.

  (** Replacing the requested sizes by the slot size. *)
  Definition widen (r : region) : region := (fst r, obj).
  Definition widen_it (x : nat * Z) : nat * Z := (fst x, obj).

  Lemma pool_ok_widen p its : pool_ok obj per p its -> pool_ok obj per p (map widen_it its).
  Proof.
    assert (E : map fst (map widen_it its) = map fst its) by (rewrite map_map; reflexivity).
    intros (H1 & H2 & H3 & H4 & H5 & H6). unfold pool_ok. rewrite E, map_length.
    split; auto. split; auto. split; auto. split; auto. split; auto.
    intros x Hx. apply in_map_iff in Hx as (y & <- & _). cbn. lia.
  Qed.

  Lemma fx_rel_widen s U L : fx_rel obj per s U L -> fx_rel obj per s (map widen U) L.
  Proof.
    intros (itss & R1 & R2 & R3 & R4). exists (map (map widen_it) itss). split; [|split; [|split]].
    - clear R2 R3 R4. induction R1; cbn; constructor; auto using pool_ok_widen.
    - rewrite R2. clear -R1. induction R1 as [|p its pools itss Hp HF IH]; [reflexivity|].
      cbn [map]. rewrite !all_used_cons, map_app, IH. apply Permutation_app_tail.
      unfold pool_used. rewrite !map_map. reflexivity.
    - exact R3.
    - now rewrite map_length.
  Qed.

  Lemma all_used_slot pools itss u : Forall2 (pool_ok obj per) pools itss -> In u (all_used obj pools itss) ->
    exists p i, In p pools /\ (i < per)%nat /\ fst u = fp_data p + obj * Z.of_nat i.
  Proof.
    induction 1 as [|p its pools itss Hp HF IH]; [intros []|]. rewrite all_used_cons. intros Hin.
    apply in_app_or in Hin as [Hin|Hin].
    - apply in_map_iff in Hin as (x & <- & Hx). exists p, (fst x). split; [now left|]. split; [|reflexivity].
      destruct Hp as (_ & _ & _ & H4 & _). apply H4, in_map, Hx.
    - destruct (IH Hin) as (p' & i & H1 & H2). exists p', i. split; [now right|exact H2].
  Qed.

  Lemma fxt_slots t sw : Runs t sw -> (forall n, In n (requests t) -> n <= obj) ->
    exists L, Inv (snd sw) L /\ Z.of_nat (length L) = fx_num_pools (fst sw) /\ (forall l, In l L -> snd l = obj * Z.of_nat per) /\
      good (map widen (live t)) /\
      forall r, In r (live t) -> snd r <= obj /\
        exists b i, In (b, obj * Z.of_nat per) L /\ (i < per)%nat /\ fst r = b + obj * Z.of_nat i.
  Proof.
    intros Hr Hq. destruct (fxt_inv t sw Hr Hq) as (L & HR & HI). exists L. split; [exact HI|].
    pose proof HR as (itss & R1 & R2 & R3 & R4).
    pose proof (data_bytes_eq obj per Hobj ltac:(lia) Hper) as Ed.
    assert (HL : forall l, In l L -> snd l = obj * Z.of_nat per).
    { intros l Hin. apply (Permutation_in _ R3) in Hin. apply in_map_iff in Hin as (p & <- & _). exact Ed. }
    split; [rewrite (Permutation_length R3), map_length; reflexivity|]. split; [exact HL|]. split.
    - apply fx_rel_widen in HR.
      apply (so_inside _ _ _ _ (FixedPool_ok obj per Hobj ltac:(lia) Hper fuel limP Hl) _ _ _ HR). eapply ps_good; eauto.
    - intros r Hin. apply (Permutation_in _ R2) in Hin. split.
      + clear -R1 Hin. induction R1 as [|p its pools itss Hp HF IH]; [destruct Hin|].
        rewrite all_used_cons in Hin. apply in_app_or in Hin as [Hin|Hin]; auto.
        apply in_map_iff in Hin as (x & <- & Hx). destruct Hp as (_ & _ & _ & _ & _ & H6). cbn. apply H6, Hx.
      + destruct (all_used_slot _ _ _ R1 Hin) as (p & i & H1 & H2 & H3). exists (fp_data p), i. split; [|split; auto].
        rewrite <- Ed. eapply Permutation_in; [apply Permutation_sym, R3|].
        apply in_map_iff. exists p. auto.
  Qed.

  (** What one allocation does. *)
  Lemma fx_alloc_cases n f s w U L : fx_rel obj per s U L -> Inv w L -> 0 < n <= obj ->
    ((length U < per * length (fx_pools s))%nat /\
     exists s' p, fx_alloc obj per (S (S f)) P n (s, w) = Ok (s', w) p /\ p <> 0 /\ length (fx_pools s') = length (fx_pools s) /\
       fx_actual s' = fx_actual s /\ fx_cur s' = w64 (fx_cur s + obj) /\ fx_hwm s' = Z.max (fx_hwm s) (fx_cur s')) \/
    (length U = (per * length (fx_pools s))%nat /\
     match p_alloc P (obj * Z.of_nat per) w with
     | Ok w' d => exists s' p, fx_alloc obj per (S (S f)) P n (s, w) = Ok (s', w') p /\ p <> 0 /\
         length (fx_pools s') = S (length (fx_pools s)) /\
         fx_actual s' = w64 (fx_actual s + (Z.of_nat (fx_ints per) + obj * Z.of_nat per)) /\
         fx_cur s' = w64 (fx_cur s + obj) /\ fx_hwm s' = Z.max (fx_hwm s) (fx_cur s')
     | Throw w' e => fx_alloc obj per (S (S f)) P n (s, w) = Throw (s, w') e
     | UB => False
     | Abort => fx_alloc obj per (S (S f)) P n (s, w) = Abort
     | NoFuel => fx_alloc obj per (S (S f)) P n (s, w) = NoFuel
     end).
  Proof.
    intros HR HI Hn. remember (S f) as f1 eqn:Ef. cbn [fx_alloc].
    destruct (fx_try obj per (rev (fx_pools s))) as [rp q] eqn:Et.
    pose proof (fx_rel_pos obj per s U L HR (ps_good _ _ _ PS _ _ HI)) as Hpos.
    pose proof HR as (itss & R1 & R2 & R3 & R4).
    pose proof (data_bytes_eq obj per Hobj ltac:(lia) Hper) as Ed.
    assert (Elen : length U = length (all_used obj (rev (fx_pools s)) (rev itss))).
    { rewrite (Permutation_length R2). symmetry. apply Permutation_length, (all_used_rev obj per); auto. }
    destruct (fx_try_ok obj per Hobj ltac:(lia) Hper n Hn _ (rev itss) _ _ (Forall2_rev _ _ _ R1)
                (fun p Hp => Hpos p (proj2 (in_rev _ _) Hp)) Et)
      as [(-> & -> & Hfull)|(Hq & Hh & Hlt & its2 & HF2 & HP2)]; rewrite <- Elen in *; rewrite rev_length in *.
    - right. split; [exact Hfull|]. cbn [Z.eqb]. rewrite rev_involutive.
      replace (mkFixed (fx_pools s) (fx_cur s) (fx_actual s) (fx_hwm s)) with s by (destruct s; auto).
      unfold fx_new_pool. rewrite Ed.
      assert (Hnn : 0 < obj * Z.of_nat per <= limP) by nia.
      pose proof (ps_alloc _ _ _ PS w L _ HI Hnn) as Ha.
      destruct (p_alloc P (obj * Z.of_nat per) w) as [w' d|w' e| | |]; cbn [bind post] in *; auto.
      subst f1. cbn [fx_alloc fx_pools fx_cur fx_actual fx_hwm].
      rewrite rev_app_distr. cbn [rev app fx_try].
      destruct (alloc_in_pool obj per (new_fpool per d)) as [p' r] eqn:Ea.
      apply (ps_good _ _ _ PS), good_cons in Ha as ((Hd & _) & _). cbn [fst] in Hd.
      destruct (alloc_in_pool_ok obj per Hobj ltac:(lia) Hper _ [] n p' r (new_pool_ok obj per d) Hd Hn Ea)
        as [(_ & _ & Hc)|(i & -> & Hnz & Hdat & Hok & _)]; [cbn in Hc; lia|]. cbn [fp_data new_fpool] in *.
      assert (Ez : (d + obj * Z.of_nat i =? 0) = false) by lia. rewrite Ez. cbv iota beta. rewrite Ez.
      eexists _, _. split; [reflexivity|]. cbn [fx_pools fx_cur fx_actual fx_hwm].
      split; [exact Hnz|]. split; [|auto]. cbn [rev]. rewrite rev_involutive, app_length. cbn. lia.
    - left. split; [exact Hlt|]. assert (Ez : (q =? 0) = false) by lia. rewrite Ez.
      eexists _, _. split; [reflexivity|]. cbn [fx_pools fx_cur fx_actual fx_hwm]. split; [exact Hq|]. split; [|auto].
      rewrite rev_length. rewrite <- (map_length (pool_held obj per)), Hh, map_length, rev_length. reflexivity.
  Qed.

  (** The live allocations never exceed the slots. *)
  Lemma fxt_count t sw : Runs t sw -> (forall n, In n (requests t) -> n <= obj) ->
    (length (live t) <= per * length (fx_pools (fst sw)))%nat.
  Proof.
    intros Hr Hq. destruct (fxt_inv t sw Hr Hq) as (L & (itss & R1 & R2 & R3 & R4) & HI).
    rewrite (Permutation_length R2). apply (all_used_count obj per); auto.
  Qed.

  Lemma fxt_reuse t sw n : (2 <= fuel)%nat -> Runs t sw -> (forall m, In m (requests t) -> m <= obj) -> 0 < n <= obj ->
    Z.of_nat (length (live t)) < Z.of_nat per * fx_num_pools (fst sw) ->
    exists s' p, st_alloc FP W P n sw = Ok (s', snd sw) p /\ p <> 0 /\ fx_num_pools s' = fx_num_pools (fst sw).
  Proof.
    intros Hf Hr Hq Hn Hlt. destruct (fxt_inv t sw Hr Hq) as (L & HR & HI). destruct sw as [s w]. cbn [fst snd] in *.
    destruct fuel as [|[|f]]; try lia. cbn [FixedPool st_alloc]. unfold fx_allocate. unfold fx_num_pools in *.
    destruct (fx_alloc_cases n f s w _ L HR HI Hn) as [(_ & s' & p & H1 & H2 & H3 & _)|(H1 & _)]; [|lia].
    exists s', p. split; auto.
  Qed.

  Lemma fxt_grow t sw n : (2 <= fuel)%nat -> Runs t sw -> (forall m, In m (requests t) -> m <= obj) -> 0 < n <= obj ->
    Z.of_nat (length (live t)) = Z.of_nat per * fx_num_pools (fst sw) ->
    match p_alloc P (obj * Z.of_nat per) (snd sw) with
    | Ok w' d => exists s' p, st_alloc FP W P n sw = Ok (s', w') p /\ fx_num_pools s' = fx_num_pools (fst sw) + 1
    | Throw w' e => st_alloc FP W P n sw = Throw (fst sw, w') e
    | _ => True
    end.
  Proof.
    intros Hf Hr Hq Hn Hlt. destruct (fxt_inv t sw Hr Hq) as (L & HR & HI). destruct sw as [s w]. cbn [fst snd] in *.
    destruct fuel as [|[|f]]; try lia. cbn [FixedPool st_alloc]. unfold fx_allocate. unfold fx_num_pools in *.
    destruct (fx_alloc_cases n f s w _ L HR HI Hn) as [(H1 & _)|(_ & H)]; [lia|].
    destruct (p_alloc P (obj * Z.of_nat per) w); auto.
    destruct H as (s' & p & H1 & _ & H2 & _). exists s', p. split; auto. lia.
  Qed.

  Lemma fxt_free_ok t sw p n cur : Runs t sw -> (forall m, In m (requests t) -> m <= obj) -> In (p, n) (live t) ->
    exists s', st_dealloc FP W P cur p n sw = Ok (s', snd sw) tt /\ fx_num_pools s' = fx_num_pools (fst sw).
  Proof.
    intros Hr Hq Hin. destruct (fxt_inv t sw Hr Hq) as (L & (itss & R1 & R2 & R3 & R4) & HI).
    destruct sw as [s w]. cbn [fst snd FixedPool st_dealloc] in *. unfold fx_deallocate.
    assert (HG : good (map (pool_held obj per) (fx_pools s))) by (eapply good_perm; [exact R3|eapply ps_good; eauto]).
    destruct (fx_free_pools_ok obj per Hobj ltac:(lia) Hper p n _ _ R1 HG (Permutation_in _ R2 Hin))
      as (pools' & itss' & E1 & E2 & E3 & E4).
    rewrite E1. eexists. split; [reflexivity|]. unfold fx_num_pools. cbn [fx_pools].
    rewrite <- (map_length (pool_held obj per) pools'), E3, map_length. reflexivity.
  Qed.

  Lemma fxt_reuse_freed t sw p n m : (2 <= fuel)%nat -> Runs (Returned p n :: t) sw ->
    (forall k, In k (requests t) -> k <= obj) -> 0 < m <= obj ->
    exists s' q, st_alloc FP W P m sw = Ok (s', snd sw) q /\ q <> 0.
  Proof.
    intros Hf Hr Hq Hm.
    assert (Hlt : Z.of_nat (length (live (Returned p n :: t))) < Z.of_nat per * fx_num_pools (fst sw)).
    { remember (Returned p n :: t) as tt eqn:Ett. revert Ett.
      induction Hr as [w w' s Hi E|t0 [s w] n0 sw' p0 Hr IH Hn E Hp|t0 [s w] n0 sw' Hr IH Hn E|t0 [s w] n0 sw' e Hr IH Hn E
                   |t0 [s w] cur p0 n0 sw' Hr IH Hin E|t0 [s w] sw' Hr IH E|t0 s w w' Hr IH He]; intros Ett; try discriminate.
      - injection Ett as -> -> ->. cbn [live]. pose proof (length_drop1 _ _ Hin).
        destruct (fxt_free_ok t (s, w) p n cur Hr Hq Hin) as (s' & E' & E2). rewrite E in E'. injection E' as ->. cbn [fst] in *.
        pose proof (fxt_count t (s, w) Hr Hq). cbn [fst] in *. unfold fx_num_pools in *. lia.
      - apply IH. exact Ett. }
    destruct (fxt_reuse _ sw m Hf Hr Hq Hm Hlt) as (s' & q & H1 & H2 & _). eauto.
  Qed.

  (** After release every pool still held has a live allocation in it. *)
  Lemma fxt_release t sw : Runs (Released :: t) sw -> (forall n, In n (requests t) -> n <= obj) ->
    exists L, Inv (snd sw) L /\ forall l, In l L -> exists r, In r (live t) /\ inside r l.
  Proof.
    intros Hr Hq. destruct (fxt_inv _ sw Hr Hq) as (L & (itss & R1 & R2 & R3 & R4) & HI). cbn [live] in *.
    exists L. split; [exact HI|]. intros l Hin. apply (Permutation_in _ R3) in Hin.
    assert (Hpost : forall p, In p (fx_pools (fst sw)) -> fp_unused per p = false).
    { clear -Hr. remember (Released :: t) as tt eqn:Ett. revert Ett.
      induction Hr as [w w' s Hi E|t0 [s w] n0 sw' p0 Hr IH Hn E Hp|t0 [s w] n0 sw' Hr IH Hn E|t0 [s w] n0 sw' e Hr IH Hn E
                   |t0 [s w] cur p0 n0 sw' Hr IH Hin E|t0 [s w] sw' Hr IH E|t0 s w w' Hr IH He]; intros Ett; try discriminate.
      - cbn [FixedPool st_release] in E. unfold fx_release in E.
        destruct (fx_free_unused obj per P (fx_pools s) w); try discriminate. injection E as <-.
        cbn [fst fx_pools]. intros p Hp. apply filter_In in Hp as [_ Hp]. destruct (fp_unused per p); auto.
      - apply IH. exact Ett. }
    clear R3. revert Hin R2 Hpost. generalize (live t). induction R1 as [|p its pools itss Hp HF IH]; intros U Hin R2 Hpost; [destruct Hin|].
    rewrite all_used_cons in R2. cbn [map] in Hin. destruct Hin as [<-|Hin].
    - specialize (Hpost p (or_introl eq_refl)). unfold fp_unused in Hpost.
      pose proof Hp as (_ & _ & _ & _ & H5 & _). destruct its as [|x its]; [cbn [length] in H5; lia|].
      exists (fp_data p + obj * Z.of_nat (fst x), snd x). split.
      + eapply Permutation_in; [apply Permutation_sym, R2|]. apply in_or_app. left. now left.
      + refine (proj2 (slot_inside obj per Hobj ltac:(lia) Hper p (x :: its) _ Hp _)). now left.
    - destruct (IH (all_used obj pools itss) Hin (Permutation_refl _) (fun q Hq => Hpost q (or_intror Hq))) as (r & H1 & H2).
      exists r. split; auto. eapply Permutation_in; [apply Permutation_sym, R2|]. apply in_or_app. now right.
  Qed.

  (** ** Sizes *)
  Lemma fxt_current t sw : Runs t sw -> (forall n, In n (requests t) -> n <= obj) ->
    fx_current_size (fst sw) = obj * Z.of_nat (length (live t)) /\ obj * Z.of_nat (length (live t)) < ASP.
  Proof.
    intros Hr Hq. destruct (fxt_inv t sw Hr Hq) as (L & HR & HI). pose proof HR as (_ & _ & _ & _ & R4).
    apply fx_rel_widen in HR.
    assert (HG : good (map widen (live t))).
    { apply (so_inside _ _ _ _ (FixedPool_ok obj per Hobj ltac:(lia) Hper fuel limP Hl) _ _ _ HR). eapply ps_good; eauto. }
    apply good_sum in HG. rewrite map_map in HG. cbn [widen snd] in HG.
    assert (E : sumZ (map (fun _ : region => obj) (live t)) = obj * Z.of_nat (length (live t))).
    { clear. induction (live t); cbn [map sumZ length]; lia. }
    rewrite E in HG. unfold fx_current_size. rewrite R4. split; [|exact HG]. apply w64_small. unfold ASP, M64 in *. lia.
  Qed.

  Lemma fxt_make w w' s : Inv w [] -> st_make FP W P w = Ok w' s ->
    length (fx_pools s) = 1%nat /\ fx_hwm s = 0 /\ fx_actual s = w64 (Z.of_nat (fx_ints per) + obj * Z.of_nat per).
  Proof.
    intros HI E. cbn [FixedPool st_make] in E. unfold fx_init, fx_new_pool in E. rewrite (data_bytes_eq obj per Hobj ltac:(lia) Hper) in E.
    destruct (p_alloc P (obj * Z.of_nat per) w); try discriminate. injection E as <- <-. cbn. auto.
  Qed.

  Lemma fxt_hwm t sw : (2 <= fuel)%nat -> Runs t sw -> (forall n, In n (requests t) -> n <= obj) ->
    fx_hwm (fst sw) = obj * Z.of_nat (peak t).
  Proof.
    intros Hf. destruct fuel as [|[|f]] eqn:Ef; try lia.
    induction 1 as [w w' s Hi E|t [s w] n sw' p Hr IH Hn E Hp|t [s w] n sw' Hr IH Hn E|t [s w] n sw' e Hr IH Hn E
                   |t [s w] cur p n sw' Hr IH Hin E|t [s w] sw' Hr IH E|t s w w' Hr IH He]; intros Hq; cbn [peak].
    - rewrite <- Ef in E. cbn [fst]. destruct (fxt_make w w' s Hi E) as (_ & -> & _). lia.
    - assert (Hq' : forall m, In m (requests t) -> m <= obj) by (intros m Hm; apply Hq; cbn; auto).
      specialize (IH Hq'). cbn [fst] in *. rewrite <- Ef in Hr. destruct (fxt_inv t _ Hr Hq') as (L & HR & HI). cbn [fst snd] in *.
      assert (Hn' : 0 < n <= obj) by (split; [lia|apply Hq; cbn; auto]).
      pose proof (fxt_current t _ Hr Hq') as [C1 C2]. cbn [fst] in C1. unfold fx_current_size in C1.
      assert (Hr' : Runs (Got n p :: t) sw') by (rewrite <- Ef in E; eapply r_got; eauto).
      pose proof (fxt_current _ _ Hr' Hq) as [C3 C4]. unfold fx_current_size in C3.
      cbn [FixedPool st_alloc] in E. unfold fx_allocate in E.
      destruct (fx_alloc_cases n f s w _ L HR HI Hn') as [(_ & s' & q & H1 & _ & _ & _ & H5 & H6)|(_ & H)].
      + same E H1. injection H1 as -> ->. cbn [fst] in *. rewrite H6, C3, IH. rewrite Nat2Z.inj_max, <- Z.mul_max_distr_nonneg_l by lia. apply Z.max_comm.
      + destruct (p_alloc P (obj * Z.of_nat per) w) as [w1 d|w1 e1| | |]; try (same E H; discriminate); [|destruct H].
        destruct H as (s' & q & H1 & _ & _ & _ & H5 & H6). same E H1. injection H1 as -> ->. cbn [fst] in *.
        rewrite H6, C3, IH. rewrite Nat2Z.inj_max, <- Z.mul_max_distr_nonneg_l by lia. apply Z.max_comm.
    - exfalso. assert (Hq' : forall m, In m (requests t) -> m <= obj) by (intros m Hm; apply Hq; cbn; auto).
      rewrite <- Ef in Hr. destruct (fxt_inv t _ Hr Hq') as (L & HR & HI). cbn [fst snd] in *.
      assert (Hn' : 0 < n <= obj) by (split; [lia|apply Hq; cbn; auto]).
      cbn [FixedPool st_alloc] in E. unfold fx_allocate in E.
      destruct (fx_alloc_cases n f s w _ L HR HI Hn') as [(_ & s' & q & H1 & Hz & _)|(_ & H)].
      + same E H1. injection H1 as _ <-. now apply Hz.
      + destruct (p_alloc P (obj * Z.of_nat per) w) as [w1 d|w1 e1| | |]; try (same E H; discriminate); [|destruct H].
        destruct H as (s' & q & H1 & Hz & _). same E H1. injection H1 as _ <-. now apply Hz.
    - assert (Hq' : forall m, In m (requests t) -> m <= obj) by (intros m Hm; apply Hq; cbn; auto).
      specialize (IH Hq'). rewrite <- Ef in Hr. destruct (fxt_inv t _ Hr Hq') as (L & HR & HI). cbn [fst snd] in *.
      assert (Hn' : 0 < n <= obj) by (split; [lia|apply Hq; cbn; auto]).
      cbn [FixedPool st_alloc] in E. unfold fx_allocate in E. cbn [live].
      assert (Hpk : (length (live t) <= peak t)%nat) by (clear; destruct t; cbn [peak live length]; lia).
      destruct (fx_alloc_cases n f s w _ L HR HI Hn') as [(_ & s' & q & H1 & _)|(_ & H)]; [same E H1; discriminate|].
      destruct (p_alloc P (obj * Z.of_nat per) w) as [w1 d|w1 e1| | |]; try (same E H; discriminate); [| |destruct H].
      + destruct H as (s' & q & H1 & _). same E H1. discriminate.
      + same E H. injection H as -> _. cbn [fst]. rewrite IH. rewrite Nat.max_r by exact Hpk. reflexivity.
    - specialize (IH Hq). cbn [live]. pose proof (length_drop1 _ _ Hin).
      assert (Hpk : (length (live t) <= peak t)%nat) by (clear; destruct t; cbn [peak live length]; lia).
      cbn [FixedPool st_dealloc] in E. unfold fx_deallocate in E.
      destruct (fx_free_pools obj per p (fx_pools s)); [|discriminate]. injection E as <-. cbn [fst fx_hwm] in *. rewrite Nat.max_r by lia. exact IH.
    - specialize (IH Hq). cbn [live].
      assert (Hpk : (length (live t) <= peak t)%nat) by (clear; destruct t; cbn [peak live length]; lia).
      cbn [FixedPool st_release] in E. unfold fx_release in E.
      destruct (fx_free_unused obj per P (fx_pools s) w); try discriminate. injection E as <-. cbn [fst fx_hwm] in *. rewrite Nat.max_r by lia. exact IH.
    - exact (IH Hq).
  Qed.

  (** Without a call of [release], the reported size is that of the pools plus one per [int] of
      their bit maps. *)
  Lemma fxt_actual t sw : (2 <= fuel)%nat -> Runs t sw -> (forall n, In n (requests t) -> n <= obj) -> ~ In Released t ->
    fx_actual (fst sw) = w64 ((Z.of_nat (fx_ints per) + obj * Z.of_nat per) * fx_num_pools (fst sw)).
  Proof.
    intros Hf. destruct fuel as [|[|f]] eqn:Ef; try lia. unfold fx_num_pools.
    set (K := Z.of_nat (fx_ints per) + obj * Z.of_nat per).
    induction 1 as [w w' s Hi E|t [s w] n sw' p Hr IH Hn E Hp|t [s w] n sw' Hr IH Hn E|t [s w] n sw' e Hr IH Hn E
                   |t [s w] cur p n sw' Hr IH Hin E|t [s w] sw' Hr IH E|t s w w' Hr IH He]; intros Hq Hno.
    - rewrite <- Ef in E. destruct (fxt_make w w' s Hi E) as (El & _ & Ea). cbn [fst]. rewrite El, Ea. f_equal. fold K. lia.
    - assert (Hq' : forall m, In m (requests t) -> m <= obj) by (intros m Hm; apply Hq; cbn; auto).
      specialize (IH Hq' (fun H => Hno (or_intror H))). rewrite <- Ef in Hr. destruct (fxt_inv t _ Hr Hq') as (L & HR & HI). cbn [fst snd] in *.
      assert (Hn' : 0 < n <= obj) by (split; [lia|apply Hq; cbn; auto]).
      cbn [FixedPool st_alloc] in E. unfold fx_allocate in E.
      destruct (fx_alloc_cases n f s w _ L HR HI Hn') as [(_ & s' & q & H1 & _ & H3 & H4 & _)|(_ & H)].
      + same E H1. injection H1 as -> ->. cbn [fst]. now rewrite H3, H4.
      + destruct (p_alloc P (obj * Z.of_nat per) w) as [w1 d|w1 e1| | |]; try (same E H; discriminate); [|destruct H].
        destruct H as (s' & q & H1 & _ & H3 & H4 & _). same E H1. injection H1 as -> ->. cbn [fst].
        rewrite H3, H4, IH, w64_add. fold K. f_equal. lia.
    - assert (Hq' : forall m, In m (requests t) -> m <= obj) by (intros m Hm; apply Hq; cbn; auto).
      specialize (IH Hq' (fun H => Hno (or_intror H))). rewrite <- Ef in Hr. destruct (fxt_inv t _ Hr Hq') as (L & HR & HI). cbn [fst snd] in *.
      assert (Hn' : 0 < n <= obj) by (split; [lia|apply Hq; cbn; auto]).
      cbn [FixedPool st_alloc] in E. unfold fx_allocate in E.
      destruct (fx_alloc_cases n f s w _ L HR HI Hn') as [(_ & s' & q & H1 & _ & H3 & H4 & _)|(_ & H)].
      + same E H1. injection H1 as -> _. cbn [fst]. now rewrite H3, H4.
      + destruct (p_alloc P (obj * Z.of_nat per) w) as [w1 d|w1 e1| | |]; try (same E H; discriminate); [|destruct H].
        destruct H as (s' & q & H1 & _ & H3 & H4 & _). same E H1. injection H1 as -> _. cbn [fst].
        rewrite H3, H4, IH, w64_add. fold K. f_equal. lia.
    - assert (Hq' : forall m, In m (requests t) -> m <= obj) by (intros m Hm; apply Hq; cbn; auto).
      specialize (IH Hq' (fun H => Hno (or_intror H))). rewrite <- Ef in Hr. destruct (fxt_inv t _ Hr Hq') as (L & HR & HI). cbn [fst snd] in *.
      assert (Hn' : 0 < n <= obj) by (split; [lia|apply Hq; cbn; auto]).
      cbn [FixedPool st_alloc] in E. unfold fx_allocate in E.
      destruct (fx_alloc_cases n f s w _ L HR HI Hn') as [(_ & s' & q & H1 & _)|(_ & H)]; [same E H1; discriminate|].
      destruct (p_alloc P (obj * Z.of_nat per) w) as [w1 d|w1 e1| | |]; try (same E H; discriminate); [| |destruct H].
      + destruct H as (s' & q & H1 & _). same E H1. discriminate.
      + same E H. injection H as -> _. exact IH.
    - specialize (IH Hq (fun H => Hno (or_intror H))). rewrite <- Ef in Hr, E.
      destruct (fxt_free_ok t (s, w) p n cur Hr Hq Hin) as (s' & E' & E2). same E E'. injection E' as ->. cbn [fst] in *.
      cbn [FixedPool st_dealloc] in E. unfold fx_deallocate in E.
      destruct (fx_free_pools obj per p (fx_pools s)); [|discriminate]. injection E as <-. cbn [fst fx_actual] in *.
      unfold fx_num_pools in E2. now rewrite E2.
    - elim Hno. now left.
    - exact (IH Hq Hno).
  Qed.
End FixedPoolThms.

(** With no objects per pool every pool counts as full. *)
Lemma fx_try_zero obj l : Forall (fun p => fp_num p = 0) l -> fx_try obj 0 l = (l, 0).
Proof.
  induction 1 as [|p l Hp Hl IH]; cbn [fx_try]; auto. unfold alloc_in_pool. rewrite Hp. cbn [Z.eqb]. now rewrite IH.
Qed.

Lemma fx_alloc_zero obj f : forall W (P : Parent W) n sw sw' p,
  Forall (fun p => fp_num p = 0) (fx_pools (fst sw)) -> fx_alloc obj 0 f P n sw <> Ok sw' p.
Proof.
  induction f as [|f IH]; intros W P n [s w] sw' p Hs E; cbn [fx_alloc] in E; [discriminate|]. cbn [fst] in Hs.
  rewrite fx_try_zero in E by (now apply Forall_rev). cbn [Z.eqb] in E. rewrite rev_involutive in E. unfold fx_new_pool in E.
  destruct (p_alloc P (fx_data_bytes obj 0) w) as [w1 d|w1 e| | |]; try discriminate. cbn [fx_pools fx_cur fx_actual fx_hwm] in E.
  eapply IH; [|exact E]. cbn [fst fx_pools]. apply Forall_app. split; auto.
Qed.
