(** Lemmas behind the properties of the small strategies. *)
From Verif Require Import Base BaseFacts AlignedModel AlignedFacts StratModel StratFacts StratSpec WrapModel WrapFacts LeafFacts.

Lemma drop1_perm r l : In r l -> Permutation l (r :: drop1 r l).
Proof.
  induction l as [|x t IH]; [intros []|]. intros Hin. cbn [drop1].
  destruct ((fst x =? fst r) && (snd x =? snd r)) eqn:E.
  - apply andb_true_iff in E as [E1 E2]. apply Z.eqb_eq in E1, E2.
    destruct x, r; cbn in *; subst. reflexivity.
  - destruct Hin as [->|Hin]; [rewrite !Z.eqb_refl in E; discriminate|].
    rewrite (IH Hin) at 1. apply perm_swap.
Qed.

Lemma drop1_in r x l : In x (drop1 r l) -> In x l.
Proof.
  induction l as [|y t IH]; cbn; auto. destruct ((fst y =? fst r) && (snd y =? snd r)); cbn; auto.
  intros [->|H]; auto.
Qed.

Lemma total_perm l l' : Permutation l l' -> total l = total l'.
Proof. induction 1; cbn; lia. Qed.

Lemma total_drop1 r l : In r l -> total (map snd (drop1 r l)) = total (map snd l) - snd r.
Proof.
  intros H. pose proof (Permutation_map snd (drop1_perm r l H)) as HP. apply total_perm in HP.
  cbn [map total] in HP. lia.
Qed.

Lemma length_drop1 r l : In r l -> length l = Datatypes.S (length (drop1 r l)).
Proof. intros H. apply drop1_perm, Permutation_length in H. exact H. Qed.

Lemma ev_live_incl t : incl (live t) (ever t).
Proof.
  induction t as [|[n p|n|n|p n|] t IH]; cbn; intros x Hx; auto.
  - destruct Hx as [<-|Hx]; [left; auto|right; auto].
  - apply IH. eapply drop1_in; eauto.
Qed.

(** The generic invariant: with [adm] the histories under consideration. *)
Section Generic.
  Context (S : Strat) {W : Type} (P : Parent W) (Inv : W -> list region -> Prop)
          (rel : st_ty S -> list region -> list region -> Prop) (guard : st_ty S -> Z -> Prop) (limP : Z)
          (adm : list ev -> Prop).
  Hypothesis PS : ParentSpec P limP Inv.
  Hypothesis LO : LeafOk S rel guard False limP.
  Hypothesis adm_tail : forall e t, adm (e :: t) -> adm t.
  Hypothesis adm_guard : forall t s w n e L, runs S P Inv t (s, w) -> adm (e :: t) -> 0 < n < M64 ->
    requests (e :: t) = n :: requests t -> rel s (live t) L -> guard s n.

  Lemma runs_inv t sw : runs S P Inv t sw -> adm t -> exists L, rel (fst sw) (live t) L /\ Inv (snd sw) L.
  Proof.
    induction 1 as [w w' s Hi E|t [s w] n sw' p Hr IH Hn E Hp|t [s w] n sw' Hr IH Hn E|t [s w] n sw' e Hr IH Hn E
                   |t [s w] cur p n sw' Hr IH Hin E|t [s w] sw' Hr IH E|t s w w' Hr IH He]; intros Ha; cbn [live] in *.
    - pose proof (lo_make _ _ _ _ _ LO W P Inv w PS Hi) as H. rewrite E in H. exact H.
    - destruct (IH (adm_tail _ _ Ha)) as (L & HR & HI). cbn [fst snd] in *.
      pose proof (lo_alloc _ _ _ _ _ LO W P Inv s w _ L n PS HR HI
                    (adm_guard t s w n _ L Hr Ha Hn eq_refl HR)) as H.
      rewrite E in H. cbn [post] in H. destruct (Z.eqb_spec p 0); [contradiction|exact H].
    - destruct (IH (adm_tail _ _ Ha)) as (L & HR & HI). cbn [fst snd] in *.
      pose proof (lo_alloc _ _ _ _ _ LO W P Inv s w _ L n PS HR HI
                    (adm_guard t s w n _ L Hr Ha Hn eq_refl HR)) as H.
      rewrite E in H. exact H.
    - destruct (IH (adm_tail _ _ Ha)) as (L & HR & HI). cbn [fst snd] in *.
      pose proof (lo_alloc _ _ _ _ _ LO W P Inv s w _ L n PS HR HI
                    (adm_guard t s w n _ L Hr Ha Hn eq_refl HR)) as H.
      rewrite E in H. exact H.
    - destruct (IH (adm_tail _ _ Ha)) as (L & HR & HI). cbn [fst snd] in *.
      assert (HR' : rel s ((p, n) :: drop1 (p, n) (live t)) L).
      { eapply (lo_perm _ _ _ _ _ LO); [apply drop1_perm, Hin|reflexivity|exact HR]. }
      pose proof (lo_dealloc _ _ _ _ _ LO W P Inv s w _ L p n cur PS HR' HI) as H.
      rewrite E in H. exact H.
    - destruct (IH (adm_tail _ _ Ha)) as (L & HR & HI). cbn [fst snd] in *.
      pose proof (lo_release _ _ _ _ _ LO W P Inv s w _ L PS HR HI) as H.
      rewrite E in H. exact H.
    - destruct (IH Ha) as (L & HR & HI). exists L. split; auto.
  Qed.
End Generic.

(** ** SizeLimiter *)
Section SizeLimiterThms.
  Context (limit : Z) (Hlim : 0 <= limit < M64) {W : Type} (P : Parent W) (Inv : W -> list region -> Prop).
  Notation Runs := (runs (SizeLimiter limit) P Inv).

  Lemma sl_live_pos t sw : Runs t sw -> forall r, In r (live t) -> 0 < snd r < M64.
  Proof.
    induction 1; cbn [live]; intros r Hr; auto.
    - destruct Hr.
    - destruct Hr as [<-|Hr]; auto.
    - apply IHruns. eapply drop1_in; eauto.
  Qed.

  Lemma total_live_nonneg t sw : Runs t sw -> 0 <= total (map snd (live t)).
  Proof.
    intros Hr. pose proof (sl_live_pos _ _ Hr) as Hl. clear -Hl. induction (live t) as [|r l IHl]; cbn; [lia|].
    pose proof (Hl r (or_introl eq_refl)). specialize (IHl (fun x Hx => Hl x (or_intror Hx))). lia.
  Qed.

  Lemma sl_total_spec t sw : Runs t sw -> (forall n, In n (requests t) -> n < M64 - limit) ->
    total (map snd (live t)) <= fst sw <= limit /\
    (only_excess_refused limit t -> fst sw = total (map snd (live t))).
  Proof.
    induction 1 as [w w' s Hi E|t [s w] n sw' p Hr IH Hn E Hp|t [s w] n sw' Hr IH Hn E|t [s w] n sw' e Hr IH Hn E
                   |t [s w] cur p n sw' Hr IH Hin E|t [s w] sw' Hr IH E|t s w w' Hr IH He]; intros Ha; cbn [live requests map total only_excess_refused] in *.
    - cbn in E. injection E as <- <-. cbn. lia.
    - assert (Hn2 : n < M64 - limit) by (apply Ha; simpl; auto).
      destruct IH as [IH1 IH2]; [intros m Hm; apply Ha; simpl; auto|]. cbn [fst] in *.
      pose proof (total_live_nonneg _ _ Hr) as Hpos.
      cbn [SizeLimiter st_alloc] in E. unfold sl_allocate in E.
      rewrite (w64_small (s + n)) in E by lia.
      destruct (Z.ltb_spec limit (s + n)); [discriminate|].
      destruct (p_alloc P n w) as [w1 p1|w1 e1| | |]; try discriminate. cbn in E. injection E as <- <-. cbn [fst snd].
      split; [lia|]. intros HP. specialize (IH2 HP). lia.
    - assert (Hn2 : n < M64 - limit) by (apply Ha; simpl; auto).
      destruct IH as [IH1 IH2]; [intros m Hm; apply Ha; simpl; auto|]. cbn [fst] in *.
      pose proof (total_live_nonneg _ _ Hr) as Hpos.
      cbn [SizeLimiter st_alloc] in E. unfold sl_allocate in E.
      rewrite (w64_small (s + n)) in E by lia.
      destruct (Z.ltb_spec limit (s + n)); [discriminate|].
      destruct (p_alloc P n w) as [w1 p1|w1 e1| | |]; try discriminate. cbn in E. injection E as <- _. cbn [fst snd].
      split; [lia|]. contradiction.
    - assert (Hn2 : n < M64 - limit) by (apply Ha; simpl; auto).
      destruct IH as [IH1 IH2]; [intros m Hm; apply Ha; simpl; auto|]. cbn [fst] in *.
      pose proof (total_live_nonneg _ _ Hr) as Hpos.
      cbn [SizeLimiter st_alloc] in E. unfold sl_allocate in E.
      rewrite (w64_small (s + n)) in E by lia.
      destruct (Z.ltb_spec limit (s + n)).
      + injection E as <- <-. cbn [fst]. replace (s + n - n) with s by lia.
        rewrite w64_small by lia. split; [lia|]. intros [_ HP]. auto.
      + destruct (p_alloc P n w) as [w1 p1|w1 e1| | |]; try discriminate. cbn in E. injection E as <- <-. cbn [fst snd].
        split; [lia|]. intros [HP HP2]. specialize (IH2 HP2). lia.
    - destruct IH as [IH1 IH2]; [intros m Hm; apply Ha; simpl; auto|]. cbn [fst] in *.
      pose proof (total_live_nonneg _ _ Hr) as Hpos. rewrite total_drop1 by exact Hin. cbn [snd].
      assert (Hle : n <= total (map snd (live t))).
      { pose proof (sl_live_pos _ _ Hr) as Hl. pose proof (total_drop1 _ _ Hin) as Ht. cbn [snd] in Ht.
        assert (0 <= total (map snd (drop1 (p, n) (live t)))); [|lia].
        assert (Hl' : forall r, In r (drop1 (p, n) (live t)) -> 0 < snd r) by (intros r Hx; apply Hl; eapply drop1_in; eauto).
        clear -Hl'. induction (drop1 (p, n) (live t)) as [|r l IHl]; cbn; [lia|].
        pose proof (Hl' r (or_introl eq_refl)). specialize (IHl (fun x Hx => Hl' x (or_intror Hx))). lia. }
      cbn [SizeLimiter st_dealloc] in E. unfold sl_deallocate in E.
      pose proof (sl_live_pos _ _ Hr _ Hin) as Hnn. cbn [snd] in Hnn.
      rewrite (w64_small (s - n)) in E by lia.
      destruct (p_dealloc P p n w) as [w1 p1|w1 e1| | |]; try discriminate. cbn in E. injection E as <-. cbn [fst].
      split; [lia|]. intros HP. specialize (IH2 HP). lia.
    - cbn in E. injection E as <-. cbn [fst] in *. auto.
    - cbn [fst] in *. auto.
  Qed.

  Lemma sl_limit t sw : Runs t sw -> (forall n, In n (requests t) -> n < M64 - limit) ->
    total (map snd (live t)) <= limit.
  Proof. intros H1 H2. pose proof (sl_total_spec t sw H1 H2). lia. Qed.

  Lemma sl_refuses t sw n : Runs t sw -> (forall m, In m (requests t) -> m < M64 - limit) -> 0 < n < M64 - limit ->
    limit < total (map snd (live t)) + n ->
    exists s', st_alloc (SizeLimiter limit) W P n sw = Throw (s', snd sw) OutOfMemory.
  Proof.
    intros H1 H2 Hn Hex. pose proof (sl_total_spec t sw H1 H2) as [Ht _]. pose proof (total_live_nonneg _ _ H1).
    destruct sw as [s w]. cbn [SizeLimiter st_alloc fst snd] in *. unfold sl_allocate.
    rewrite (w64_small (s + n)) by lia. destruct (Z.ltb_spec limit (s + n)); [eauto|lia].
  Qed.

  Lemma sl_forwards t sw n : Runs t sw -> (forall m, In m (requests t) -> m < M64 - limit) -> 0 < n < M64 - limit ->
    only_excess_refused limit t -> total (map snd (live t)) + n <= limit ->
    exists s', st_alloc (SizeLimiter limit) W P n sw = omap (pair s') (fun p => p) (p_alloc P n (snd sw)).
  Proof.
    intros H1 H2 Hn Hor Hex. pose proof (sl_total_spec t sw H1 H2) as [Ht Heq]. specialize (Heq Hor).
    pose proof (total_live_nonneg _ _ H1).
    destruct sw as [s w]. cbn [SizeLimiter st_alloc fst snd] in *. unfold sl_allocate.
    rewrite (w64_small (s + n)) by lia. destruct (Z.ltb_spec limit (s + n)); [lia|eauto].
  Qed.

  Lemma sl_live_held limP t sw : ParentSpec P limP Inv -> Runs t sw -> (forall n, In n (requests t) -> n <= limP) ->
    good (live t) /\ exists L, Permutation (live t) L /\ Inv (snd sw) L.
  Proof.
    intros HP Hr Hq.
    destruct (runs_inv (SizeLimiter limit) P Inv same_rel (fun _ n => 0 < n <= limP) limP
                (fun t => forall n, In n (requests t) -> n <= limP) HP
                (StratOk_Leaf _ _ _ _ (SizeLimiter_ok limit limP))) with (t := t) (sw := sw) as (L & HR & HI); auto.
    - intros [] t' Ha m Hm; apply Ha; cbn; auto.
    - intros t' s w n e L _ Ha Hn Erq _. split; [lia|]. apply Ha. rewrite Erq. simpl; auto.
    - split.
      + eapply good_perm; [apply Permutation_sym, HR|]. eapply ps_good; eauto.
      + eauto.
  Qed.
End SizeLimiterThms.

(** ** MonotonicAllocationStrategy *)
Section MonotonicThms.
  Context (capacity : Z) {W : Type} (P : Parent W) (limP : Z) (Inv : W -> list region -> Prop).
  Hypothesis PS : ParentSpec P limP Inv.
  Hypothesis Hcap : 0 < capacity <= limP.
  Notation Runs := (runs (Monotonic capacity) P Inv).

  Lemma mo_requests_pos t sw : Runs t sw -> 0 <= total (requests t).
  Proof. induction 1; cbn; lia. Qed.

  Lemma mo_inv t sw : Runs t sw -> total (requests t) < M64 ->
    mo_size (fst sw) = total (requests t) /\
    Inv (snd sw) [(mo_block (fst sw), capacity)] /\
    pairwise disj (ever t) /\
    (forall r, In r (ever t) -> 0 < snd r /\ mo_block (fst sw) <= fst r /\
        fst r + snd r <= mo_block (fst sw) + mo_size (fst sw) /\
        fst r + snd r <= mo_block (fst sw) + capacity).
  Proof.
    induction 1 as [w w' s Hi E|t [s w] n sw' p Hr IH Hn E Hp|t [s w] n sw' Hr IH Hn E|t [s w] n sw' e Hr IH Hn E
                   |t [s w] cur p n sw' Hr IH Hin E|t [s w] sw' Hr IH E|t s w w' Hr IH He]; intros Ha; cbn [requests total ever pairwise] in *.
    - cbn [Monotonic st_make] in E. unfold mo_init in E.
      pose proof (ps_alloc _ _ _ PS w [] capacity Hi Hcap) as H.
      destruct (p_alloc P capacity w) as [w1 b|w1 e| | |]; try discriminate. cbn in E. injection E as <- <-.
      cbn in H |- *. split; [reflexivity|]. split; [exact H|]. split; [exact I|]. intros r [].
    - pose proof (mo_requests_pos _ _ Hr) as Hpos.
      destruct (IH ltac:(lia)) as (I1 & I2 & I3 & I4). cbn [fst snd] in *.
      cbn [Monotonic st_alloc] in E. unfold mo_allocate in E. cbn [mo_size mo_block] in E.
      rewrite (w64_small (mo_size s + n)) in E by lia.
      destruct (Z.ltb_spec capacity (mo_size s + n)); [discriminate|].
      pose proof (ps_good _ _ _ PS _ _ I2) as HG. apply good_cons in HG as ((G1 & G2 & G3) & _). cbn [fst snd] in *.
      rewrite (w64_small (mo_block s + mo_size s)) in E by (unfold ASP, M64 in *; lia).
      injection E as <- <-. cbn [fst snd mo_size mo_block].
      split; [lia|]. split; [exact I2|]. split.
      + split; [|exact I3]. intros y Hy. specialize (I4 y Hy). unfold disj. cbn. lia.
      + intros r [<-|Hr']; cbn; [lia|]. specialize (I4 r Hr'). lia.
    - pose proof (mo_requests_pos _ _ Hr) as Hpos.
      destruct (IH ltac:(lia)) as (I1 & I2 & I3 & I4). cbn [fst snd] in *.
      cbn [Monotonic st_alloc] in E. unfold mo_allocate in E. cbn [mo_size mo_block] in E.
      rewrite (w64_small (mo_size s + n)) in E by lia.
      destruct (Z.ltb_spec capacity (mo_size s + n)); [discriminate|].
      pose proof (ps_good _ _ _ PS _ _ I2) as HG. apply good_cons in HG as ((G1 & G2 & G3) & _). cbn [fst snd] in *.
      rewrite (w64_small (mo_block s + mo_size s)) in E by (unfold ASP, M64 in *; lia).
      injection E as <- E. lia.
    - pose proof (mo_requests_pos _ _ Hr) as Hpos.
      destruct (IH ltac:(lia)) as (I1 & I2 & I3 & I4). cbn [fst snd] in *.
      cbn [Monotonic st_alloc] in E. unfold mo_allocate in E. cbn [mo_size mo_block] in E.
      rewrite (w64_small (mo_size s + n)) in E by lia.
      destruct (Z.ltb_spec capacity (mo_size s + n)); [|discriminate].
      injection E as <- <-. cbn [fst snd mo_size mo_block].
      split; [lia|]. split; [exact I2|]. split; [exact I3|].
      intros r Hr'. specialize (I4 r Hr'). lia.
    - destruct (IH Ha) as (I1 & I2 & I3 & I4). cbn in E. injection E as <-. auto.
    - destruct (IH Ha) as (I1 & I2 & I3 & I4). cbn in E. injection E as <-. auto.
    - destruct (IH Ha) as (I1 & I2 & I3 & I4). cbn [fst snd] in *. auto.
  Qed.

  Lemma mo_disjoint t sw : Runs t sw -> total (requests t) < M64 ->
    pairwise disj (ever t) /\
    exists b, Inv (snd sw) [(b, capacity)] /\ forall r, In r (ever t) -> inside r (b, capacity).
  Proof.
    intros H1 H2. destruct (mo_inv t sw H1 H2) as (I1 & I2 & I3 & I4). split; [exact I3|].
    destruct sw as [s w]. cbn [fst snd] in *. exists (mo_block s). split; [exact I2|]. intros r Hr. specialize (I4 r Hr).
    unfold inside. cbn [fst snd]. lia.
  Qed.

  Lemma mo_refuses t sw n : Runs t sw -> 0 < n -> total (requests t) + n < M64 ->
    (total (requests t) + n <= capacity -> exists sw' p, st_alloc (Monotonic capacity) W P n sw = Ok sw' p) /\
    (capacity < total (requests t) + n -> exists sw', st_alloc (Monotonic capacity) W P n sw = Throw sw' RuntimeError).
  Proof.
    intros H1 Hn H2. pose proof (mo_requests_pos _ _ H1).
    destruct (mo_inv t sw H1 ltac:(lia)) as (I1 & _). destruct sw as [s w].
    cbn [Monotonic st_alloc fst snd] in *. unfold mo_allocate. cbn [mo_size mo_block].
    rewrite (w64_small (mo_size s + n)) by lia.
    split; intros Hc; destruct (Z.ltb_spec capacity (mo_size s + n)); try lia; eauto.
  Qed.
End MonotonicThms.

(** ** SlotPool *)
Section SlotPoolThms.
  Context (nslots : nat) {W : Type} (P : Parent W) (limP : Z) (Inv : W -> list region -> Prop).
  Hypothesis PS : ParentSpec P limP Inv.
  Notation Runs := (runs (SlotPool nslots) P Inv).

  Lemma sp_inv t sw : Runs t sw -> (forall n, In n (requests t) -> n <= limP) ->
    exists L, sp_rel (fst sw) (live t) L /\ Inv (snd sw) L.
  Proof.
    intros Hr Hq.
    apply (runs_inv (SlotPool nslots) P Inv sp_rel (sp_guard limP) limP
                (fun t => forall n, In n (requests t) -> n <= limP) PS (SlotPool_ok nslots limP)); auto.
    - intros [] t' Ha m Hm; apply Ha; cbn; auto.
    - intros t' s w n e L _ Ha Hn Erq _. split; [split; [lia|]|lia]. apply Ha. rewrite Erq. simpl; auto.
  Qed.

  Lemma sp_scan_length n : forall l pre (w : W),
    post (sp_scan W P n pre l w) (fun sw _ => length (fst sw) = (length pre + length l)%nat)
         (fun sw _ => length (fst sw) = (length pre + length l)%nat) \/ sp_scan W P n pre l w = UB.
  Proof.
    induction l as [|[p len] t IH]; intros pre w; cbn [sp_scan].
    - left. cbn. rewrite rev_length. lia.
    - destruct (len =? n); [left; cbn; rewrite app_length, rev_length; cbn; lia|].
      destruct (len =? 0).
      + destruct (p_alloc P n w); auto; left; cbn; auto; rewrite app_length, rev_length; cbn; lia.
      + destruct (IH ((p, len) :: pre) w) as [H|H]; [left|right; auto].
        eapply post_impl; [| |exact H]; cbn; intros; lia.
  Qed.

  Lemma sp_length t sw : Runs t sw -> length (fst sw) = nslots.
  Proof.
    assert (Halloc : forall n (s : list slot) w,
       post (sp_allocate W P n (s, w)) (fun sw _ => length (fst sw) = length s) (fun sw _ => length (fst sw) = length s)
       \/ sp_allocate W P n (s, w) = UB).
    { intros n s w. unfold sp_allocate. destruct (to_int64 n <? 0); [left; cbn; auto|].
      cbn [fst snd]. apply (sp_scan_length (to_int64 n) s [] w). }
    induction 1 as [w w' s Hi E|t [s w] n sw' p Hr IH Hn E Hp|t [s w] n sw' Hr IH Hn E|t [s w] n sw' e Hr IH Hn E
                   |t [s w] cur p n sw' Hr IH Hin E|t [s w] sw' Hr IH E|t s w w' Hr IH He]; cbn [SlotPool st_ty st_alloc st_dealloc st_make fst] in *; auto.
    - injection E as <- <-. apply repeat_length.
    - destruct (Halloc n s w) as [H|H]; rewrite E in H; [|discriminate]. cbn in H. lia.
    - destruct (Halloc n s w) as [H|H]; rewrite E in H; [|discriminate]. cbn in H. lia.
    - destruct (Halloc n s w) as [H|H]; rewrite E in H; [|discriminate]. cbn in H. lia.
    - unfold sp_deallocate in E. injection E as <-. cbn [fst]. rewrite <- IH. clear.
      induction s as [|[q len] s IHs]; cbn; auto. destruct (q =? p); cbn; auto.
    - cbn in E. injection E as <-. exact IH.
  Qed.

  Lemma sp_used_le (l : list slot) : (length (flat_map sl_used l) <= length l)%nat.
  Proof.
    induction l as [|x l IH]; cbn; auto. rewrite app_length. unfold sl_used at 1.
    destruct (fst x =? 0); [cbn; lia|]. destruct (snd x <? 0); cbn; lia.
  Qed.

  Lemma sp_disjoint t sw : Runs t sw -> (forall n, In n (requests t) -> n <= limP) ->
    good (live t) /\ (length (live t) <= nslots)%nat /\ exists L, Inv (snd sw) L /\ incl (live t) L.
  Proof.
    intros Hr Hq. destruct (sp_inv t sw Hr Hq) as (L & HR & HI).
    split; [|split].
    - apply (lo_inside _ _ _ _ _ (SlotPool_ok nslots limP) _ _ _ HR). eapply ps_good; eauto.
    - destruct HR as (R1 & R2 & R3). rewrite (Permutation_length R2), <- (sp_length _ _ Hr). apply sp_used_le.
    - exists L. split; [exact HI|]. destruct HR as (R1 & R2 & R3). intros r Hin.
      eapply Permutation_in; [apply Permutation_sym, R3|]. apply sp_used_incl.
      eapply Permutation_in; [exact R2|exact Hin].
  Qed.

  Definition uslot (n : Z) (x : slot) : Prop :=
    (fst x = 0 -> snd x = 0) /\ (snd x = 0 \/ snd x = n \/ snd x = - n).

  Lemma sp_uniform_slots n t sw : 0 < n < 2 ^ 63 -> n <= limP -> Runs t sw -> uniform n t ->
    forall x, In x (fst sw) -> uslot n x.
  Proof.
    intros Hn Hnl.
    assert (Hscan : forall l pre (w : W) L sw' p, Inv w L -> sp_scan W P n pre l w = Ok sw' p ->
       (forall x, In x (rev pre ++ l) -> uslot n x) ->
       forall x, In x (fst sw') -> uslot n x).
    { induction l as [|[q len] l IHl]; intros pre w L sw' p HI E Hx x Hin; cbn [sp_scan] in E.
      - injection E as <- <-. cbn in Hin. apply Hx. rewrite app_nil_r. exact Hin.
      - destruct (Z.eqb_spec len n) as [->|].
        + injection E as <- <-. cbn in Hin. apply in_app_or in Hin as [Hin|[<-|Hin]]; [|split; cbn|];
            [apply Hx, in_or_app; simpl; auto| |auto|apply Hx, in_or_app; simpl; auto].
          intros E0. destruct (Hx (q, n)) as [H0 _]; [apply in_or_app; simpl; auto|]. cbn in H0. specialize (H0 E0). lia.
        + destruct (Z.eqb_spec len 0) as [->|].
          * pose proof (ps_alloc _ _ _ PS w L n HI ltac:(lia)) as Ha.
            destruct (p_alloc P n w) as [w1 q1|w1 e| | |]; try discriminate. injection E as <- <-. cbn in Hin, Ha.
            apply in_app_or in Hin as [Hin|[<-|Hin]]; [|split; cbn|];
              [apply Hx, in_or_app; simpl; auto| |auto|apply Hx, in_or_app; simpl; auto].
            apply (ps_good _ _ _ PS), good_nonnull in Ha. lia.
          * apply (IHl _ _ _ _ _ HI E); auto. cbn [rev]. rewrite <- app_assoc. exact Hx. }
    assert (Halloc : forall (s : list slot) w L sw' p, Inv w L -> sp_allocate W P n (s, w) = Ok sw' p ->
       (forall x, In x s -> uslot n x) -> forall x, In x (fst sw') -> uslot n x).
    { intros s w L sw' p HI. unfold sp_allocate, to_int64. destruct (Z.ltb_spec n (2 ^ 63)); [|lia].
      destruct (Z.ltb_spec n 0); [lia|]. cbn [fst snd]. intros E Hx. apply (Hscan _ _ _ _ _ _ HI E). exact Hx. }
    intros Hr0. induction Hr0 as [w w' s Hi E|t [s w] m sw' p Hr IH Hm E Hp|t [s w] m sw' Hr IH Hm E|t [s w] m sw' e Hr IH Hm E
                   |t [s w] cur p m sw' Hr IH Hin E|t [s w] sw' Hr IH E|t s w w' Hr IH He]; cbn [SlotPool st_ty st_alloc st_dealloc st_make fst] in *; intros [Hu1 Hu2].
    - injection E as <- <-. intros x Hx. apply repeat_spec in Hx. subst x. split; auto.
    - assert (m = n) as -> by (apply Hu1; cbn; auto).
      destruct (sp_inv t (s, w) Hr) as (L & _ & HI); [intros k Hk; rewrite (Hu1 k); [auto|cbn; auto]|].
      apply (Halloc _ _ _ _ _ HI E). apply IH. split; [intros k Hk; apply Hu1; cbn; auto|intros k Hk; apply (Hu2 k); cbn; auto].
    - assert (m = n) as -> by (apply Hu1; cbn; auto).
      destruct (sp_inv t (s, w) Hr) as (L & _ & HI); [intros k Hk; rewrite (Hu1 k); [auto|cbn; auto]|].
      apply (Halloc _ _ _ _ _ HI E). apply IH. split; [intros k Hk; apply Hu1; cbn; auto|intros k Hk; apply (Hu2 k); cbn; auto].
    - exfalso. apply (Hu2 m). cbn; auto.
    - unfold sp_deallocate in E. injection E as <-. cbn [fst].
      assert (IH' : forall x, In x s -> uslot n x).
      { apply IH. split; [intros k Hk; apply Hu1; cbn; auto|intros k Hk; apply (Hu2 k); cbn; auto]. }
      clear -IH'. induction s as [|[q len] s IHs]; cbn; [tauto|]. destruct (q =? p).
      + intros x [<-|Hx]; [|apply IH'; simpl; auto]. destruct (IH' (q, len) (or_introl eq_refl)) as [H0 H]. split; cbn in *; lia.
      + intros x [<-|Hx]; [apply IH'; simpl; auto|]. apply IHs; auto. intros y Hy; apply IH'; simpl; auto.
    - cbn in E. injection E as <-. apply IH. split; [intros k Hk; apply Hu1; cbn; auto|intros k Hk; apply (Hu2 k); cbn; auto].
    - apply IH. split; auto.
  Qed.

  (** The scan returns null exactly when every slot is in use. *)
  Lemma sp_scan_null n l : 0 < n <= limP -> forall pre (w : W) L, Inv w L -> (forall x, In x l -> uslot n x) ->
    ((forall x, In x l -> snd x = - n) -> exists sw', sp_scan W P n pre l w = Ok sw' 0) /\
    (forall sw', sp_scan W P n pre l w = Ok sw' 0 -> forall x, In x l -> snd x = - n).
  Proof.
    intros Hn. induction l as [|[q len] l IHl]; intros pre w L HI Hu; cbn [sp_scan].
    - split; [eauto|intros sw' _ x []].
    - destruct (Hu (q, len) (or_introl eq_refl)) as [U1 U2]. cbn [fst snd] in *.
      destruct (IHl ((q, len) :: pre) w L HI (fun x Hx => Hu x (or_intror Hx))) as [I1 I2].
      destruct (Z.eqb_spec len n) as [->|N1].
      + split.
        * intros Hx. specialize (Hx (q, n) (or_introl eq_refl)). cbn in Hx. lia.
        * intros sw' E. injection E as _ E0. specialize (U1 E0). lia.
      + destruct (Z.eqb_spec len 0) as [->|N2].
        * split.
          -- intros Hx. specialize (Hx (q, 0) (or_introl eq_refl)). cbn in Hx. lia.
          -- intros sw' E. pose proof (ps_alloc _ _ _ PS w L n HI Hn) as Ha.
             destruct (p_alloc P n w) as [w1 q1|w1 e| | |]; try discriminate. injection E as _ ->.
             cbn in Ha. apply (ps_good _ _ _ PS), good_nonnull in Ha. discriminate.
        * split.
          -- intros Hx. apply I1. intros x Hin. apply Hx. simpl; auto.
          -- intros sw' E x [<-|Hin]; [cbn; lia|]. eapply I2; eauto.
  Qed.

  Lemma used_all n l : 0 < n -> (forall x, In x l -> uslot n x) ->
    (length (flat_map sl_used l) = length l <-> forall x, In x l -> snd x = - n).
  Proof.
    intros Hn. induction l as [|[q len] l IHl]; intros Hu; [cbn; split; [intros _ x []|auto]|].
    specialize (IHl (fun x Hx => Hu x (or_intror Hx))). destruct (Hu (q, len) (or_introl eq_refl)) as [U1 U2].
    pose proof (sp_used_le l) as Hle. cbn [fst snd] in *.
    cbn [flat_map length]. rewrite app_length. unfold sl_used at 1. cbn [fst snd].
    destruct (Z.eqb_spec q 0) as [->|Hq].
    - specialize (U1 eq_refl). subst len. cbn [length]. split; [lia|].
      intros H. specialize (H (0, 0) (or_introl eq_refl)). cbn in H. lia.
    - destruct (Z.ltb_spec len 0); cbn [length].
      + assert (len = - n) by lia. subst len. split.
        * intros E x [<-|Hin]; [auto|]. apply IHl; [lia|auto].
        * intros H0. cbn [Nat.add]. apply f_equal, IHl. intros x Hx. apply H0. simpl; auto.
      + split; [lia|]. intros H0. specialize (H0 (q, len) (or_introl eq_refl)). cbn in H0. lia.
  Qed.

  Lemma sp_exhausted n t sw : 0 < n < 2 ^ 63 -> n <= limP -> Runs t sw -> uniform n t ->
    ((exists sw', st_alloc (SlotPool nslots) W P n sw = Ok sw' 0) <-> length (live t) = nslots).
  Proof.
    intros Hn Hnl Hr Hu. pose proof (sp_uniform_slots n t sw Hn Hnl Hr Hu) as Hs.
    destruct (sp_inv t sw Hr) as (L & (R1 & R2 & R3) & HI); [intros k Hk; rewrite (proj1 Hu k); auto|].
    rewrite (Permutation_length R2), <- (sp_length _ _ Hr). rewrite (used_all n (fst sw) ltac:(lia) Hs).
    destruct (sp_scan_null n (fst sw) ltac:(lia) [] (snd sw) L HI Hs) as [N1 N2].
    cbn [SlotPool st_alloc]. unfold sp_allocate, to_int64. destruct (Z.ltb_spec n (2 ^ 63)); [|lia].
    destruct (Z.ltb_spec n 0); [lia|]. split; [intros [sw' E]; eauto|auto].
  Qed.
End SlotPoolThms.

(** ** AlignedAllocator *)
Section AlignedThms.
  Context (A : Z) (HA : pow2_align A) {W : Type} (P : Parent W) (limP : Z) (Inv : W -> list region -> Prop).
  Hypothesis PS : ParentSpec P limP Inv.
  Hypothesis HM : limP < M64.
  Notation Runs := (runs (AlignedAllocator A) P Inv).

  Lemma al_inv t sw : Runs t sw -> (forall n, In n (requests t) -> n <= limP - (8 + A - 1)) ->
    exists L, al_rel A (fst sw) (live t) L /\ Inv (snd sw) L.
  Proof.
    intros Hr Hq.
    apply (runs_inv (AlignedAllocator A) P Inv (al_rel A) (fun _ n => 0 < n <= limP - (8 + A - 1)) limP
                (fun t => forall n, In n (requests t) -> n <= limP - (8 + A - 1)) PS
                (StratOk_Leaf _ _ _ _ (AlignedAllocator_ok A HA limP HM))); auto.
    - intros [] t' Ha m Hm; apply Ha; cbn; auto.
    - intros t' s w n e L _ Ha Hn Erq _. split; [lia|]. apply Ha. rewrite Erq. simpl; auto.
  Qed.

  Lemma al_aligned t sw : Runs t sw -> (forall n, In n (requests t) -> n <= limP - (8 + A - 1)) ->
    good (live t) /\
    exists L, Inv (snd sw) L /\ length L = length (live t) /\
      forall p n, In (p, n) (live t) -> p mod A = 0 /\
        exists b, In (b, n + 8 + A - 1) L /\ b + 8 <= p /\ p + n <= b + (n + 8 + A - 1).
  Proof.
    intros Hr Hq. destruct (al_inv t sw Hr Hq) as (L & HR & HI).
    split.
    - apply (lo_inside _ _ _ _ _ (StratOk_Leaf _ _ _ _ (AlignedAllocator_ok A HA limP HM)) _ _ _ HR). eapply ps_good; eauto.
    - exists L. split; [exact HI|]. destruct HR as (I & R1 & R2 & R3). split.
      + rewrite (Permutation_length R2), (Permutation_length R3), !map_length. reflexivity.
      + intros p n Hin. apply (Permutation_in _ R2), in_map_iff in Hin as (i & Ei & Hi).
        destruct (R1 i Hi) as [(O1 & O2 & O3) _]. unfold ai_user in Ei.
        assert (ai_ptr i = p) by congruence. assert (ai_n i = n) by congruence. subst p n.
        split; [exact O2|]. exists (ai_base i). unfold al_overhead in *. split; [|lia].
        eapply Permutation_in; [apply Permutation_sym, R3|]. apply in_map_iff. exists i. split; auto.
        unfold ai_held, al_overhead. f_equal. lia.
  Qed.

  (** What [deallocate] hands back is what the parent returned for that allocation. *)
  Lemma al_returns t' : forall t n p sw, Runs (t' ++ Got n p :: t) sw ->
    (forall m, In m (requests (t' ++ Got n p :: t)) -> m <= limP - (8 + A - 1)) ->
    (forall m, ~ In (Returned p m) t') ->
    In (p, n) (live (t' ++ Got n p :: t)) /\
    exists w w1 b, p_alloc P (n + 8 + A - 1) w = Ok w1 b /\
      forall cur w', st_dealloc (AlignedAllocator A) W P cur p n (fst sw, w') =
        omap (pair (fdel (fst sw) p)) (fun u => u) (p_dealloc P b (n + 8 + A - 1) w').
  Proof.
    pose proof (pow2_align_pos A HA) as HAp.
    intros t n p.
    assert (Hmain : forall tt sw, Runs tt sw -> forall t', tt = t' ++ Got n p :: t ->
      (forall m, In m (requests tt) -> m <= limP - (8 + A - 1)) ->
      (forall m, ~ In (Returned p m) t') ->
      In (p, n) (live tt) /\ 0 < n /\ exists w w1 b, p_alloc P (n + 8 + A - 1) w = Ok w1 b /\ fst sw p = Some b).
    { clear t'. induction 1 as [w w' s Hi E|tt [s w] m sw' q Hr IH Hn E Hp|tt [s w] m sw' Hr IH Hn E|tt [s w] m sw' e Hr IH Hn E
                   |tt [s w] cur q m sw' Hr IH Hin E|tt [s w] sw' Hr IH E|tt s w w' Hr IH He]; intros t' Et Hq Hno.
      - destruct t'; discriminate.
      - assert (Hm : m <= limP - (8 + A - 1)) by (apply Hq; cbn; auto).
        cbn [AlignedAllocator st_alloc] in E. unfold al_allocate, al_overhead in E.
        rewrite (w64_small (m + (8 + A - 1))) in E by lia.
        destruct (p_alloc P (m + (8 + A - 1)) w) as [w1 b|w1 e| | |] eqn:Ea; try discriminate. injection E as <- <-.
        set (buf := Z.land (w64 (b + (8 + A - 1))) (align_mask A)) in *.
        destruct t' as [|e t'].
        + cbn [app] in Et. injection Et as -> <- ->. cbn [live fst]. split; [simpl; auto|]. split; [lia|].
          exists w, w1, b. split; [replace (n + 8 + A - 1) with (n + (8 + A - 1)) by lia; exact Ea|apply fset_eq].
        + cbn [app] in Et. injection Et as <- Et.
          destruct (IH t' Et) as (I1 & I0 & I2); [intros k Hk; apply Hq; cbn; auto|intros k Hk; apply (Hno k); simpl; auto|].
          cbn [live fst] in *. split; [simpl; auto|]. split; [exact I0|].
          destruct I2 as (w2 & w3 & b2 & E2 & E3). exists w2, w3, b2. split; [exact E2|].
          rewrite fset_ne; [exact E3|]. intros ->.
          assert (Hr' : Runs (Got m buf :: tt) (fset s buf b, w1)).
          { apply (r_got _ _ _ tt (s, w)); auto. cbn [AlignedAllocator st_alloc]. unfold al_allocate, al_overhead.
            rewrite (w64_small (m + (8 + A - 1))) by lia. rewrite Ea. reflexivity. }
          destruct (al_aligned _ _ Hr' Hq) as [HG _]. cbn [live] in HG.
          assert (Hbad : n = m). { eapply (good_fst_inj _ buf); [exact HG| |]; simpl; auto. }
          subst m. apply good_NoDup in HG. inversion HG; contradiction.
      - destruct t' as [|e t']; cbn [app] in Et; [discriminate|]. injection Et as <- Et.
        assert (Hm : m <= limP - (8 + A - 1)) by (apply Hq; cbn; auto).
        cbn [AlignedAllocator st_alloc] in E. unfold al_allocate, al_overhead in E.
        rewrite (w64_small (m + (8 + A - 1))) in E by lia.
        destruct (al_inv tt (s, w) Hr) as (L & HR & HI); [intros k Hk; apply Hq; cbn; auto|].
        pose proof (so_alloc _ _ _ _ (AlignedAllocator_ok A HA limP HM) W P Inv s w _ L m PS HR HI) as Hok.
        cbn [AlignedAllocator st_alloc] in Hok. unfold al_allocate, al_overhead in Hok.
        rewrite (w64_small (m + (8 + A - 1))) in Hok by lia. rewrite E in Hok. specialize (Hok ltac:(lia)).
        destruct Hok as (L' & HR' & HI'). exfalso.
        destruct (so_inside _ _ _ _ (AlignedAllocator_ok A HA limP HM) _ _ _ HR' (ps_good _ _ _ PS _ _ HI')) as [HG _].
        apply good_nonnull in HG. discriminate.
      - destruct t' as [|e' t']; cbn [app] in Et; [discriminate|]. injection Et as <- Et.
        destruct (IH t' Et) as (I1 & I0 & I2); [intros k Hk; apply Hq; cbn; auto|intros k Hk; apply (Hno k); simpl; auto|].
        cbn [AlignedAllocator st_alloc] in E. unfold al_allocate in E.
        destruct (p_alloc P (w64 (m + al_overhead A)) w) as [w1 b|w1 e1| | |]; try discriminate. injection E as <- <-.
        cbn [live fst] in *. auto.
      - destruct t' as [|e' t']; cbn [app] in Et; [discriminate|]. injection Et as <- Et.
        destruct (IH t' Et) as (I1 & I0 & I2); [intros k Hk; apply Hq; cbn; auto|intros k Hk; apply (Hno k); simpl; auto|].
        assert (Hqp : q <> p) by (intros ->; apply (Hno m); simpl; auto).
        cbn [AlignedAllocator st_dealloc] in E. unfold al_deallocate in E.
        destruct (s q) as [b0|]; [|discriminate].
        destruct (p_dealloc P b0 (w64 (m + al_overhead A)) w) as [w1 u|w1 e1| | |]; try discriminate. cbn in E. injection E as <-.
        cbn [live fst] in *. split; [|split; [exact I0|]].
        + apply (Permutation_in _ (drop1_perm _ _ Hin)) in I1. destruct I1 as [I1|I1]; [congruence|exact I1].
        + destruct I2 as (w2 & w3 & b2 & E2 & E3). exists w2, w3, b2. split; [exact E2|]. rewrite fdel_ne; auto.
      - destruct t' as [|e' t']; cbn [app] in Et; [discriminate|]. injection Et as <- Et.
        destruct (IH t' Et) as (I1 & I0 & I2); [intros k Hk; apply Hq; cbn; auto|intros k Hk; apply (Hno k); simpl; auto|].
        cbn in E. injection E as <-. cbn [live fst] in *. auto.
      - destruct (IH t' Et Hq Hno) as (I1 & I0 & I2). cbn [fst] in *. auto. }
    intros sw Hr Hq Hno. destruct (Hmain _ _ Hr t' eq_refl Hq Hno) as (H1 & H0 & w & w1 & b & H2 & H3).
    split; [exact H1|]. exists w, w1, b. split; [exact H2|]. intros cur w'.
    cbn [AlignedAllocator st_dealloc]. unfold al_deallocate, al_overhead. rewrite H3.
    assert (Hn : n <= limP - (8 + A - 1)). { apply Hq. clear. induction t' as [|[] t' IH]; cbn; auto. }
    rewrite (w64_small (n + (8 + A - 1))) by lia.
    replace (n + (8 + A - 1)) with (n + 8 + A - 1) by lia. reflexivity.
  Qed.
End AlignedThms.
