(** Lemmas behind the properties of FixedSizePool. *)
From Verif Require Import Base BaseFacts StratModel StratFacts FixedPoolModel FixedPoolFacts BlockPoolModel.

Section BlockPoolFacts.
  Context (obj : Z) (np : nat) {W : Type} (P : Parent W) (limP : Z) (Inv : W -> list region -> Prop) (fuel : nat).
  Hypothesis PS : ParentSpec P limP Inv.
  Hypothesis Hobj : 0 < obj.
  Hypothesis Hnp : (0 < np)%nat.
  Hypothesis Hsm : Z.of_nat np < 2 ^ 26.
  Hypothesis Hl1 : Z.of_nat np * 32 * obj <= limP.
  Hypothesis Hl2 : 32 + Z.of_nat np * 4 <= limP.
  Hypothesis HM : limP < M64.

  Notation n32 := (np * 32)%nat.
  Notation dsz := (Z.of_nat np * 32 * obj).
  Notation hsz := (32 + Z.of_nat np * 4).

  Lemma per_eq : bs_per np = Z.of_nat np * 32.
  Proof. unfold bs_per. rewrite w64_small; unfold M64 in *; lia. Qed.
  Lemma dsz_eq : w64 (bs_per np * obj) = dsz.
  Proof. rewrite per_eq. apply w64_small. nia. Qed.
  Lemma hsz_eq : w64 (pool_struct + Z.of_nat np * 4) = hsz.
  Proof. unfold pool_struct. apply w64_small. lia. Qed.

  Definition bok (p : bpool) (U : list nat) : Prop :=
    words (bp_avail p) /\ length (bp_avail p) = np /\ NoDup U /\
    (forall i, In i U <-> (i < n32)%nat /\ nth i (concat (bp_avail p)) true = false) /\
    bp_num p = Z.of_nat n32 - Z.of_nat (length U).

  Definition slot (p : bpool) (i : nat) : Z := bp_data p + Z.of_nat i * obj.
  Definition bused (p : bpool) (U : list nat) : list Z := map (slot p) U.
  Definition bheld (p : bpool) : list region := [(bp_data p, dsz); (bp_head p, hsz)].

  Lemma bok_bound p U : bok p U -> (length U <= n32)%nat.
  Proof.
    intros (_ & _ & H3 & H4 & _). rewrite <- (seq_length n32 0). apply NoDup_incl_length; auto.
    intros i Hi. apply in_seq_nth. apply H4, Hi.
  Qed.

  Lemma bok_full p U : bok p U -> length U = n32 -> forall i, (i < n32)%nat -> In i U.
  Proof.
    intros (_ & _ & H3 & H4 & _) E i Hi.
    assert (Hincl : incl (seq 0 n32) U).
    { apply NoDup_length_incl; [exact H3|rewrite seq_length; lia|]. intros x Hx. apply in_seq_nth, H4, Hx. }
    apply Hincl, in_seq_nth, Hi.
  Qed.

  Lemma bnew_ok h d : bok (mkBpool h d (repeat (repeat true 32) np) (w32 (bs_per np))) [].
  Proof.
    unfold bok. cbn [bp_avail bp_num length].
    split; [apply Forall_forall; intros w Hw; apply repeat_spec in Hw; now subst|].
    split; [apply repeat_length|]. split; [constructor|]. split.
    - intros i. split; [intros []|]. intros (_ & H). exfalso. revert H.
      generalize np, (repeat_spec 32 true). generalize (repeat true 32). intros wd k Hwd. revert i. induction k as [|k IH]; intros i.
      + cbn. destruct i; discriminate.
      + cbn [repeat concat]. destruct (Nat.ltb_spec i (length wd)).
        * rewrite app_nth1 by auto. intros H'. assert (Hin : In false wd).
          { rewrite <- H'. now apply nth_In. } apply Hwd in Hin. discriminate.
        * rewrite app_nth2 by lia. apply IH.
    - rewrite per_eq, w32_small; unfold M32; lia.
  Qed.

  Lemma bscan_some l : forall k k' b, words l -> bs_scan k l = Some (k', b) ->
    exists j, k' = (k + j)%nat /\ (j < length l)%nat /\ (b < 32)%nat /\
              nth (j * 32 + b) (concat l) false = true /\
              forall i, (i < j * 32 + b)%nat -> nth i (concat l) true = false.
  Proof.
    induction l as [|w l IH]; intros k k' b Hw E; cbn [bs_scan] in E; [discriminate|].
    inversion Hw as [|? ? Hw1 Hw2]; subst. cbn [concat].
    destruct (first_set w) as [c|] eqn:Ef.
    - injection E as <- <-. destruct (first_set_some w c Ef) as (H1 & H2 & H3). exists 0%nat. cbn [Nat.mul Nat.add length].
      split; [lia|]. split; [lia|]. split; [lia|]. split; [rewrite app_nth1 by lia; exact H2|].
      intros i Hi. rewrite app_nth1 by lia. auto.
    - destruct (IH _ _ _ Hw2 E) as (j & H1 & H2 & H3 & H4 & H5). exists (S j). cbn [length].
      split; [lia|]. split; [lia|]. split; [exact H3|]. split.
      + rewrite app_nth2 by lia. rewrite <- H4. f_equal. lia.
      + intros i Hi. destruct (Nat.ltb_spec i 32).
        * rewrite app_nth1 by lia. apply (first_set_none w Ef). lia.
        * rewrite app_nth2 by lia. apply H5. lia.
  Qed.

  Lemma bscan_none l : forall k, words l -> bs_scan k l = None ->
    forall i, (i < length (concat l))%nat -> nth i (concat l) true = false.
  Proof.
    induction l as [|w l IH]; intros k Hw E i Hi; cbn [bs_scan] in E; [cbn in Hi; lia|].
    inversion Hw as [|? ? Hw1 Hw2]; subst. cbn [concat] in *. rewrite app_length in Hi.
    destruct (first_set w) as [c|] eqn:Ef; [discriminate|].
    destruct (Nat.ltb_spec i 32).
    - rewrite app_nth1 by lia. apply (first_set_none w Ef). lia.
    - rewrite app_nth2 by lia. apply (IH (S k)); auto. lia.
  Qed.

  Lemma balloc_in p U p' r : bok p U -> 0 < bp_data p -> bs_alloc_in obj p = (p', r) ->
    (r = 0 /\ p' = p /\ length U = n32) \/
    (exists i, r = slot p i /\ r <> 0 /\ bp_data p' = bp_data p /\ bp_head p' = bp_head p /\ bok p' (i :: U) /\
       (i < n32)%nat /\ ~ In i U /\ forall j, (j < i)%nat -> In j U).
  Proof.
    intros HP Hd E. pose proof (bok_bound p U HP) as Hb. pose proof HP as (H1 & H2 & H3 & H4 & H5).
    unfold bs_alloc_in in E. pose proof (words_length _ H1) as Hlen. rewrite H2 in Hlen.
    destruct (Z.eqb_spec (bp_num p) 0) as [E0|E0].
    - injection E as <- <-. left. repeat split; auto. lia.
    - right. destruct (bs_scan 0 (bp_avail p)) as [[k b]|] eqn:Es.
      + injection E as <- <-. destruct (bscan_some _ _ _ _ H1 Es) as (j & -> & S2 & S3 & S4 & S5). cbn [Nat.add] in *.
        set (i := (j * 32 + b)%nat) in *. exists i. assert (Hi : (i < n32)%nat) by lia.
        assert (Hni : ~ In i U).
        { intros Hin. apply H4 in Hin as [_ Hin]. rewrite (nth_indep _ true false) in Hin by lia. congruence. }
        split; [reflexivity|]. split; [nia|]. split; [auto|]. split; [auto|]. split; [|split; [exact Hi|split; [exact Hni|]]].
        * unfold bok. cbn [bp_avail bp_num length].
          split; [now apply words_upd|]. split; [now rewrite upd_length|]. split; [now constructor|]. split.
          -- intros i'. rewrite concat_upd by (auto; lia). fold i. rewrite upd_nth by lia.
             destruct (Nat.eqb_spec i' i) as [->|Hne].
             ++ rewrite (nth_indep _ true false) by lia. rewrite S4. cbn. intuition lia.
             ++ rewrite <- H4. cbn. intuition congruence.
          -- rewrite w32_small; unfold M32; lia.
        * intros j' Hj'. apply H4. split; [lia|]. apply S5, Hj'.
      + exfalso. assert (Hincl : incl (seq 0 n32) U).
        { intros i Hin. apply in_seq_nth in Hin. apply H4. split; auto. apply (bscan_none _ _ H1 Es i). lia. }
        apply NoDup_incl_length in Hincl; [|apply seq_NoDup]. rewrite seq_length in Hincl. lia.
  Qed.

  Lemma bfree_in p U i : bok p U -> In i U ->
    exists U', Permutation U (i :: U') /\ bok (bs_free_in obj p (slot p i)) U'.
  Proof.
    intros HP Hx. pose proof (bok_bound p U HP) as Hb. pose proof HP as (H1 & H2 & H3 & H4 & H5).
    assert (Hi : (i < n32)%nat /\ nth i (concat (bp_avail p)) true = false) by (now apply H4). destruct Hi as [Hi Hbit].
    apply in_split in Hx as (l1 & l2 & ->). exists (l1 ++ l2). split; [apply Permutation_sym, Permutation_middle|].
    unfold bs_free_in, slot. replace (Z.to_nat ((bp_data p + Z.of_nat i * obj - bp_data p) / obj)) with i.
    2: { replace (bp_data p + Z.of_nat i * obj - bp_data p) with (Z.of_nat i * obj) by lia. rewrite Z.div_mul by lia. lia. }
    assert (Hsum : i = (Nat.div i 32 * 32 + Nat.modulo i 32)%nat) by (pose proof (Nat.div_mod i 32 ltac:(lia)); lia).
    assert (Hm : (Nat.modulo i 32 < 32)%nat) by (apply Nat.mod_upper_bound; lia).
    assert (Hk : (Nat.div i 32 < length (bp_avail p))%nat) by lia.
    pose proof (words_length _ H1) as Hlen. rewrite H2 in Hlen.
    apply NoDup_remove in H3 as [N1 N2]. unfold bok. cbn [bp_avail bp_num].
    split; [now apply words_upd|]. split; [now rewrite upd_length|]. split; [exact N1|]. split.
    - intros j. rewrite concat_upd by auto. rewrite <- Hsum. rewrite upd_nth by lia.
      destruct (Nat.eqb_spec j i) as [->|Hne].
      + rewrite Hbit. cbn. split; [intros H; now elim N2|intuition discriminate].
      + rewrite <- H4. rewrite !in_app_iff. cbn. intuition congruence.
    - rewrite app_length in *. cbn [length] in *. rewrite w32_small; unfold M32; lia.
  Qed.

  (** ** All pools *)
  Definition ball (pools : list bpool) (Us : list (list nat)) : list Z :=
    concat (map (fun x => bused (fst x) (snd x)) (combine pools Us)).
  Definition bheld_all (pools : list bpool) : list region := concat (map bheld pools).

  Definition brel (s : bstate) (A : list Z) (L : list region) : Prop :=
    exists Us, Forall2 bok (bs_pools s) Us /\ Permutation A (ball (bs_pools s) Us) /\
      Permutation L (bheld_all (bs_pools s)) /\ bs_blocks s = w64 (Z.of_nat (length A)) /\ bs_pools s <> [].

  Lemma ball_cons p pools U Us : ball (p :: pools) (U :: Us) = bused p U ++ ball pools Us.
  Proof. reflexivity. Qed.

  Lemma ball_app a b ua ub : length a = length ua -> ball (a ++ b) (ua ++ ub) = ball a ua ++ ball b ub.
  Proof.
    revert ua. induction a as [|p a IH]; intros [|x ua] H; cbn in H; try discriminate; [reflexivity|].
    cbn [app]. rewrite !ball_cons, IH by lia. now rewrite app_assoc.
  Qed.

  Lemma ball_in pools Us q : Forall2 bok pools Us -> In q (ball pools Us) ->
    exists p U i, In p pools /\ In i U /\ bok p U /\ (i < n32)%nat /\ q = slot p i.
  Proof.
    induction 1 as [|p U pools Us Hp HF IH]; [intros []|]. rewrite ball_cons. intros Hin.
    apply in_app_or in Hin as [Hin|Hin].
    - apply in_map_iff in Hin as (i & <- & Hi). exists p, U, i. split; [now left|]. split; auto. split; auto. split; auto.
      destruct Hp as (_ & _ & _ & H4 & _). apply H4, Hi.
    - destruct (IH Hin) as (p' & U' & i & H1 & H2). exists p', U', i. split; [now right|exact H2].
  Qed.

  Lemma ball_count pools Us : Forall2 bok pools Us -> (length (ball pools Us) <= n32 * length pools)%nat.
  Proof.
    induction 1 as [|p U pools Us Hp HF IH]; [cbn; lia|]. rewrite ball_cons, app_length.
    pose proof (bok_bound _ _ Hp). unfold bused at 1. rewrite map_length. cbn [length]. lia.
  Qed.

  (** What the scan over all pools finds. *)
  Lemma btry l : forall Us l' r, Forall2 bok l Us -> (forall p, In p l -> 0 < bp_data p) -> bs_try obj l = (l', r) ->
    (r = 0 /\ l' = l /\ length (ball l Us) = (n32 * length l)%nat) \/
    (r <> 0 /\ exists l1 p p' l2 U1 U U2 i, l = l1 ++ p :: l2 /\ l' = l1 ++ p' :: l2 /\ Us = U1 ++ U :: U2 /\
       Forall2 bok l1 U1 /\ Forall2 bok l2 U2 /\ bok p U /\ bok p' (i :: U) /\ bp_data p' = bp_data p /\ bp_head p' = bp_head p /\
       r = slot p i /\ (i < n32)%nat /\ ~ In i U /\ (forall j, (j < i)%nat -> In j U) /\
       length (ball l1 U1) = (n32 * length l1)%nat).
  Proof.
    induction l as [|p l IH]; intros Us l' r HF Hd E; cbn [bs_try] in E.
    - injection E as <- <-. left. inversion HF; subst. split; auto.
    - inversion HF as [|? U ? Us' Hp HF']; subst.
      destruct (bs_alloc_in obj p) as [p' q] eqn:Ea.
      destruct (balloc_in p U p' q Hp (Hd p (or_introl eq_refl)) Ea)
        as [(-> & -> & Hfull)|(i & -> & Hnz & Hdat & Hhead & Hok & Hi & Hni & Hbef)].
      + cbn [Z.eqb] in E. destruct (bs_try obj l) as [t' r'] eqn:Et. injection E as <- <-.
        destruct (IH Us' t' r' HF' (fun x Hx => Hd x (or_intror Hx)) eq_refl)
          as [(-> & -> & Hf')|(Hr & l1 & p1 & p1' & l2 & U1 & V & U2 & i & -> & -> & -> & B1 & B2 & B3 & B4 & B5 & B6 & B7 & B8 & B9 & B10 & B11)].
        * left. split; auto. split; auto. rewrite ball_cons, app_length, Hf'. unfold bused. rewrite map_length. cbn [length]. lia.
        * right. split; auto. exists (p :: l1), p1, p1', l2, (U :: U1), V, U2, i.
          split; [auto|]. split; [auto|]. split; [auto|]. split; [now constructor|].
          repeat (split; [assumption|]). rewrite ball_cons, app_length, B11. unfold bused. rewrite map_length. cbn [length]. lia.
      + assert (Ez : (slot p i =? 0) = false) by (apply Z.eqb_neq; exact Hnz). rewrite Ez in E. injection E as <- <-.
        right. split; [exact Hnz|]. exists [], p, p', l, [], U, Us', i. split; [auto|]. split; [auto|]. split; [auto|].
        split; [constructor|]. repeat (split; [first [assumption|reflexivity]|]). cbn. lia.
  Qed.

  Lemma bheld_all_app a b : bheld_all (a ++ b) = bheld_all a ++ bheld_all b.
  Proof. unfold bheld_all. now rewrite map_app, concat_app. Qed.

  Lemma bheld_in p l : In p l -> In (bp_data p, dsz) (bheld_all l) /\ In (bp_head p, hsz) (bheld_all l).
  Proof.
    intros H. split; apply in_concat; exists (bheld p); (split; [now apply in_map|cbn; auto]).
  Qed.

  Lemma bheld_inv l r : In r (bheld_all l) -> exists p, In p l /\ (r = (bp_data p, dsz) \/ r = (bp_head p, hsz)).
  Proof.
    intros H. apply in_concat in H as (x & Hx & Hr). apply in_map_iff in Hx as (p & <- & Hp). exists p. split; auto.
    cbn in Hr. destruct Hr as [<-|[<-|[]]]; auto.
  Qed.

  Lemma brel_pos s A L : brel s A L -> good L -> forall p, In p (bs_pools s) -> 0 < bp_data p /\ 0 < bp_head p /\ bp_data p + dsz <= ASP.
  Proof.
    intros (Us & _ & _ & R3 & _) HG p Hp. destruct (bheld_in p _ Hp) as [H1 H2].
    apply (Permutation_in _ (Permutation_sym R3)) in H1. apply (Permutation_in _ (Permutation_sym R3)) in H2.
    destruct HG as [HW _]. pose proof (HW _ H1) as (A1 & B1 & C1). pose proof (HW _ H2) as (A2 & _ & _). cbn [fst snd] in *. auto.
  Qed.

  Lemma ball_good pools Us : Forall2 bok pools Us -> good (bheld_all pools) -> good (map (fun q => (q, obj)) (ball pools Us)).
  Proof.
    induction 1 as [|p U pools Us Hp HF IH]; intros HG; [apply good_nil|].
    rewrite ball_cons, map_app. cbn [bheld_all map concat] in HG. change (concat (map bheld pools)) with (bheld_all pools) in HG.
    unfold bheld in HG at 1. cbn [app] in HG. apply good_cons in HG as (G1 & G2 & G3). apply good_cons in G3 as (_ & _ & G3).
    assert (Hs : forall i, (i < n32)%nat -> wf_region (slot p i, obj) /\ inside (slot p i, obj) (bp_data p, dsz)).
    { intros i Hi. unfold wf_region, inside, slot in *. cbn [fst snd] in *. nia. }
    assert (HU : forall i, In i U -> (i < n32)%nat) by (intros i Hi; destruct Hp as (_ & _ & _ & H4 & _); apply H4, Hi).
    apply good_app. split; [|split; [auto|]].
    - split.
      + intros u Hu. apply in_map_iff in Hu as (q & <- & Hq). apply in_map_iff in Hq as (i & <- & Hi). apply Hs, HU, Hi.
      + destruct Hp as (_ & _ & H3 & _). clear -H3 Hobj. unfold bused. induction H3 as [|i U Hi H3 IH]; cbn; auto. split; auto.
        intros y Hy. apply in_map_iff in Hy as (q & <- & Hq). apply in_map_iff in Hq as (j & <- & Hj).
        assert (i <> j) by congruence. unfold disj, slot. cbn [fst snd]. nia.
    - intros u v Hu Hv. apply in_map_iff in Hu as (q & <- & Hq). apply in_map_iff in Hq as (i & <- & Hi).
      apply in_map_iff in Hv as (q & <- & Hq). destruct (ball_in _ _ _ HF Hq) as (p' & U' & j & Hp' & _ & _ & Hj & ->).
      destruct (Hs i (HU i Hi)) as (_ & B). pose proof (G2 (bp_data p', dsz)) as G.
      assert (Hin : In (bp_data p', dsz) ((bp_head p, hsz) :: bheld_all pools)) by (right; now apply bheld_in).
      specialize (G Hin). unfold disj, inside, slot in *. cbn [fst snd] in *. nia.
  Qed.

  (** ** Allocating *)
  Lemma bnew_pool w L : room obj np P w -> Inv w L ->
    exists w2 p, bs_new_pool obj np P w = Ok w2 p /\ bok p [] /\ Inv w2 (bheld p ++ L) /\
      exists w1, p_alloc P hsz w = Ok w1 (bp_head p) /\ p_alloc P dsz w1 = Ok w2 (bp_data p).
  Proof.
    intros (w1 & h & E1 & w2 & d & E2) HI. unfold bs_new_pool, malloc. rewrite hsz_eq, E1. cbn [bind].
    pose proof (ps_alloc _ _ _ PS w L hsz HI ltac:(lia)) as P1. rewrite E1 in P1. cbn [post] in P1.
    pose proof (ps_alloc _ _ _ PS w1 _ dsz P1 ltac:(nia)) as P2. rewrite E2 in P2. cbn [post] in P2.
    pose proof (ps_good _ _ _ PS _ _ P1) as G1. apply good_cons in G1 as ((G1 & _) & _). cbn [fst] in G1.
    destruct (Z.eqb_spec h 0); [lia|]. rewrite dsz_eq, E2. cbn [bind].
    eexists _, _. split; [reflexivity|]. split; [apply bnew_ok|]. split; [exact P2|]. exists w1. auto.
  Qed.

  Lemma btry_new s A L p : brel s A L -> good L -> length A = (n32 * length (bs_pools s))%nat -> bok p [] -> 0 < bp_data p ->
    exists p', bs_try obj (bs_pools s ++ [p]) = (bs_pools s ++ [p'], slot p 0) /\ bok p' [0%nat] /\ bp_data p' = bp_data p /\ bp_head p' = bp_head p.
  Proof.
    intros HR HG Hfull Hp Hd. pose proof (brel_pos s A L HR HG) as Hpos. destruct HR as (Us & R1 & R2 & _).
    rewrite (Permutation_length R2) in Hfull. clear R2.
    revert Hpos Hfull. induction R1 as [|q U l Us Hq R1 IH]; intros Hpos Hfull.
    - cbn [app bs_try]. destruct (bs_alloc_in obj p) as [p' r] eqn:Ea.
      destruct (balloc_in p [] p' r Hp Hd Ea) as [(_ & _ & Hc)|(i & -> & Hnz & Hdat & Hh & Hok & Hi & Hni & Hb)]; [cbn in Hc; lia|].
      destruct (Z.eqb_spec (slot p i) 0); [lia|].
      assert (i = 0%nat) by (destruct i; auto; destruct (Hb 0%nat ltac:(lia))). subst i.
      exists p'. auto.
    - rewrite ball_cons, app_length in Hfull. unfold bused in Hfull at 1. rewrite map_length in Hfull. cbn [length] in Hfull.
      pose proof (bok_bound _ _ Hq). pose proof (ball_count _ _ R1).
      cbn [app bs_try]. destruct (bs_alloc_in obj q) as [q' r] eqn:Ea.
      destruct (Hpos q (or_introl eq_refl)) as (Hq0 & _).
      destruct (balloc_in q U q' r Hq Hq0 Ea) as [(-> & -> & _)|(i & -> & _ & _ & _ & Hok & _ & _)].
      + cbn [Z.eqb]. destruct IH as (p' & E & H1); [intros x Hx; apply Hpos; now right|lia|].
        rewrite E. exists p'. auto.
      + apply bok_bound in Hok. cbn [length] in Hok. lia.
  Qed.

  Hypothesis Hf : (2 <= fuel)%nat.

  (** One allocation. *)
  Lemma bs_alloc_ok s w A L : brel s A L -> Inv w L ->
    (Z.of_nat (length A) < Z.of_nat np * 32 * bs_num_pools s ->
     exists s' l1 p l2 U1 U i, bs_pools s = l1 ++ p :: l2 /\
       bs_allocate obj np P fuel (s, w) = Ok (s', w) (slot p i) /\ brel s' (slot p i :: A) L /\
       map bp_data (bs_pools s') = map bp_data (bs_pools s) /\ map bp_head (bs_pools s') = map bp_head (bs_pools s) /\
       (i < n32)%nat /\ (forall j, (j < i)%nat -> In j U) /\ incl (bused p U) A /\
       Forall2 bok l1 U1 /\ length (ball l1 U1) = (n32 * length l1)%nat /\ incl (ball l1 U1) A) /\
    (Z.of_nat (length A) = Z.of_nat np * 32 * bs_num_pools s -> room obj np P w ->
     exists s' w1 w2 h d, p_alloc P hsz w = Ok w1 h /\ p_alloc P dsz w1 = Ok w2 d /\
       bs_allocate obj np P fuel (s, w) = Ok (s', w2) d /\ brel s' (d :: A) ((d, dsz) :: (h, hsz) :: L) /\
       map bp_data (bs_pools s') = map bp_data (bs_pools s) ++ [d] /\
       map bp_head (bs_pools s') = map bp_head (bs_pools s) ++ [h]) /\
    Z.of_nat (length A) <= Z.of_nat np * 32 * bs_num_pools s.
  Proof.
    intros HR HI. pose proof (ps_good _ _ _ PS _ _ HI) as HG. pose proof (brel_pos s A L HR HG) as Hpos.
    pose proof HR as (Us & R1 & R2 & R3 & R4 & R5). pose proof (ball_count _ _ R1) as Hcnt.
    pose proof (Permutation_length R2) as Elen. unfold bs_num_pools.
    destruct fuel as [|[|f]]; try lia. remember (S f) as f1 eqn:Ef. cbn [bs_allocate].
    destruct (bs_try obj (bs_pools s)) as [l' r] eqn:Et.
    destruct (btry _ _ _ _ R1 (fun p Hp => proj1 (Hpos p Hp)) Et)
      as [(-> & -> & Hfull)|(Hr & l1 & p & p' & l2 & U1 & U & U2 & i & E1 & -> & -> & B1 & B2 & B3 & B4 & B5 & B6 & -> & B8 & B9 & B10 & B11)].
    - split; [intros Hlt; lia|]. split; [|lia]. intros _ Hroom. cbn [Z.eqb].
      destruct (bnew_pool w L Hroom HI) as (w2 & p & E & Hp & HI2 & w1 & E1 & E2). rewrite E. subst f1. cbn [bs_allocate bs_pools bs_blocks].
      pose proof (ps_good _ _ _ PS _ _ HI2) as HG2. cbn [bheld app] in HG2. apply good_cons in HG2 as ((Hd & _) & _). cbn [fst] in Hd.
      destruct (btry_new s A L p HR HG ltac:(lia) Hp Hd) as (p' & Et' & Hp' & D1 & D2). rewrite Et'.
      assert (Es : slot p 0 = bp_data p) by (unfold slot; lia). rewrite Es. destruct (Z.eqb_spec (bp_data p) 0); [lia|].
      eexists _, w1, w2, (bp_head p), (bp_data p). split; [exact E1|]. split; [exact E2|]. split; [reflexivity|].
      cbn [bs_pools]. split; [|rewrite !map_app; cbn [map]; rewrite D1, D2; auto].
      exists (Us ++ [[0%nat]]). cbn [bs_pools bs_blocks length]. split; [now apply Forall2_snoc|]. split; [|split; [|split]].
      + rewrite ball_app by (eapply Forall2_len; eauto). cbn [ball combine map concat fst snd bused app].
        unfold slot. rewrite D1, <- R2. replace (bp_data p + Z.of_nat 0 * obj) with (bp_data p) by lia. apply Permutation_cons_append.
      + rewrite bheld_all_app. cbn [bheld_all map concat app bheld]. rewrite D1, D2, <- R3.
        apply (Permutation_trans (l' := [(bp_data p, dsz); (bp_head p, hsz)] ++ L)); [reflexivity|apply Permutation_app_comm].
      + rewrite R4. unfold w64. rewrite Zplus_mod_idemp_l. f_equal. lia.
      + destruct (bs_pools s); discriminate.
    - assert (Hlt : (length A < n32 * length (bs_pools s))%nat).
      { rewrite Elen, E1, ball_app by (eapply Forall2_len; eauto). rewrite ball_cons, !app_length, B11.
        pose proof (ball_count _ _ B2). apply bok_bound in B4. unfold bused at 1. rewrite map_length. cbn [length] in *. lia. }
      split; [|split; lia]. intros _. destruct (Z.eqb_spec (slot p i) 0); [lia|].
      eexists _, l1, p, l2, U1, U, i. split; [exact E1|]. split; [reflexivity|]. cbn [bs_pools bs_blocks].
      assert (HA : Permutation A (ball l1 U1 ++ bused p U ++ ball l2 U2)).
      { rewrite R2, E1, ball_app by (eapply Forall2_len; eauto). now rewrite ball_cons. }
      assert (Hh : bheld_all (l1 ++ p' :: l2) = bheld_all (bs_pools s)).
      { rewrite E1, !bheld_all_app. unfold bheld_all. cbn [map concat]. unfold bheld at 2 5. now rewrite B5, B6. }
      split; [|split; [|split; [|split; [exact B8|split; [exact B10|split; [|split; [exact B1|split; [exact B11|]]]]]]]].
      + exists (U1 ++ (i :: U) :: U2). cbn [bs_pools bs_blocks length]. split; [|split; [|split; [|split]]].
        * apply Forall2_app; auto.
        * rewrite ball_app by (eapply Forall2_len; eauto). rewrite ball_cons, HA. cbn [bused map app].
          replace (map (slot p') U) with (bused p U) by (apply map_ext; intros j; unfold slot; now rewrite B5).
          replace (slot p' i) with (slot p i) by (unfold slot; now rewrite B5). apply Permutation_middle.
        * rewrite Hh. exact R3.
        * rewrite R4. unfold w64. rewrite Zplus_mod_idemp_l. f_equal. lia.
        * destruct l1; discriminate.
      + rewrite E1, !map_app. cbn [map]. now rewrite B5.
      + rewrite E1, !map_app. cbn [map]. now rewrite B6.
      + intros q Hq. apply (Permutation_in _ (Permutation_sym HA)), in_or_app. right. apply in_or_app. now left.
      + intros q Hq. apply (Permutation_in _ (Permutation_sym HA)), in_or_app. now left.
  Qed.

  (** ** Returning *)
  Lemma bowns_spec p q : bp_owns obj np p q = true <-> bp_data p <= q < bp_data p + dsz.
  Proof. unfold bp_owns. rewrite per_eq. lia. Qed.

  Lemma bfree_pools q : forall pools Us, Forall2 bok pools Us -> good (bheld_all pools) -> In q (ball pools Us) ->
    exists pools' Us', bs_free_pools obj np q pools = Some pools' /\ Forall2 bok pools' Us' /\
      map bp_data pools' = map bp_data pools /\ map bp_head pools' = map bp_head pools /\
      Permutation (ball pools Us) (q :: ball pools' Us').
  Proof.
    intros pools Us HF. induction HF as [|p U pools Us Hp HF IH]; intros HG Hin; [destruct Hin|].
    cbn [bheld_all map concat] in HG. change (concat (map bheld pools)) with (bheld_all pools) in HG.
    unfold bheld in HG at 1. cbn [app] in HG. apply good_cons in HG as (G1 & G2 & G3). apply good_cons in G3 as (_ & _ & G3).
    cbn [bs_free_pools]. rewrite ball_cons in *. apply in_app_or in Hin as [Hin|Hin].
    - apply in_map_iff in Hin as (i & <- & Hi).
      assert (Hi' : (i < n32)%nat) by (destruct Hp as (_ & _ & _ & H4 & _); apply H4, Hi).
      assert (E : bp_owns obj np p (slot p i) = true) by (apply bowns_spec; unfold slot; nia). rewrite E.
      destruct (bfree_in p U i Hp Hi) as (U' & P1 & P2).
      exists (bs_free_in obj p (slot p i) :: pools), (U' :: Us). split; auto. split; [now constructor|].
      split; [reflexivity|]. split; [reflexivity|]. rewrite ball_cons. change (bused (bs_free_in obj p (slot p i)) U') with (bused p U').
      rewrite app_comm_cons. apply Permutation_app_tail. unfold bused. rewrite P1. reflexivity.
    - destruct (ball_in _ _ _ HF Hin) as (p' & U' & j & Hp' & _ & _ & Hj & ->).
      assert (E : bp_owns obj np p (slot p' j) = false).
      { apply not_true_iff_false. rewrite bowns_spec. intros Hc.
        assert (Hin' : In (bp_data p', dsz) ((bp_head p, hsz) :: bheld_all pools)) by (right; now apply bheld_in).
        specialize (G2 _ Hin'). unfold disj, slot in *. cbn [fst snd] in *. nia. }
      rewrite E. destruct (IH G3 Hin) as (pools' & Us' & E' & F' & D1 & D2 & P').
      rewrite E'. exists (p :: pools'), (U :: Us'). split; auto. split; [now constructor|].
      split; [cbn [map]; now rewrite D1|]. split; [cbn [map]; now rewrite D2|].
      rewrite ball_cons, P'. apply Permutation_sym, Permutation_middle.
  Qed.

  Lemma bheld_ext l l' : map bp_data l' = map bp_data l -> map bp_head l' = map bp_head l -> bheld_all l' = bheld_all l.
  Proof.
    revert l. induction l' as [|p l' IH]; intros [|q l] E1 E2; cbn [map] in *; try discriminate; [reflexivity|].
    injection E1 as D1 E1. injection E2 as D2 E2. unfold bheld_all in *. cbn [map concat]. rewrite (IH l E1 E2).
    unfold bheld. now rewrite D1, D2.
  Qed.

  Lemma bs_free_ok s w A L q : brel s A L -> Inv w L -> In q A ->
    exists s', bs_deallocate obj np q (s, w) = Ok (s', w) tt /\
      map bp_data (bs_pools s') = map bp_data (bs_pools s) /\ map bp_head (bs_pools s') = map bp_head (bs_pools s) /\
      forall A', Permutation A (q :: A') -> brel s' A' L.
  Proof.
    intros HR HI Hq. pose proof (ps_good _ _ _ PS _ _ HI) as HG. destruct HR as (Us & R1 & R2 & R3 & R4 & R5).
    destruct (bfree_pools q _ _ R1) as (l' & Us' & E & F & D1 & D2 & P').
    { eapply good_perm; eauto. }
    { eapply Permutation_in; eauto. }
    unfold bs_deallocate. rewrite E. eexists. split; [reflexivity|]. cbn [bs_pools bs_blocks]. split; [exact D1|]. split; [exact D2|].
    intros A' HA. exists Us'. cbn [bs_pools bs_blocks]. split; [exact F|]. split; [|split; [|split]].
    - apply (Permutation_cons_inv (a := q)). rewrite <- P', <- R2. now symmetry.
    - rewrite (bheld_ext _ _ D1 D2). exact R3.
    - rewrite R4, (Permutation_length HA). cbn [length]. unfold w64. rewrite Zminus_mod_idemp_l. f_equal. lia.
    - intros ->. cbn in D1. destruct (bs_pools s); [congruence|discriminate].
  Qed.

  Lemma bs_free_unknown s (w : W) q : (forall p, In p (bs_pools s) -> ~ (bp_data p <= q < bp_data p + dsz)) ->
    bs_deallocate obj np q (s, w) = Throw (s, w) OutOfMemory.
  Proof.
    intros H. unfold bs_deallocate. replace (bs_free_pools obj np q (bs_pools s)) with (@None (list bpool)); [reflexivity|].
    induction (bs_pools s) as [|p l IH]; cbn [bs_free_pools]; auto.
    destruct (bp_owns obj np p q) eqn:E; [apply bowns_spec in E; elim (H p); cbn; auto|].
    rewrite <- IH; auto. intros x Hx. apply H. now right.
  Qed.

  (** ** The destructor *)
  Lemma bs_destroy_ok l : forall w K, (forall p, In p l -> bp_data p <> 0 /\ bp_head p <> 0) -> Inv w (bheld_all l ++ K) ->
    post (bs_destroy obj np P l w) (fun w' _ => Inv w' K) (fun _ _ => False).
  Proof.
    induction l as [|p l IH]; intros w K Hnz HI; cbn [bs_destroy]; [exact HI|].
    destruct (Hnz p (or_introl eq_refl)) as [N1 N2]. unfold free. rewrite dsz_eq, hsz_eq.
    destruct (Z.eqb_spec (bp_data p) 0); [congruence|]. destruct (Z.eqb_spec (bp_head p) 0); [congruence|].
    cbn [bheld_all map concat bheld app] in HI. change (concat (map bheld l)) with (bheld_all l) in HI.
    pose proof (ps_dealloc _ _ _ PS _ _ _ _ HI) as D1. destruct (p_dealloc P (bp_data p) dsz w) as [w1 u| | | |]; cbn [bind post] in *; auto.
    pose proof (ps_dealloc _ _ _ PS _ _ _ _ D1) as D2. destruct (p_dealloc P (bp_head p) hsz w1) as [w2 u2| | | |]; cbn [bind post] in *; auto.
    apply IH; auto. intros x Hx. apply Hnz. now right.
  Qed.

  (** ** Histories *)
  Lemma bhist_rel A s w : bshist obj np P Inv fuel A s w -> exists L, brel s A L /\ Inv w L.
  Proof.
    induction 1 as [w w' s HI Hr E|A s w s' w' p H IH Hr E|A1 A2 p s w s' w' H IH E|A s w w' H IH Henv].
    - unfold bs_init in E. destruct (bnew_pool w [] Hr HI) as (w2 & p & E' & Hp & HI2 & _). rewrite E' in E. cbn [bind] in E.
      injection E as <- <-. exists (bheld p ++ []). split; [|exact HI2].
      exists [[]]. cbn [bs_pools bs_blocks]. split; [constructor; [exact Hp|constructor]|]. split; [reflexivity|].
      split; [reflexivity|]. split; [reflexivity|]. discriminate.
    - destruct IH as (L & HR & HI). destruct (bs_alloc_ok s w A L HR HI) as (H1 & H2 & H3).
      destruct (Z.ltb_spec (Z.of_nat (length A)) (Z.of_nat np * 32 * bs_num_pools s)) as [Hlt|Hge].
      + destruct (H1 Hlt) as (s1 & l1 & q & l2 & U1 & U & i & _ & E' & R & _). rewrite E' in E. injection E as <- <- <-. eauto.
      + destruct Hr as [Hr|Hr]; [lia|].
        destruct (H2 ltac:(lia) Hr) as (s1 & w1 & w2 & h & d & E1 & E2 & E' & R & _). rewrite E' in E. injection E as <- <- <-.
        exists ((d, dsz) :: (h, hsz) :: L). split; [exact R|].
        pose proof (ps_alloc _ _ _ PS w L hsz HI ltac:(lia)) as P1. rewrite E1 in P1. cbn [post] in P1.
        pose proof (ps_alloc _ _ _ PS w1 _ dsz P1 ltac:(nia)) as P2. rewrite E2 in P2. exact P2.
    - destruct IH as (L & HR & HI). exists L.
      destruct (bs_free_ok s w _ L p HR HI (in_elt p A1 A2)) as (s1 & E' & _ & _ & HR').
      rewrite E' in E. injection E as <- <-. split; [|exact HI]. apply HR'. apply Permutation_sym, Permutation_middle.
    - destruct IH as (L & HR & HI). exists L. auto.
  Qed.

  Notation Hist := (bshist obj np P Inv fuel).

  (** ** The properties *)
  Lemma bp_exclusive A s w : Hist A s w ->
    good (map (fun q => (q, obj)) A) /\
    exists L, Inv w L /\ Permutation L (map (fun d => (d, dsz)) (map bp_data (bs_pools s)) ++ map (fun h => (h, hsz)) (map bp_head (bs_pools s))) /\
      forall q, In q A -> exists d i, In d (map bp_data (bs_pools s)) /\ 0 <= i < Z.of_nat np * 32 /\ q = d + i * obj.
  Proof.
    intros H. destruct (bhist_rel A s w H) as (L & HR & HI). pose proof (ps_good _ _ _ PS _ _ HI) as HG.
    destruct HR as (Us & R1 & R2 & R3 & R4 & R5). split.
    - eapply good_perm; [apply Permutation_sym, Permutation_map, R2|]. apply ball_good; auto. eapply good_perm; eauto.
    - exists L. split; [exact HI|]. split.
      + rewrite R3. clear. induction (bs_pools s) as [|p l IH]; [reflexivity|]. cbn [bheld_all map concat bheld app].
        change (concat (map bheld l)) with (bheld_all l). rewrite IH. constructor. apply Permutation_middle.
      + intros q Hq. apply (Permutation_in _ R2) in Hq. destruct (ball_in _ _ _ R1 Hq) as (p & U & i & H1 & _ & _ & H2 & ->).
        exists (bp_data p), (Z.of_nat i). split; [now apply in_map|]. split; [lia|reflexivity].
  Qed.

  Lemma slots_all l U : forall q j, Forall2 bok l U -> length (ball l U) = (n32 * length l)%nat ->
    In q l -> (j < n32)%nat -> In (slot q j) (ball l U).
  Proof.
    intros q j HF. induction HF as [|p V l U Hp HF IH]; intros Hlen Hq Hj; [destruct Hq|].
    rewrite ball_cons, app_length in *. unfold bused in Hlen at 1. rewrite map_length in Hlen. cbn [length] in Hlen.
    pose proof (bok_bound _ _ Hp). pose proof (ball_count _ _ HF). apply in_or_app. destruct Hq as [<-|Hq].
    - left. apply in_map, (bok_full p V Hp); auto. lia.
    - right. apply IH; auto. lia.
  Qed.

  (** The first free object, in the order of the pools. *)
  Lemma bp_reuse A s w : Hist A s w -> Z.of_nat (length A) < Z.of_nat np * 32 * bs_num_pools s ->
    exists s' k d i, bs_allocate obj np P fuel (s, w) = Ok (s', w) (d + i * obj) /\ ~ In (d + i * obj) A /\
      nth_error (map bp_data (bs_pools s)) k = Some d /\ 0 <= i < Z.of_nat np * 32 /\
      (forall k' d' i', nth_error (map bp_data (bs_pools s)) k' = Some d' -> 0 <= i' < Z.of_nat np * 32 ->
         (k' < k)%nat \/ (k' = k /\ i' < i) -> In (d' + i' * obj) A) /\
      map bp_data (bs_pools s') = map bp_data (bs_pools s).
  Proof.
    intros H Hlt. destruct (bhist_rel A s w H) as (L & HR & HI).
    destruct (bs_alloc_ok s w A L HR HI) as (H1 & _ & _).
    destruct (H1 Hlt) as (s' & l1 & p & l2 & U1 & U & i & E1 & E & R & D1 & D2 & Hi & Hbef & Hincl & F1 & Hlen & Hincl1).
    exists s', (length l1), (bp_data p), (Z.of_nat i). split; [exact E|]. split; [|split; [|split; [lia|split; [|exact D1]]]].
    - assert (G : good (map (fun q => (q, obj)) (slot p i :: A))).
      { destruct R as (Us & R1 & R2 & R3 & _). eapply good_perm; [apply Permutation_sym, Permutation_map, R2|]. apply ball_good; auto.
        eapply good_perm; [exact R3|]. eapply ps_good; eauto. }
      cbn [map] in G. apply good_cons in G as (_ & G & _). intros Hin. specialize (G (slot p i, obj) (in_map (fun q => (q, obj)) _ _ Hin)).
      unfold disj in G. cbn [fst snd] in G. lia.
    - rewrite E1, map_app, nth_error_app2 by (rewrite map_length; lia). rewrite map_length, Nat.sub_diag. reflexivity.
    - intros k' d' i' En Hi' [Hk|[-> Hk]].
      + rewrite E1, map_app, nth_error_app1 in En by (rewrite map_length; lia).
        apply nth_error_In in En. apply in_map_iff in En as (q & <- & Hq).
        apply Hincl1. replace (bp_data q + i' * obj) with (slot q (Z.to_nat i')) by (unfold slot; rewrite Z2Nat.id; lia).
        apply slots_all; auto. lia.
      + rewrite E1, map_app, nth_error_app2 in En by (rewrite map_length; lia). rewrite map_length, Nat.sub_diag in En. cbn in En. injection En as <-.
        apply Hincl. replace (bp_data p + i' * obj) with (slot p (Z.to_nat i')) by (unfold slot; rewrite Z2Nat.id; lia).
        apply in_map, Hbef. lia.
  Qed.

  Lemma bp_grow A s w : Hist A s w -> Z.of_nat (length A) = Z.of_nat np * 32 * bs_num_pools s -> room obj np P w ->
    exists s' w1 w2 h d, p_alloc P hsz w = Ok w1 h /\ p_alloc P dsz w1 = Ok w2 d /\
      bs_allocate obj np P fuel (s, w) = Ok (s', w2) d /\ ~ In d A /\
      map bp_data (bs_pools s') = map bp_data (bs_pools s) ++ [d].
  Proof.
    intros H Hfull Hroom. destruct (bhist_rel A s w H) as (L & HR & HI).
    destruct (bs_alloc_ok s w A L HR HI) as (_ & H2 & _).
    destruct (H2 Hfull Hroom) as (s' & w1 & w2 & h & d & E1 & E2 & E & R & D1 & D2).
    exists s', w1, w2, h, d. split; [exact E1|]. split; [exact E2|]. split; [exact E|]. split; [|exact D1].
    assert (HH : Hist (d :: A) s' w2) by (eapply bh_alloc; eauto).
    destruct (bp_exclusive _ _ _ HH) as (G & _). cbn [map] in G. apply good_cons in G as (_ & G & _). intros Hin.
    specialize (G (d, obj) (in_map (fun q => (q, obj)) _ _ Hin)). unfold disj in G. cbn [fst snd] in G. lia.
  Qed.

  Lemma bp_count A s w : Hist A s w -> Z.of_nat (length A) <= Z.of_nat np * 32 * bs_num_pools s.
  Proof. intros H. destruct (bhist_rel A s w H) as (L & HR & HI). apply (bs_alloc_ok s w A L HR HI). Qed.

  Lemma bp_free A s w q : Hist A s w -> In q A ->
    exists s', bs_deallocate obj np q (s, w) = Ok (s', w) tt /\ map bp_data (bs_pools s') = map bp_data (bs_pools s).
  Proof.
    intros H Hq. destruct (bhist_rel A s w H) as (L & HR & HI).
    destruct (bs_free_ok s w A L q HR HI Hq) as (s' & E & D & _). eauto.
  Qed.

  Lemma bp_unknown A s w q : Hist A s w ->
    (forall d, In d (map bp_data (bs_pools s)) -> ~ (d <= q < d + dsz)) ->
    bs_deallocate obj np q (s, w) = Throw (s, w) OutOfMemory.
  Proof. intros _ H. apply bs_free_unknown. intros p Hp. apply H. now apply in_map. Qed.

  Lemma sum_const {A} (f : A -> region) (c : Z) l : (forall x, snd (f x) = c) -> sumZ (map snd (map f l)) = Z.of_nat (length l) * c.
  Proof. intros H. induction l as [|x l IH]; cbn [map sumZ length]; [reflexivity|]. rewrite IH, H. lia. Qed.

  Lemma bp_sizes A s w : Hist A s w ->
    bs_current_size obj s = obj * Z.of_nat (length A) /\
    exists L, Inv w L /\ bs_actual_size obj np s = sumZ (map snd L).
  Proof.
    intros H. destruct (bp_exclusive A s w H) as (HA & L & HI & HP & _). pose proof (bp_count A s w H) as Hc.
    destruct (bhist_rel A s w H) as (L' & HR & HI'). pose proof HR as (Us & R1 & R2 & R3 & R4 & R5). split.
    - apply good_sum in HA. rewrite (sum_const (fun q => (q, obj)) obj) in HA by auto.
      unfold bs_current_size. rewrite R4. unfold w64. rewrite Zmult_mod_idemp_l, Z.mod_small; unfold ASP, M64 in *; lia.
    - exists L. split; [exact HI|]. pose proof (good_sum L (ps_good _ _ _ PS _ _ HI)) as Hs. revert Hs.
      rewrite (sumZ_perm _ _ (Permutation_map snd HP)), map_app, sumZ_app.
      rewrite (sum_const (fun d => (d, dsz)) dsz), (sum_const (fun h => (h, hsz)) hsz) by auto. rewrite !map_length. intros Hs.
      unfold bs_actual_size, bs_num_pools, bs_total, pool_struct. rewrite per_eq. unfold w64. rewrite Zmult_mod_idemp_r.
      rewrite Z.mod_small; unfold ASP, M64 in *; nia.
  Qed.

  Lemma bp_destroyed A s w : Hist A s w ->
    post (bs_destroy obj np P (bs_pools s) w) (fun w' _ => Inv w' []) (fun _ _ => False).
  Proof.
    intros H. destruct (bhist_rel A s w H) as (L1 & HR & HI). pose proof (brel_pos s A L1 HR (ps_good _ _ _ PS _ _ HI)) as Hpos.
    destruct HR as (Us & R1 & R2 & R3 & R4 & R5). apply bs_destroy_ok.
    - intros p Hp. specialize (Hpos p Hp). lia.
    - rewrite app_nil_r. eapply ps_perm; eauto.
  Qed.
End BlockPoolFacts.
