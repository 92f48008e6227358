(** MonotonicAllocationStrategy and SlotPool as clients of a conforming parent. *)
From Verif Require Import Base BaseFacts StratModel StratFacts WrapModel.

(** ** MonotonicAllocationStrategy *)
Section Monotonic.
  Context (capacity : Z).

  Definition mo_rel (m : mono) (U L : list region) : Prop :=
    Permutation L [(mo_block m, capacity)] /\ 0 <= mo_size m < M64 /\ good U /\
    forall u, In u U -> mo_block m <= fst u /\ fst u + snd u <= mo_block m + mo_size m /\
                        fst u + snd u <= mo_block m + capacity.

  (** The counter does not wrap around. *)
  Definition mo_guard (m : mono) (n : Z) : Prop := 0 < n /\ mo_size m + n < M64.

  Lemma Monotonic_ok limP : 0 < capacity <= limP -> LeafOk (Monotonic capacity) mo_rel mo_guard False limP.
  Proof.
    intros Hcap. constructor; cbn [st_ty Monotonic st_make st_alloc st_dealloc st_release st_coalesce].
    - intros s U U' L L' H1 H2 (R1 & R2 & R3 & R4). split; [now rewrite <- H2|]. split; [exact R2|].
      split; [eapply good_perm; eauto|]. intros u Hu. apply R4.
      eapply Permutation_in; [apply Permutation_sym, H1|auto].
    - intros s U L (R1 & R2 & R3 & R4) HG. split; auto. intros u Hu.
      exists (mo_block s, capacity). split.
      + eapply Permutation_in; [apply Permutation_sym, R1|simpl; auto].
      + specialize (R4 u Hu). unfold inside. cbn. lia.
    - intros W P Inv w HP HI. unfold mo_init. apply post_omap.
      eapply post_impl; [| |apply (ps_alloc _ _ _ HP w [] capacity HI Hcap)]; auto.
      intros w' b Hw. exists [(b, capacity)]. split; auto. split; [reflexivity|].
      split; [unfold M64; cbn; lia|]. split; [apply good_nil|intros u []].
    - intros W P Inv m w U L n HP (R1 & R2 & R3 & R4) HI (Hn1 & Hn2). unfold mo_allocate. cbn [mo_size mo_block].
      rewrite (w64_small (mo_size m + n)) by lia.
      assert (HB : wf_region (mo_block m, capacity)).
      { apply (ps_good _ _ _ HP _ _ HI). eapply Permutation_in; [apply Permutation_sym, R1|simpl; auto]. }
      unfold wf_region in HB. cbn in HB.
      destruct (Z.ltb_spec capacity (mo_size m + n)) as [Hlt|Hge]; cbn [post fst snd].
      + exists L. split; auto. split; [exact R1|]. cbn [mo_block mo_size]. split; [lia|]. split; [exact R3|].
        intros u Hu. specialize (R4 u Hu). lia.
      + rewrite (w64_small (mo_block m + mo_size m)) by (unfold ASP, M64 in *; lia).
        assert (E : (mo_block m + mo_size m =? 0) = false) by lia. rewrite E.
        exists L. split; auto. split; [exact R1|]. cbn [mo_block mo_size]. split; [lia|]. split.
        * apply good_cons. split; [|split; [|exact R3]].
          -- unfold wf_region. cbn. lia.
          -- intros y Hy. specialize (R4 y Hy). unfold disj. cbn. lia.
        * intros u [<-|Hu]; cbn; [lia|]. specialize (R4 u Hu). lia.
    - intros W P Inv m w U L p n cur HP (R1 & R2 & R3 & R4) HI. cbn. exists L. split; auto.
      split; auto. split; auto. split; [apply good_cons in R3; tauto|]. intros u Hu. apply R4. simpl; auto.
    - intros W P Inv s w U L HP HR HI. now apply (no_release_ok _ _ mo_rel) with (L := L).
    - intros W P Inv s w U L cur HP HR HI. now apply (no_coalesce_ok _ _ mo_rel) with (L := L).
  Qed.
End Monotonic.

(** ** SlotPool *)
Section SlotPool.
  Context (nslots : nat).

  Definition sl_held (x : slot) : list region := if fst x =? 0 then [] else [(fst x, Z.abs (snd x))].
  Definition sl_used (x : slot) : list region :=
    if fst x =? 0 then [] else if snd x <? 0 then [(fst x, - snd x)] else [].
  Definition sl_ok (x : slot) : Prop := if fst x =? 0 then snd x <= 0 else snd x <> 0.

  Definition sp_rel (l : list slot) (U L : list region) : Prop :=
    (forall x, In x l -> sl_ok x) /\
    Permutation U (flat_map sl_used l) /\ Permutation L (flat_map sl_held l).

  Lemma sl_used_in_held x u : In u (sl_used x) -> In u (sl_held x).
  Proof.
    unfold sl_used, sl_held. destruct (fst x =? 0); auto.
    destruct (Z.ltb_spec (snd x) 0); simpl; [|tauto].
    intros [<-|[]]. left. f_equal. lia.
  Qed.

  Lemma sp_used_incl l u : In u (flat_map sl_used l) -> In u (flat_map sl_held l).
  Proof.
    intros H. apply in_flat_map in H as (x & Hx & Hu). apply in_flat_map. exists x. split; auto.
    now apply sl_used_in_held.
  Qed.

  Lemma good_sub_used l : good (flat_map sl_held l) -> good (flat_map sl_used l).
  Proof.
    induction l as [|x l IH]; [auto|]. cbn [flat_map]. rewrite !good_app. intros (H1 & H2 & H3).
    split; [|split; [auto|]].
    - destruct x as [p len]. unfold sl_held, sl_used in *. cbn [fst snd] in *. destruct (p =? 0); [apply good_nil|].
      destruct (Z.ltb_spec len 0); [|apply good_nil]. replace (- len) with (Z.abs len) by lia. exact H1.
    - intros a b Ha Hb. apply H3; [now apply sl_used_in_held|now apply sp_used_incl].
  Qed.

  Definition sp_guard (limP : Z) (_ : list slot) (n : Z) : Prop := 0 < n <= limP /\ n < M64.

  Lemma sp_scan_ok limP W (P : Parent W) Inv n : ParentSpec P limP Inv -> 0 < n <= limP ->
    forall l pre w U L,
    (forall x, In x (rev pre ++ l) -> sl_ok x) ->
    Permutation U (flat_map sl_used (rev pre ++ l)) -> Permutation L (flat_map sl_held (rev pre ++ l)) ->
    Inv w L ->
    post (sp_scan W P n pre l w)
         (fun sw p => exists L', sp_rel (fst sw) (if p =? 0 then U else (p, n) :: U) L' /\ Inv (snd sw) L')
         (fun sw _ => exists L', sp_rel (fst sw) U L' /\ Inv (snd sw) L').
  Proof.
    intros HP Hn. induction l as [|[p len] t IH]; intros pre w U L HO HU HL HI; cbn [sp_scan].
    - cbn [post fst snd]. exists L. rewrite app_nil_r in *. split; [|exact HI]. split; [exact HO|]. auto.
    - assert (Hx : sl_ok (p, len)) by (apply HO, in_or_app; simpl; auto). unfold sl_ok in Hx. cbn [fst snd] in Hx.
      assert (HO' : forall y, sl_ok y -> forall x, In x (rev pre ++ y :: t) -> sl_ok x).
      { intros y Hy x Hin. apply in_app_or in Hin as [Hin|[<-|Hin]]; auto; apply HO, in_or_app; simpl; auto. }
      destruct (Z.eqb_spec len n) as [->|Hne]; cbn [post fst snd].
      + destruct (Z.eqb_spec p 0) as [->|Hp]; [lia|].
        exists L. split; auto. split; [|split].
        * apply HO'. unfold sl_ok. cbn. destruct (Z.eqb_spec p 0); lia.
        * rewrite HU. rewrite !flat_map_app. cbn [flat_map]. unfold sl_used at 2 5. cbn [fst snd].
          destruct (Z.eqb_spec p 0); [lia|]. destruct (Z.ltb_spec n 0); [lia|]. destruct (Z.ltb_spec (- n) 0); [|lia].
          cbn [app]. replace (- - n) with n by lia. apply Permutation_middle.
        * rewrite HL. rewrite !flat_map_app. cbn [flat_map]. unfold sl_held at 2 5. cbn [fst snd].
          destruct (p =? 0); cbn [app]; [reflexivity|]. now rewrite Z.abs_opp.
      + destruct (Z.eqb_spec len 0) as [->|Hl0].
        * destruct (Z.eqb_spec p 0) as [->|Hp]; [|lia].
          pose proof (ps_alloc _ _ _ HP w L n HI Hn) as Ha.
          destruct (p_alloc P n w) as [w' q|w' e| | |]; cbn [post fst snd] in *; auto; try contradiction.
          -- pose proof (good_nonnull _ _ _ (ps_good _ _ _ HP _ _ Ha)) as Hq. rewrite Hq.
             exists ((q, n) :: L). split; auto. split; [|split].
             ++ apply HO'. unfold sl_ok. cbn [fst snd]. rewrite Hq. lia.
             ++ rewrite HU. rewrite !flat_map_app. cbn [flat_map]. unfold sl_used at 2 5. cbn [fst snd].
                rewrite Hq. cbn [Z.eqb app]. destruct (Z.ltb_spec (- n) 0); [|lia].
                replace (- - n) with n by lia. cbn [app]. apply Permutation_middle.
             ++ rewrite HL. rewrite !flat_map_app. cbn [flat_map]. unfold sl_held at 2 5. cbn [fst snd].
                rewrite Hq. cbn [Z.eqb app]. rewrite Z.abs_opp, Z.abs_eq by lia. apply Permutation_middle.
          -- exists L. split; auto. split; [|split].
             ++ apply HO'. unfold sl_ok. cbn. lia.
             ++ rewrite HU, !flat_map_app. reflexivity.
             ++ rewrite HL, !flat_map_app. reflexivity.
        * apply IH with (L := L); auto; cbn [rev]; rewrite <- app_assoc; auto.
  Qed.

  Lemma sp_flip_spec p n l :
    good (flat_map sl_held l) -> (forall x, In x l -> sl_ok x) -> In (p, n) (flat_map sl_used l) ->
    Permutation (flat_map sl_used l) ((p, n) :: flat_map sl_used (sp_flip p l)) /\
    flat_map sl_held (sp_flip p l) = flat_map sl_held l /\
    (forall x, In x (sp_flip p l) -> sl_ok x).
  Proof.
    induction l as [|[q len] t IH]; intros HG HO Hin; [destruct Hin|].
    cbn [flat_map] in HG, Hin. pose proof (HO (q, len) (or_introl eq_refl)) as Hx. unfold sl_ok in Hx. cbn [fst snd] in Hx.
    apply good_app in HG as (G1 & G2 & G3).
    cbn [sp_flip]. destruct (Z.eqb_spec q p) as [->|Hne].
    - assert (Hp : p <> 0).
      { intros ->. apply in_app_or in Hin as [Hin|Hin].
        - unfold sl_used in Hin. cbn in Hin. destruct Hin.
        - apply sp_used_incl, (proj1 G2) in Hin. unfold wf_region in Hin. cbn in Hin. lia. }
      assert (Hh : sl_held (p, len) = [(p, Z.abs len)]) by (unfold sl_held; cbn [fst snd]; destruct (Z.eqb_spec p 0); [contradiction|auto]).
      destruct (Z.eqb_spec p 0); [contradiction|].
      assert (Hno : ~ In (p, n) (flat_map sl_used t)).
      { intros Hc. apply sp_used_incl in Hc. rewrite Hh in *.
        specialize (G3 (p, Z.abs len) (p, n) (or_introl eq_refl) Hc).
        pose proof (proj1 G1 _ (or_introl eq_refl)) as W1. pose proof (proj1 G2 _ Hc) as W2.
        unfold disj, wf_region in *. cbn in *. lia. }
      apply in_app_or in Hin as [Hin|Hin]; [|contradiction].
      unfold sl_used in Hin. cbn [fst snd] in Hin. destruct (Z.eqb_spec p 0); [contradiction|].
      destruct (Z.ltb_spec len 0); [|destruct Hin]. destruct Hin as [Hin|[]]. assert (n = - len) by congruence. subst n.
      split; [|split].
      + cbn [flat_map]. unfold sl_used at 1 3. cbn [fst snd]. destruct (Z.eqb_spec p 0); [contradiction|].
        destruct (Z.ltb_spec len 0); [|lia]. destruct (Z.ltb_spec (- len) 0); [lia|]. reflexivity.
      + cbn [flat_map]. rewrite Hh. unfold sl_held at 1. cbn [fst snd]. destruct (Z.eqb_spec p 0); [contradiction|].
        now rewrite Z.abs_opp.
      + intros x [<-|Hx']; [|apply HO; simpl; auto]. unfold sl_ok. cbn. destruct (Z.eqb_spec p 0); [contradiction|lia].
    - apply in_app_or in Hin as [Hin|Hin].
      + unfold sl_used in Hin. cbn [fst snd] in Hin. destruct (q =? 0); [destruct Hin|].
        destruct (len <? 0); [|destruct Hin]. destruct Hin as [Hin|[]]. congruence.
      + destruct (IH G2 (fun x Hx' => HO x (or_intror Hx')) Hin) as (I1 & I2 & I3). split; [|split].
        * cbn [flat_map]. rewrite I1. apply Permutation_sym, Permutation_middle.
        * cbn [flat_map]. now rewrite I2.
        * intros x [<-|Hx']; [apply HO; simpl; auto|apply I3; exact Hx'].
  Qed.

  Lemma SlotPool_ok limP : LeafOk (SlotPool nslots) sp_rel (sp_guard limP) False limP.
  Proof.
    constructor; cbn [st_ty SlotPool st_make st_alloc st_dealloc st_release st_coalesce].
    - intros s U U' L L' H1 H2 (R1 & R2 & R3). split; auto. now rewrite <- H1, <- H2.
    - intros s U L (R1 & R2 & R3) HG. split.
      + eapply good_perm; [apply Permutation_sym, R2|]. apply good_sub_used. eapply good_perm; eauto.
      + eapply covered_perm; [apply Permutation_sym, R2|apply Permutation_sym, R3|].
        intros u Hu. exists u. split; [now apply sp_used_incl|apply inside_refl].
    - intros W P Inv w HP HI. cbn. exists []. split; auto.
      assert (E : forall x, In x (repeat (0, 0) nslots) -> x = (0, 0)) by (intros x; apply repeat_spec).
      split; [|split].
      + intros x Hx. rewrite (E x Hx). unfold sl_ok. cbn. lia.
      + clear E. induction nslots; cbn; auto.
      + clear E. induction nslots; cbn; auto.
    - intros W P Inv s w U L n HP (R1 & R2 & R3) HI Hn. unfold sp_allocate, sp_guard in *.
      unfold to_int64. destruct (Z.ltb_spec n (2 ^ 63)).
      + destruct (Z.ltb_spec n 0); [lia|]. apply (sp_scan_ok limP W P Inv n HP (proj1 Hn) s [] w U L); auto.
      + destruct (Z.ltb_spec (n - M64) 0); [|lia]. cbn [post fst snd].
        exists L. split; auto. split; auto.
    - intros W P Inv s w U L p n cur HP (R1 & R2 & R3) HI. cbn.
      assert (HG : good (flat_map sl_held s)) by (eapply good_perm; [exact R3|eapply ps_good; eauto]).
      assert (Hin : In (p, n) (flat_map sl_used s)) by (eapply Permutation_in; [exact R2|simpl; auto]).
      destruct (sp_flip_spec p n s HG R1 Hin) as (F1 & F2 & F3).
      exists L. split; auto. split; [exact F3|]. split.
      + rewrite F1 in R2. now apply Permutation_cons_inv in R2.
      + now rewrite F2.
    - intros W P Inv s w U L HP HR HI. now apply (no_release_ok _ _ sp_rel) with (L := L).
    - intros W P Inv s w U L cur HP HR HI. now apply (no_coalesce_ok _ _ sp_rel) with (L := L).
  Qed.
End SlotPool.
