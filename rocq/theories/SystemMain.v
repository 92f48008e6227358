(** The properties of the whole system, by induction over its histories. *)
From Verif Require Import Base BaseFacts HeapModel StratModel StratFacts QuickPoolModel FixedPoolModel
  GlobalModel GlobalSpec GlobalFacts GlobalFrame MapModel MapSpec AllocMapThms SystemModel SystemSpec SystemFacts.

(** ** Reading the statistics *)

Lemma gnode_kind C i w k s : gnode C i w = Some (existT _ k s) -> kind_at C i = Some k.
Proof.
  induction C as [|c C IH]; cbn [gnode]; [discriminate|]. rewrite kind_at_cons.
  destruct (Nat.eqb i (S (length C))); [intros [= <- _]; reflexivity|apply IH].
Qed.

Lemma current_size_own C i w : own_stats (kind_at C i) -> current_size C i w = st_cur (gstats C i w).
Proof.
  intros H. unfold current_size. destruct (gnode C i w) as [[k s]|] eqn:E; auto. rewrite (gnode_kind _ _ _ _ _ E) in H.
  destruct k; cbn in H; try contradiction; reflexivity.
Qed.

Lemma high_watermark_own C i w : own_stats (kind_at C i) -> high_watermark C i w = st_hwm (gstats C i w).
Proof.
  intros H. unfold high_watermark. destruct (gnode C i w) as [[k s]|] eqn:E; auto. rewrite (gnode_kind _ _ _ _ _ E) in H.
  destruct k; cbn in H; try contradiction; reflexivity.
Qed.

Lemma snap_own C i w st : own_stats (kind_at C i) -> snap C w i = Some st -> st = gstats C i w /\ (i <= length C)%nat.
Proof.
  intros H. unfold snap. destruct (Nat.leb_spec i (length C)); [|discriminate]. intros [= <-]. split; auto.
  rewrite (current_size_own _ _ _ H), (high_watermark_own _ _ _ H). unfold allocation_count. now destruct (gstats C i w).
Qed.

Lemma snap_some C i w : own_stats (kind_at C i) -> (i <= length C)%nat -> snap C w i = Some (gstats C i w).
Proof.
  intros H Hi. destruct (snap C w i) as [st|] eqn:E; [f_equal; now apply (snap_own _ _ _ _ H E)|].
  unfold snap in E. destruct (Nat.leb_spec i (length C)); [discriminate|lia].
Qed.

(** ** Totals *)

Lemma mine_cons i r g : mine i (r :: g) = if r_strat r =? Z.of_nat i then r :: mine i g else mine i g.
Proof. reflexivity. Qed.

Lemma bytes_cons r g : bytes (r :: g) = r_size r + bytes g.
Proof. reflexivity. Qed.

Lemma bytes_perm g g' : Permutation g g' -> bytes g = bytes g'.
Proof. induction 1; rewrite ?bytes_cons; try lia. Qed.

Lemma mine_perm i g g' : Permutation g g' -> Permutation (mine i g) (mine i g').
Proof. apply Permutation_filter. Qed.

Lemma totals g : good (map rreg g) -> (forall r, In r g -> 0 <= r_size r) ->
  forall i, 0 <= bytes (mine i g) < ASP /\ Z.of_nat (length (mine i g)) < ASP.
Proof.
  intros HG HS i. pose proof (good_sum _ HG) as Hs. rewrite map_map in Hs.
  assert (H : 0 <= bytes (mine i g) <= sumZ (map (fun x => snd (rreg x)) g) /\ Z.of_nat (length (mine i g)) <= sumZ (map (fun x => snd (rreg x)) g)).
  { clear HG Hs. induction g as [|r g IH]; [cbn; lia|]. destruct IH as (A & B); [intros; apply HS; now right|].
    specialize (HS r (or_introl eq_refl)). rewrite mine_cons. cbn [map sumZ]. set (S := sumZ _) in *. unfold rreg. cbn [snd].
    destruct (r_strat r =? Z.of_nat i), (Z.eqb_spec (r_size r) 0); rewrite ?bytes_cons; cbn [length]; lia. }
  lia.
Qed.

(** ** The statistics of one allocator along a history *)

Definition stat_law (q : list nat) (C : list nodecfg) (w : gworld C) (g : list arec) (t : list snapshot) : Prop :=
  forall j, (j <= length C)%nat ->
    (own_stats (kind_at C j) -> forall s st, In s t -> s j = Some st -> st_hwm st <= st_hwm (gstats C j w)) /\
    (~ In j q -> never_null (kind_at C j) ->
       st_cur (gstats C j w) = bytes (mine j g) /\ st_cnt (gstats C j w) = Z.of_nat (length (mine j g)) /\
       st_cur (gstats C j w) <= st_hwm (gstats C j w) /\
       (own_stats (kind_at C j) ->
          (forall s st, In s t -> s j = Some st -> st_cur st <= st_hwm (gstats C j w)) /\
          exists s st, In s t /\ s j = Some st /\ st_cur st = st_hwm (gstats C j w))).

(** How a call changes the program's allocations and the statistics of the allocator it is made on. *)
Inductive booked (C : list nodecfg) (i : nat) : (stats -> stats) -> list arec -> list arec -> Prop :=
| bk_none g : booked C i (fun s => s) g g
| bk_null n g : ~ never_null (kind_at C i) -> booked C i (stats_add n) g g
| bk_add r g : r_strat r = Z.of_nat i -> booked C i (stats_add (r_size r)) g (r :: g)
| bk_sub r g g' : r_strat r = Z.of_nat i -> 0 <= r_size r -> Permutation g (r :: g') -> booked C i (stats_sub (r_size r)) g g'.

Lemma stat_step q C w w' g g' t i f : stat_law q C w g t -> moved q C i f w w' -> booked C i f g g' ->
  (forall j, 0 <= bytes (mine j g) < ASP /\ Z.of_nat (length (mine j g)) < ASP) ->
  (forall j, 0 <= bytes (mine j g') < ASP /\ Z.of_nat (length (mine j g')) < ASP) ->
  stat_law q C w' g' (snap C w' :: t).
Proof.
  intros HL HM HB HT HT' j Hj. destruct (HL j Hj) as [L1 L2]. destruct (HM j Hj) as [M1 M2]. split.
  - intros Ho s st [<-|Hs] Es.
    + destruct (snap_own _ _ _ _ Ho Es) as [-> _]. lia.
    + specialize (L1 Ho s st Hs Es). lia.
  - intros Hc Hn. destruct M2 as [M2|M2]; [contradiction|]. destruct (L2 Hc Hn) as (A1 & A2 & A3 & A4).
    destruct (HT j) as (T1 & T2). destruct (HT' j) as (T3 & T4).
    assert (Hst : st_cur (gstats C j w') = bytes (mine j g') /\ st_cnt (gstats C j w') = Z.of_nat (length (mine j g')) /\
                  st_cur (gstats C j w') <= st_hwm (gstats C j w') /\
                  (st_hwm (gstats C j w') = st_hwm (gstats C j w) \/ st_hwm (gstats C j w') = st_cur (gstats C j w'))).
    { rewrite M2. destruct (Nat.eqb_spec j i) as [Eji|Hji].
      - subst j. inversion HB as [g0|n g0 Hnn|r g0 Er|r g0 g1 Er Hr HP0]; subst; clear HB.
        + auto.
        + contradiction.
        + rewrite mine_cons, Er, Z.eqb_refl in T3, T4 |- *. rewrite bytes_cons in T3 |- *. cbn [length] in T4 |- *.
          unfold stats_add. cbn [st_cur st_cnt st_hwm]. rewrite A1, A2 in *.
          rewrite !w64_small by (unfold ASP, M64 in *; lia).
          destruct (Z.ltb_spec (st_hwm (gstats C i w)) (bytes (mine i g) + r_size r)); lia.
        + pose proof (mine_perm i _ _ HP0) as HP. rewrite mine_cons, Er, Z.eqb_refl in HP.
          pose proof (bytes_perm _ _ HP) as E1. pose proof (Permutation_length HP) as E2. rewrite bytes_cons in E1. cbn [length] in E2.
          unfold stats_sub. cbn [st_cur st_cnt st_hwm]. rewrite A1, A2 in *.
          rewrite !w64_small by (unfold ASP, M64 in *; lia). lia.
      - assert (Hmine : bytes (mine j g') = bytes (mine j g) /\ length (mine j g') = length (mine j g)).
        { inversion HB as [g0|n g0 Hnn|r g0 Er|r g0 g1 Er Hr HP0]; subst; auto.
          - rewrite mine_cons, Er. destruct (Z.eqb_spec (Z.of_nat i) (Z.of_nat j)); [lia|auto].
          - pose proof (mine_perm j _ _ HP0) as HP. rewrite mine_cons, Er in HP. destruct (Z.eqb_spec (Z.of_nat i) (Z.of_nat j)); [lia|].
            split; [symmetry; now apply bytes_perm|symmetry; now apply Permutation_length]. }
        destruct Hmine as [E1 E2]. rewrite E1, E2. auto. }
    destruct Hst as (S1 & S2 & S3 & S4). split; [exact S1|]. split; [exact S2|]. split; [exact S3|].
    intros Ho. destruct (A4 Ho) as [B1 B2]. split.
    + intros s st [<-|Hs] Es; [destruct (snap_own _ _ _ _ Ho Es) as [-> _]; exact S3|]. specialize (B1 s st Hs Es). lia.
    + destruct S4 as [S4|S4].
      * destruct B2 as (s & st & Hs & Es & Ec). exists s, st. split; [now right|]. split; auto. congruence.
      * exists (snap C w'), (gstats C j w'). split; [now left|]. split; [now apply snap_some|]. congruence.
Qed.

(** Nothing is claimed about the allocators in [q]. *)
Lemma stat_law_ext q q' C w g g' t : stat_law q C w g t -> (forall j, In j q -> In j q') ->
  (forall j, ~ In j q' -> bytes (mine j g') = bytes (mine j g) /\ length (mine j g') = length (mine j g)) -> stat_law q' C w g' t.
Proof.
  intros HL Hq Hm j Hj. destruct (HL j Hj) as [L1 L2]. split; [exact L1|]. intros Hc Hn. destruct (Hm j Hc) as [E1 E2]. rewrite E1, E2.
  apply L2; auto.
Qed.

Lemma stat_create q C c w v g t : stat_law q C w g t ->
  gstats (c :: C) (S (length C)) v = stats0 -> mine (S (length C)) g = [] ->
  (forall s st, In s t -> s (S (length C)) = Some st -> False) ->
  (forall j, (j <= length C)%nat -> st_hwm (gstats C j w) <= st_hwm (gstats (c :: C) j v) /\
     (In j (nc_parent c :: q) \/ gstats (c :: C) j v = gstats C j w)) ->
  stat_law (nc_parent c :: q) (c :: C) v g (snap (c :: C) v :: t).
Proof.
  intros HL H0 Hm Ht HM j Hj. destruct (Nat.eq_dec j (S (length C))) as [->|Hne].
  - rewrite H0, Hm. split.
    + intros Ho s st [<-|Hs] Es; [|elim (Ht s st Hs Es)]. destruct (snap_own _ _ _ _ Ho Es) as [-> _]. rewrite H0. lia.
    + intros Hc Hn. split; [reflexivity|]. split; [reflexivity|]. split; [cbn; lia|]. intros Ho. split.
      * intros s st [<-|Hs] Es; [|elim (Ht s st Hs Es)]. destruct (snap_own _ _ _ _ Ho Es) as [-> _]. rewrite H0. cbn; lia.
      * exists (snap (c :: C) v), stats0. split; [now left|]. split; [rewrite <- H0; now apply snap_some|reflexivity].
  - cbn [length] in Hj. assert (Hj' : (j <= length C)%nat) by lia. destruct (HL j Hj') as [L1 L2]. destruct (HM j Hj') as [M1 M2].
    pose proof (kind_app c C j Hj') as Ek. split.
    + intros Ho s st [<-|Hs] Es; [destruct (snap_own _ _ _ _ Ho Es) as [-> _]; lia|]. rewrite Ek in Ho. specialize (L1 Ho s st Hs Es). lia.
    + intros Hc Hn. destruct M2 as [M2|M2]; [contradiction|]. rewrite Ek in Hn.
      destruct L2 as (A1 & A2 & A3 & A4); [intros Hq; apply Hc; now right|exact Hn|].
      rewrite M2. split; [exact A1|]. split; [exact A2|]. split; [exact A3|]. intros Ho. pose proof Ho as Ho'. rewrite Ek in Ho'. destruct (A4 Ho') as [B1 B2]. split.
      * intros s st [<-|Hs] Es; [destruct (snap_own _ _ _ _ Ho Es) as [-> _]; rewrite M2; exact A3|eauto].
      * destruct B2 as (s & st & Hs & Es & Ec). exists s, st. split; [now right|auto].
Qed.

Section Main.
  Context (J : Judy (list arec)) (sparse : (Z -> Prop) -> Prop) (jrel : j_ty J -> fmap (list arec) -> cursor -> Prop)
    (jloc : j_ty J -> j_loc J -> Z -> Prop) (jplain : j_ty J -> Prop) (JS : JudySpec J sparse jrel jloc jplain).
  Context (ok : (Z -> Prop) -> Prop) (Hok : monotone ok).
  Notation sinv := (sinv J ok).

  Definition known (C : list nodecfg) (t : list snapshot) : Prop :=
    forall s j st, In s t -> s j = Some st -> (j <= length C)%nat.

  Definition all_inv (q : list nat) (C : list nodecfg) (sw : sworld J (C ++ boot)) (g : list arec) (t : list snapshot) : Prop :=
    sinv C (fst sw) (snd sw) g /\ stat_law q (C ++ boot) (fst sw) g t /\ known (C ++ boot) t /\ parents_in q (C ++ boot).

  Lemma sinv_totals C w a g : sinv C w a g -> forall j, 0 <= bytes (mine j g) < ASP /\ Z.of_nat (length (mine j g)) < ASP.
  Proof. intros HS. apply totals; [apply HS|]. intros r Hr. now apply (si_strat _ _ _ _ _ _ HS). Qed.

  Lemma known_snap C t (w : gworld C) : known C t -> known C (snap C w :: t).
  Proof.
    intros H s j st [<-|Hs]; [|eauto]. unfold snap. destruct (Nat.leb_spec j (length C)); [auto|discriminate].
  Qed.

  Lemma inv_step q C sw sw' g g' t i f : all_inv q C sw g t -> sinv C (fst sw') (snd sw') g' ->
    moved q (C ++ boot) i f (fst sw) (fst sw') -> booked (C ++ boot) i f g g' ->
    all_inv q C sw' g' (snap (C ++ boot) (fst sw') :: t).
  Proof.
    intros (H1 & H2 & H3 & H4) HS HM HB. split; [exact HS|]. split; [|split; [now apply known_snap|exact H4]].
    eapply stat_step; eauto; eapply sinv_totals; eauto.
  Qed.

  Lemma moved_refl q C i w : moved q C i (fun s => s) w w.
  Proof. intros j Hj. split; [lia|]. right. now destruct (Nat.eqb j i). Qed.

  Lemma same_step q C sw sw' g t : all_inv q C sw g t -> fst sw' = fst sw -> sinv C (fst sw) (snd sw') g ->
    all_inv q C sw' g (snap (C ++ boot) (fst sw') :: t).
  Proof.
    intros H E HS. apply (inv_step q C sw sw' g g t 0 (fun s => s)); auto; rewrite ?E; auto; [apply moved_refl|constructor].
  Qed.

  Lemma find_in p (g : list arec) : (exists r, In r g /\ r_ptr r = p) \/ forall r, In r g -> r_ptr r <> p.
  Proof.
    induction g as [|x g IH]; [right; intros r []|]. destruct (Z.eq_dec (r_ptr x) p).
    - left. exists x. split; auto. now left.
    - destruct IH as [(r & A & B)|H]; [left; exists r; split; auto; now right|]. right. intros r [<-|Hr]; auto.
  Qed.

  (** Every successful deallocation is one of a live allocation, through its own allocator. *)
  Lemma dealloc_done q C w a g i p sw' : parents_in q (C ++ boot) -> sinv C w a g -> addr_ok p ->
    sys_deallocate J (C ++ boot) i p (w, a) = Ok sw' tt ->
    (p = 0 /\ sw' = (w, a) /\ forget p g = g) \/
    exists r, In r g /\ r_ptr r = p /\ r_strat r = Z.of_nat i /\
      sinv C (fst sw') (snd sw') (forget p g) /\ moved q (C ++ boot) i (stats_sub (r_size r)) w (fst sw').
  Proof.
    intros Hq HS Hp E. destruct (Z.eq_dec p 0) as [E0|Hp0].
    - left. rewrite E0 in E. cbn in E. injection E as <-. split; auto. split; auto. apply forget_absent.
      intros r Hr Er. pose proof (sinv_ptr _ _ _ _ _ _ r HS Hr). lia.
    - right. destruct (find_in p g) as [(r & Hr & Ep)|Hno].
      + destruct (Z.eq_dec (r_strat r) (Z.of_nat i)) as [Es|Es].
        * pose proof (sys_deallocate_right J sparse jrel jloc jplain JS ok Hok q C w a g i r Hq HS Hr Es) as H. rewrite Ep, E in H. cbn [post] in H.
          exists r. tauto.
        * destruct (sys_deallocate_wrong J sparse jrel jloc jplain JS ok Hok C w a g i p HS Hp Hp0) as (a' & E' & _); [|congruence].
          intros r' Hr' Ep' Es'. apply Es. assert (r' = r); [|congruence].
          pose proof (sinv_nodup _ _ _ _ _ _ HS) as Hn. clear -Hr Hr' Ep Ep' Hn. subst p.
          induction g as [|x g IH]; [destruct Hr|]. cbn [map] in Hn. inversion Hn as [|? ? H1 H2]; subst.
          destruct Hr as [->|Hr], Hr' as [->|Hr']; auto.
          -- elim H1. rewrite <- Ep'. now apply in_map.
          -- elim H1. rewrite Ep'. now apply in_map.
      + destruct (sys_deallocate_wrong J sparse jrel jloc jplain JS ok Hok C w a g i p HS Hp Hp0) as (a' & E' & _); [|congruence].
        intros r Hr Ep. elim (Hno r Hr Ep).
  Qed.

  Lemma gone_own i p g r : NoDup (map r_ptr g) -> In r g -> r_ptr r = p -> r_strat r = Z.of_nat i -> gone i p g = forget p g.
  Proof.
    intros Hn Hr Ep Es. induction g as [|x g IH]; [contradiction|]. cbn [map] in Hn. inversion Hn as [|? ? Hx Hn']; subst. cbn [gone forget].
    destruct Hr as [->|Hr]; [now rewrite Es, !Z.eqb_refl|]. rewrite IH by auto. destruct (Z.eqb_spec (r_ptr x) (r_ptr r)) as [E|E]; [|reflexivity].
    elim Hx. rewrite E. now apply in_map.
  Qed.

  Lemma gone_other i p g : (forall r, In r g -> r_ptr r = p -> r_strat r <> Z.of_nat i) -> gone i p g = g.
  Proof.
    induction g as [|x g IH]; intros H; [reflexivity|]. cbn [gone]. pose proof (H x (or_introl eq_refl)).
    replace ((r_ptr x =? p) && (r_strat x =? Z.of_nat i)) with false by lia. f_equal. apply IH. intros r Hr. apply H. now right.
  Qed.

  Lemma dealloc_thrown q C w a g i p sw' e : parents_in q (C ++ boot) -> sinv C w a g -> addr_ok p ->
    sys_deallocate J (C ++ boot) i p (w, a) = Throw sw' e ->
    (fst sw' = w /\ sinv C w (snd sw') g /\ gone i p g = g /\ forall r, In r g -> r_ptr r = p -> r_strat r <> Z.of_nat i) \/
    exists r, In r g /\ r_ptr r = p /\ r_strat r = Z.of_nat i /\ coalescing (kind_at (C ++ boot) i) /\ gone i p g = forget p g /\
      sinv C (fst sw') (snd sw') (forget p g) /\ moved q (C ++ boot) i (stats_sub (r_size r)) w (fst sw').
  Proof.
    intros Hq HS Hp E. destruct (Z.eq_dec p 0) as [E0|Hp0]; [rewrite E0 in E; discriminate|].
    assert (Hd : (exists r, In r g /\ r_ptr r = p /\ r_strat r = Z.of_nat i) \/ forall r, In r g -> r_ptr r = p -> r_strat r <> Z.of_nat i).
    { clear. induction g as [|x g IH]; [right; intros r []|]. destruct IH as [(r & A & B)|H]; [left; exists r; split; auto; now right|].
      destruct (Z.eq_dec (r_ptr x) p), (Z.eq_dec (r_strat x) (Z.of_nat i)).
      1: left; exists x; split; auto; now left.
      all: right; intros r [<-|Hr]; auto; congruence. }
    destruct Hd as [(r & Hr & Ep & Es)|Hno].
    - pose proof (sys_deallocate_right J sparse jrel jloc jplain JS ok Hok q C w a g i r Hq HS Hr Es) as H. rewrite Ep, E in H. cbn [post] in H.
      right. exists r. pose proof (gone_own i p g r (sinv_nodup _ _ _ _ _ _ HS) Hr Ep Es). tauto.
    - destruct (sys_deallocate_wrong J sparse jrel jloc jplain JS ok Hok C w a g i p HS Hp Hp0 Hno) as (a' & E' & HS').
      rewrite E in E'. injection E' as -> _. left. pose proof (gone_other i p g Hno). auto.
  Qed.

  Lemma Xof_nil g j : (forall r, In r g -> rnode r <> j) -> Xof g j = [].
  Proof.
    induction g as [|r g IH]; intros H; [reflexivity|]. rewrite Xof_cons. destruct (Nat.eqb_spec (rnode r) j) as [E|]; [elim (H r (or_introl eq_refl) E)|].
    apply IH. intros r' Hr'. apply H. now right.
  Qed.

  Lemma mine_nil g j : (forall r, In r g -> r_strat r <> Z.of_nat j) -> mine j g = [].
  Proof.
    induction g as [|r g IH]; intros H; [reflexivity|]. rewrite mine_cons. destruct (Z.eqb_spec (r_strat r) (Z.of_nat j)) as [E|]; [elim (H r (or_introl eq_refl) E)|].
    apply IH. intros r' Hr'. apply H. now right.
  Qed.

  Lemma sinv_top C w a g : sinv C w a g -> Xof g (S (length (C ++ boot))) = [] /\ mine (S (length (C ++ boot))) g = [].
  Proof.
    intros HS. split.
    - apply Xof_nil. intros r Hr. unfold rnode. destruct (si_strat _ _ _ _ _ _ HS r Hr) as (Hu & _). apply usable_le in Hu.
      destruct (r_size r =? 0); [rewrite app_length; cbn; unfold zero_id; lia|lia].
    - apply mine_nil. intros r Hr. destruct (si_strat _ _ _ _ _ _ HS r Hr) as (Hu & H0 & _). apply usable_le in Hu. lia.
  Qed.

  Lemma usable_mono c C i : usable (C ++ boot) i -> usable ((c :: C) ++ boot) i.
  Proof. unfold usable. cbn [app length]. lia. Qed.

  Lemma create_ok q C w a g t c : all_inv q C (w, a) g t -> node_ok (C ++ boot) c -> usable (C ++ boot) (nc_parent c) ->
    post (gcreate (C ++ boot) c w)
      (fun _ v => all_inv (nc_parent c :: q) (c :: C) (v, a) g (snap ((c :: C) ++ boot) v :: t))
      (fun w' _ => all_inv (nc_parent c :: q) C (w', a) g (snap (C ++ boot) w' :: t)).
  Proof.
    intros (HS & HL & HK & HQ) Hn Hu. destruct (sinv_top _ _ _ _ HS) as [HX Hm]. cbn [fst snd] in *.
    assert (HC' : config_ok (c :: C ++ boot)) by (split; [exact Hn|apply HS]).
    assert (HQ' : parents_in (nc_parent c :: q) (c :: C ++ boot)).
    { intros d [<-|Hd]; [now left|right; auto]. }
    pose proof (gcreate_steps (Qm (nc_parent c :: q)) (C ++ boot) c (Qm_refl _) (Qm_step _ _ HQ') HC' w (Xof g) (si_gi _ _ _ _ _ _ HS) HX) as H.
    pose proof (sinv_totals _ _ _ _ HS) as HT.
    destruct HS as [S1 S2 S3 S4 S5 S6 S7]. cbn [fst snd] in *.
    destruct (gcreate (C ++ boot) c w) as [w' v|w' e| | |]; cbn [post] in *; auto.
    - destruct H as (HG & H0 & HM). split; [|split; [|split; [|exact HQ']]].
      + constructor; auto.
        * intros d [<-|Hd]; auto. eapply usable_elsewhere; eauto.
        * intros r Hr. destruct (S6 r Hr) as (A & B). split; [now apply usable_mono|exact B].
      + cbn [fst]. apply (stat_create q (C ++ boot) c w v g t HL H0 Hm); auto.
        intros s st Hs Es. specialize (HK s _ st Hs Es). lia.
      + apply known_snap. intros s j st Hs Es. specialize (HK s j st Hs Es). cbn [app length]. lia.
    - destruct H as (HG & HM). split; [constructor; auto|]. split; [|split; [now apply known_snap|intros d Hd; apply HQ'; now right]]. cbn [fst].
      assert (HL' : stat_law (nc_parent c :: q) (C ++ boot) w g t).
      { intros j Hj. destruct (HL j Hj) as [L1 L2]. split; [exact L1|]. intros Hc. apply L2. intros Hi. apply Hc. now right. }
      apply (stat_step (nc_parent c :: q) (C ++ boot) w w' g g t 0%nat (fun s => s)); auto.
      + intros j Hj. destruct (HM j Hj) as [M1 M2]. split; auto. destruct M2 as [M2|M2]; [auto|]. right. rewrite M2. now destruct (Nat.eqb j 0).
      + constructor.
  Qed.

  Lemma Xof_empty : forall j, Xof [] j = [].
  Proof. reflexivity. Qed.

  Lemma start_ok orc h1 v1 h2 v2 h3 (v3 : gworld boot) :
    gcreate [] (mkNode KPassThrough 0) (stats0, mkHeap orc 0 [] []) = Ok h1 v1 ->
    gcreate _ (mkNode KPassThrough 0) v1 = Ok h2 v2 ->
    gcreate _ (mkNode (KFixed 1 2048 2) null_id) v2 = Ok h3 v3 ->
    all_inv [null_id; 0%nat] [] (v3, am_init J) [] [snap boot v3].
  Proof.
    intros E1 E2 E3. pose proof boot_config as HC. pose proof (proj2 HC) as HC2. pose proof (proj2 HC2) as HC1. cbn [boot config_ok] in HC1, HC2.
    set (q := [null_id; 0%nat]).
    assert (HQ : parents_in q boot) by (intros c [<-|[<-|[<-|[]]]]; cbn; auto).
    assert (HQ2 : parents_in q (tl boot)) by (intros c Hc; apply HQ; now right).
    assert (HQ1 : parents_in q (tl (tl boot))) by (intros c Hc; apply HQ2; now right).
    pose proof (gcreate_steps (Qm q) [] _ (Qm_refl _) (Qm_step _ _ HQ1) HC1 (stats0, mkHeap orc 0 [] []) (Xof [])) as S1.
    rewrite E1 in S1. cbn [post] in S1. destruct S1 as (G1 & Z1 & _); [|reflexivity|].
    { cbn. split; [|exact I]. split; [constructor|apply good_nil]. }
    pose proof (gcreate_steps (Qm q) _ _ (Qm_refl _) (Qm_step _ _ HQ2) HC2 v1 (Xof []) G1 eq_refl) as S2.
    rewrite E2 in S2. cbn [post] in S2. destruct S2 as (G2 & _ & M2).
    pose proof (gcreate_steps (Qm q) _ _ (Qm_refl _) (Qm_step _ _ HQ) HC v2 (Xof []) G2 eq_refl) as S3.
    rewrite E3 in S3. cbn [post] in S3. destruct S3 as (G3 & Z3 & M3).
    assert (H1 : gstats boot 1 v3 = stats0).
    { destruct (M2 1%nat ltac:(cbn; lia)) as [_ [Hi|M]]; [cbn in Hi; unfold null_id in Hi; lia|].
      destruct (M3 1%nat ltac:(cbn; lia)) as [_ [Hi|M']]; [cbn in Hi; unfold null_id in Hi; lia|]. 
      transitivity (gstats (tl boot) 1 v2); [exact M'|]. transitivity (gstats (tl (tl boot)) 1 v1); [exact M|]. exact Z1. }
    split; [|split; [|split]].
    - constructor; cbn [fst snd].
      + exact HC.
      + intros c [].
      + exists []. split; [constructor|constructor].
      + destruct Hok as [H0 Hm]. apply (Hm _ _ (fun x H => match H with ex_intro _ r (conj A _) => A end) H0).
      + exact G3.
      + intros r [].
      + apply good_nil.
    - cbn [fst]. intros j Hj. split.
      + intros Ho s st [<-|[]] Es. destruct (snap_own _ _ _ _ Ho Es) as [-> _]. lia.
      + intros Hc Hn. assert (Hs : gstats boot j v3 = stats0).
        { cbn in Hj. destruct j as [|[|[|[|j]]]]; [elim Hc; cbn; auto|exact H1|elim Hc; cbn; auto|exact Z3|lia]. }
        cbn [app]. rewrite Hs. split; [reflexivity|]. split; [reflexivity|]. split; [cbn; lia|]. intros Ho. split.
        * intros s st [<-|[]] Es. destruct (snap_own _ _ _ _ Ho Es) as [-> _]. rewrite Hs. cbn. lia.
        * exists (snap boot v3), stats0. split; [now left|]. split; [rewrite <- Hs; now apply snap_some|reflexivity].
    - apply known_snap. intros s j st [].
    - exact HQ.
  Qed.

  Theorem shist_inv C sw g q t : shist J ok C sw g q t -> all_inv q C sw g t.
  Proof.
    induction 1 as [orc h1 v1 h2 v2 h3 v3 E1 E2 E3
      |C w a g q t c w' v H IH Hn Hu E|C w a g q t c w' e H IH Hn Hu E
      |C sw g q t i n nm sw' p H IH Hu Hg E Ho|C sw g q t i n nm sw' e H IH Hu Hg E
      |C sw g q t i p sw' H IH Hu Hp E|C sw g q t i p sw' e H IH Hu Hp E
      |C sw g q t p sw' H IH Hp E|C sw g q t p sw' e H IH Hp E
      |C sw g q t i sw' H IH Hu E|C sw g q t i sw' H IH Hu E
      |C sw g q t r n sw' p H IH Hr Es Hsz Hn E Ho
      |C w a g q t a' H IH Hl].
    - eapply start_ok; eauto.
    - pose proof (create_ok q C w a g t c IH Hn Hu) as Hc. rewrite E in Hc. exact Hc.
    - pose proof (create_ok q C w a g t c IH Hn Hu) as Hc. rewrite E in Hc. exact Hc.
    - destruct sw as [w a]. pose proof IH as (HS & HL & HK & HQ). cbn [fst snd] in *.
      pose proof (sys_allocate_ok J sparse jrel jloc jplain JS ok Hok q C w a g i n nm HQ HS Hu Hg) as Ha. rewrite E in Ha. cbn [post] in Ha.
      destruct Ha as (_ & _ & _ & HM & HS'). specialize (HS' Ho).
      eapply (inv_step q C (w, a) sw'); [exact IH|exact HS'|exact HM|].
      apply (bk_add (C ++ boot) i (mkRec p n (Z.of_nat i) nm) g). reflexivity.
    - destruct sw as [w a]. pose proof IH as (HS & HL & HK & HQ). cbn [fst snd] in *.
      pose proof (sys_allocate_ok J sparse jrel jloc jplain JS ok Hok q C w a g i n nm HQ HS Hu Hg) as Ha. rewrite E in Ha. cbn [post] in Ha.
      destruct Ha as (HS' & [HM|[Hn HM]]).
      + eapply (inv_step q C (w, a) sw'); [exact IH|exact HS'|exact HM|constructor].
      + eapply (inv_step q C (w, a) sw'); [exact IH|exact HS'|exact HM|]. now apply bk_null.
    - destruct sw as [w a]. pose proof IH as (HS & HL & HK & HQ). cbn [fst snd] in *.
      destruct (dealloc_done q C w a g i p sw' HQ HS Hp E) as [(E0 & -> & Ef)|(r & Hr & Ep & Es & HS' & HM)].
      + rewrite Ef. apply (same_step q C (w, a) (w, a)); auto.
      + eapply (inv_step q C (w, a) sw'); [exact IH|exact HS'|exact HM|]. apply bk_sub; auto; [now apply (si_strat _ _ _ _ _ _ HS)|].
        rewrite <- Ep. apply forget_perm; auto. eapply sinv_nodup; eauto.
    - destruct sw as [w a]. pose proof IH as (HS & HL & HK & HQ). cbn [fst snd] in *.
      destruct (dealloc_thrown q C w a g i p sw' e HQ HS Hp E) as [(Ew & HS' & El & _)|(r & Hr & Ep & Es & _ & El & HS' & HM)]; rewrite El.
      + apply (same_step q C (w, a) sw'); auto.
      + eapply (inv_step q C (w, a) sw'); [exact IH|exact HS'|exact HM|]. apply bk_sub; auto; [now apply (si_strat _ _ _ _ _ _ HS)|].
        rewrite <- Ep. apply forget_perm; auto. eapply sinv_nodup; eauto.
    - destruct sw as [w a]. pose proof IH as (HS & HL & HK & HQ). cbn [fst snd] in *. unfold rm_deallocate in E.
      destruct (sys_find_allocator J (C ++ boot) p (w, a)) as [sw1 i| | | |] eqn:Ef; try discriminate. cbn [bind] in E.
      destruct (find_ok J sparse jrel jloc jplain JS ok Hok C w a g p sw1 i HS Hp Ef) as (Ew & HS1 & _). destruct sw1 as [w1 a1]. cbn [fst snd] in *. subst w1.
      destruct (dealloc_done q C w a1 g i p sw' HQ HS1 Hp E) as [(E0 & -> & Efg)|(r & Hr & Ep & Es & HS' & HM)].
      + rewrite Efg. apply (same_step q C (w, a) (w, a1)); auto.
      + eapply (inv_step q C (w, a) sw'); [exact IH|exact HS'|exact HM|]. apply bk_sub; auto; [now apply (si_strat _ _ _ _ _ _ HS)|].
        rewrite <- Ep. apply forget_perm; auto. eapply sinv_nodup; eauto.
    - destruct sw as [w a]. pose proof IH as (HS & HL & HK & HQ). cbn [fst snd] in *. unfold rm_deallocate in E.
      destruct (sys_find_allocator J (C ++ boot) p (w, a)) as [sw1 i|sw1 e1| | |] eqn:Ef; try discriminate; cbn [bind] in E.
      + destruct (find_ok J sparse jrel jloc jplain JS ok Hok C w a g p sw1 i HS Hp Ef) as (Ew & HS1 & Hi). destruct sw1 as [w1 a1]. cbn [fst snd] in *. subst w1.
        destruct (dealloc_thrown q C w a1 g i p sw' e HQ HS1 Hp E) as [(Ew' & HS' & _ & Hno)|(r & Hr & Ep & Es & _ & El & HS' & HM)].
        * rewrite forget_absent; [apply (same_step q C (w, a) sw'); auto|]. intros r Hr Ep. apply (Hno r Hr Ep).
          destruct (si_strat _ _ _ _ _ _ HS r Hr) as (_ & H0 & _). rewrite (Hi r Hr Ep). lia.
        * eapply (inv_step q C (w, a) sw'); [exact IH|exact HS'|exact HM|]. apply bk_sub; auto; [now apply (si_strat _ _ _ _ _ _ HS)|].
          rewrite <- Ep. apply forget_perm; auto. eapply sinv_nodup; eauto.
      + destruct (find_throw J sparse jrel jloc jplain JS ok Hok C w a g p sw1 e1 HS Hp Ef) as (Ew & HS1 & Hno). injection E as <- <-.
        rewrite forget_absent by exact Hno. apply (same_step q C (w, a) sw1); auto.
    - destruct sw as [w a]. pose proof IH as (HS & HL & HK & HQ). cbn [fst snd] in *.
      pose proof (sys_release_ok J ok q C w a g i HQ HS) as Hr. unfold left_by in E.
      destruct (sys_release J (C ++ boot) i (w, a)) as [s u|s e| | |]; try contradiction; subst s; cbn [post] in Hr; destruct Hr as [HS' HM];
        eapply (inv_step q C (w, a) sw'); [exact IH|exact HS'|exact HM|constructor|exact IH|exact HS'|exact HM|constructor].
    - destruct sw as [w a]. pose proof IH as (HS & HL & HK & HQ). cbn [fst snd] in *.
      pose proof (sys_coalesce_ok J ok q C w a g i HQ HS) as Hr. unfold left_by in E.
      destruct (sys_coalesce J (C ++ boot) i (w, a)) as [s u|s e| | |]; try contradiction; subst s; cbn [post] in Hr; destruct Hr as [HS' HM];
        eapply (inv_step q C (w, a) sw'); [exact IH|exact HS'|exact HM|constructor|exact IH|exact HS'|exact HM|constructor].
    - destruct sw as [w a]. pose proof IH as (HS & HL & HK & HQ). cbn [fst snd] in *.
      pose proof (sys_host_realloc_ok J sparse jrel jloc jplain JS ok Hok q C w a g r n HQ HS Hr Es Hsz Hn) as Ha. rewrite E in Ha. cbn [post] in Ha.
      destruct Ha as (_ & _ & _ & HM & HS'). specialize (HS' Ho). set (r2 := mkRec p n (Z.of_nat host_id) 0) in *.
      split; [exact HS'|]. split; [|split; [now apply known_snap|intros c Hc; right; auto]].
      pose proof (forget_perm r g (sinv_nodup _ _ _ _ _ _ HS) Hr) as HPf.
      assert (HL' : stat_law (host_id :: q) (C ++ boot) w (r2 :: forget (r_ptr r) g) t).
      { apply (stat_law_ext q _ _ _ g); auto; [intros j Hj; now right|]. intros j Hj.
        assert (Hjh : Z.of_nat host_id <> Z.of_nat j) by (intros E'; apply Hj; left; lia).
        pose proof (mine_perm j _ _ HPf) as HP. rewrite mine_cons, Es in HP. rewrite mine_cons. unfold r2. cbn [r_strat].
        destruct (Z.eqb_spec (Z.of_nat host_id) (Z.of_nat j)); [contradiction|].
        split; [symmetry; now apply bytes_perm|symmetry; now apply Permutation_length]. }
      eapply (stat_step (host_id :: q)); [exact HL'| |apply bk_none|eapply sinv_totals, HS'|eapply sinv_totals, HS'].
      intros j Hj. destruct (HM j Hj) as [M1 M2]. split; [exact M1|]. destruct M2 as [M2|M2]; [left; now right|]. right. exact M2.
    - destruct IH as (HS & HL & HK & HQ). split; [|split; [|split]]; auto. cbn [fst snd] in *. eapply sinv_look; eauto.
  Qed.
End Main.
