(** MixedPool meets the strategy contract: several pools share one parent. *)
From Verif Require Import Base BaseFacts StratModel StratFacts QuickPoolModel QuickPoolMain QuickPoolStrat QuickPoolStratFacts
  FixedPoolModel FixedPoolFacts MixedPoolModel.

(** A client that only uses part of what is held. *)
Lemma ParentSpec_frame {W} (P : Parent W) lim (Inv : W -> list region -> Prop) F :
  ParentSpec P lim Inv -> ParentSpec P lim (fun w L => Inv w (L ++ F)).
Proof.
  intros H. constructor.
  - intros w L L' HP. apply (ps_perm _ _ _ H). now apply Permutation_app_tail.
  - intros w L HI. apply (ps_good _ _ _ H) in HI. now apply good_app in HI as [HI _].
  - intros w L n HI Hn. apply (ps_alloc _ _ _ H w (L ++ F) n HI Hn).
  - intros w L p n HI. apply (ps_dealloc _ _ _ H w (L ++ F) p n HI).
Qed.

Lemma covered_app U1 L1 U2 L2 : covered U1 L1 -> covered U2 L2 -> covered (U1 ++ U2) (L1 ++ L2).
Proof.
  intros H1 H2 u Hu. apply in_app_or in Hu as [Hu|Hu].
  - destruct (H1 u Hu) as (l & Hl & Hi). exists l. split; auto. apply in_or_app; auto.
  - destruct (H2 u Hu) as (l & Hl & Hi). exists l. split; auto. apply in_or_app; auto.
Qed.

Lemma good_covered_app U1 L1 U2 L2 : good (L1 ++ L2) -> good U1 -> covered U1 L1 -> good U2 -> covered U2 L2 -> good (U1 ++ U2).
Proof.
  intros HG G1 C1 G2 C2. apply good_app. split; auto. split; auto. intros x y Hx Hy.
  destruct (C1 x Hx) as (a & Ha & Ia). destruct (C2 y Hy) as (b & Hb & Ib).
  apply good_app in HG as (_ & _ & HD). specialize (HD a b Ha Hb). unfold disj, inside in *. lia.
Qed.

(** FixedPool ignores the size it is asked for. *)
Lemma fx_alloc_size obj per f {W} (P : Parent W) n m : forall sw, fx_alloc obj per f P n sw = fx_alloc obj per f P m sw.
Proof.
  induction f as [|f IH]; intros [s w]; cbn [fx_alloc]; auto. destruct (fx_try obj per (rev (fx_pools s))) as [rp ptr].
  destruct (ptr =? 0); auto. destruct (fx_new_pool _ _ _ _); auto. apply IH.
Qed.

(** Legal constructor arguments. *)
Record mcfg_ok (cfg : mcfg) (limP : Z) : Prop := {
  mo_small : 0 < mc_small cfg;
  mo_mult : 2 <= mc_mult cfg;
  mo_large : mc_large cfg * mc_mult cfg < M64;
  mo_max : mc_max_initial cfg <= limP;
  mo_quick : qcfg_ok (mc_quick cfg) limP
}.

Definition class_ok (max : Z) (c : mclass) : Prop :=
  0 < cl_size c /\ (0 < cl_per c)%nat /\ cl_size c * Z.of_nat (cl_per c) <= max.

Fixpoint increasing (l : list Z) : Prop :=
  match l with
  | [] => True
  | x :: t => (forall y, In y t -> x < y) /\ increasing t
  end.

(** What each pool has: its live allocations and its blocks. *)
Definition class_rel (c : mclass) (part : list region * list region) : Prop :=
  fx_rel (cl_size c) (cl_per c) (cl_pool c) (fst part) (snd part).

Definition mx_parts (cfg : mcfg) (s : mixedp) (parts : list (list region * list region)) (Uq Lq : list region) : Prop :=
  Forall (class_ok (mc_max_initial cfg)) (mp_fixed s) /\ increasing (map cl_size (mp_fixed s)) /\
  Forall2 class_rel (mp_fixed s) parts /\
  QInv (cf_align (mc_quick cfg)) (mp_quick s) Uq Lq /\
  (forall i part p n, nth_error parts i = Some part -> In (p, n) (fst part) ->
     mp_map s p = Some (Z.of_nat i) /\ mx_index n (mp_fixed s) = i) /\
  (forall p n, In (p, n) Uq -> mp_map s p = Some (-1) /\ mx_index n (mp_fixed s) = length (mp_fixed s)).

Definition mx_rel (cfg : mcfg) (s : mixedp) (U L : list region) : Prop :=
  exists parts Uq Lq, mx_parts cfg s parts Uq Lq /\
    Permutation U (concat (map fst parts) ++ Uq) /\ Permutation L (concat (map snd parts) ++ Lq).

Lemma mx_index_le n l : (mx_index n l <= length l)%nat.
Proof. induction l as [|c l IH]; cbn [mx_index length]; [lia|]. destruct (cl_size c <? n); lia. Qed.

Lemma mx_index_sizes n l l' : map cl_size l = map cl_size l' -> mx_index n l = mx_index n l'.
Proof.
  revert l'. induction l as [|c l IH]; intros [|c' l'] E; cbn in E; try discriminate; auto.
  injection E as E1 E2. cbn [mx_index]. now rewrite E1, (IH l').
Qed.

Lemma mx_index_nth n l c : nth_error l (mx_index n l) = Some c -> n <= cl_size c.
Proof.
  induction l as [|d l IH]; cbn [mx_index]; [discriminate|]. destruct (Z.ltb_spec (cl_size d) n); [exact IH|].
  cbn [nth_error]. intros E. injection E as <-. lia.
Qed.

(** Below the index found all classes are too small. *)
Lemma mx_index_small n l j c : (j < mx_index n l)%nat -> nth_error l j = Some c -> cl_size c < n.
Proof.
  revert j. induction l as [|d l IH]; intros j; cbn [mx_index]; [lia|]. destruct (Z.ltb_spec (cl_size d) n); [|lia].
  destruct j as [|j]; cbn [nth_error]; [intros _ E; injection E as <-; lia|]. intros Hj. apply IH. lia.
Qed.

Lemma Forall2_length {A B} (R : A -> B -> Prop) l l' : Forall2 R l l' -> length l = length l'.
Proof. induction 1; cbn; auto. Qed.

Lemma upd_split {A} (f : A -> A) l1 x l2 : upd f (length l1) (l1 ++ x :: l2) = l1 ++ f x :: l2.
Proof. induction l1 as [|y l1 IH]; cbn [length app upd]; auto. now rewrite IH. Qed.

Section MixedPoolFacts.
  Context (cfg : mcfg) (cfuel fuel : nat) (limP : Z).
  Hypothesis CFG : mcfg_ok cfg limP.
  Notation rel := (mx_rel cfg).
  Notation Parts := (mx_parts cfg).

  Lemma HQok : StratOk (QuickPool (mc_quick cfg) fuel) (QInv (cf_align (mc_quick cfg))) limP (limP - 2 * cf_align (mc_quick cfg)).
  Proof. apply QuickPool_ok, CFG. Qed.

  Lemma HlimM : limP < M64.
  Proof. destruct CFG as [_ _ _ _ []]. auto. Qed.

  Lemma class_strat c : class_ok (mc_max_initial cfg) c -> StratOk (FixedPool (cl_size c) (cl_per c) fuel) (fx_rel (cl_size c) (cl_per c)) limP (cl_size c).
  Proof. intros (H1 & H2 & H3). pose proof HlimM. destruct CFG as [_ _ _ Hmax _]. apply FixedPool_ok; auto; lia. Qed.

  Lemma class_alloc c W (P : Parent W) Inv (s : fixedp) w U L n : class_ok (mc_max_initial cfg) c -> ParentSpec P limP Inv ->
    fx_rel (cl_size c) (cl_per c) s U L -> Inv w L -> 0 < n <= cl_size c ->
    post (fx_alloc (cl_size c) (cl_per c) fuel P (cl_size c) (s, w))
         (fun sw p => exists L', fx_rel (cl_size c) (cl_per c) (fst sw) ((p, n) :: U) L' /\ Inv (snd sw) L')
         (fun sw _ => exists L', fx_rel (cl_size c) (cl_per c) (fst sw) U L' /\ Inv (snd sw) L').
  Proof.
    intros Hc HP HR HI Hn. rewrite (fx_alloc_size _ _ _ _ (cl_size c) n).
    exact (so_alloc _ _ _ _ (class_strat c Hc) W P Inv s w U L n HP HR HI Hn).
  Qed.

  Lemma quick_alloc W (P : Parent W) Inv (s : qpool) w U L n : ParentSpec P limP Inv ->
    QInv (cf_align (mc_quick cfg)) s U L -> Inv w L -> 0 < n <= limP - 2 * cf_align (mc_quick cfg) ->
    post (q_allocate P (mc_quick cfg) n (s, w))
         (fun sw p => exists L', QInv (cf_align (mc_quick cfg)) (fst sw) ((p, n) :: U) L' /\ Inv (snd sw) L')
         (fun sw _ => exists L', QInv (cf_align (mc_quick cfg)) (fst sw) U L' /\ Inv (snd sw) L').
  Proof. intros HP HR HI Hn. exact (so_alloc _ _ _ _ HQok W P Inv s w U L n HP HR HI Hn). Qed.

  Lemma parts_inside l : forall parts, Forall (class_ok (mc_max_initial cfg)) l -> Forall2 class_rel l parts -> good (concat (map snd parts)) ->
    good (concat (map fst parts)) /\ covered (concat (map fst parts)) (concat (map snd parts)).
  Proof.
    induction l as [|c l IH]; intros parts Hc H HG; inversion H as [|? part ? parts' H1 H2]; subst; cbn [map concat] in *.
    - split; [exact HG|]. intros u [].
    - inversion Hc as [|? ? Hc1 Hc2]; subst. pose proof HG as HG'. apply good_app in HG' as (G1 & G2 & _).
      destruct (so_inside _ _ _ _ (class_strat c Hc1) _ _ _ H1 G1) as [I1 I2].
      destruct (IH parts' Hc2 H2 G2) as [I3 I4]. split; [|now apply covered_app].
      eapply good_covered_app; eauto.
  Qed.

  Lemma mx_inside s U L : rel s U L -> good L -> good U /\ covered U L.
  Proof.
    intros (parts & Uq & Lq & (Hc & _ & HF & HQ & _) & HU & HL) HG.
    apply (good_perm _ _ HL) in HG. pose proof HG as HG'. apply good_app in HG' as (G1 & G2 & _).
    destruct (parts_inside _ _ Hc HF G1) as [I1 I2]. destruct (so_inside _ _ _ _ HQok _ _ _ HQ G2) as [I3 I4].
    split.
    - eapply good_perm; [apply Permutation_sym, HU|]. eapply good_covered_app; eauto.
    - eapply covered_perm; [apply Permutation_sym, HU|apply Permutation_sym, HL|]. now apply covered_app.
  Qed.

  (** The constructor. *)
  Lemma mx_build_ok f : forall W (P : Parent W) Inv obj acc w L, ParentSpec P limP Inv ->
    0 < obj -> Forall (class_ok (mc_max_initial cfg)) acc -> increasing (map cl_size acc) -> (forall c, In c acc -> cl_size c < obj) ->
    Inv w (concat (map snd L)) -> Forall2 class_rel acc L -> (forall part, In part L -> fst part = []) ->
    post (mx_build cfg f obj acc P w)
         (fun w' l => exists L', Forall (class_ok (mc_max_initial cfg)) l /\ increasing (map cl_size l) /\ Forall2 class_rel l L' /\
            (forall part, In part L' -> fst part = []) /\ Inv w' (concat (map snd L')))
         (fun _ _ => False).
  Proof.
    induction f as [|f IH]; intros W P Inv obj acc w L HP Hobj Hacc Hinc Hlt HI HF HE; cbn [mx_build]; [exact I|].
    assert (Hdone : post (Ok w acc)
         (fun w' l => exists L', Forall (class_ok (mc_max_initial cfg)) l /\ increasing (map cl_size l) /\ Forall2 class_rel l L' /\
            (forall part, In part L' -> fst part = []) /\ Inv w' (concat (map snd L')))
         (fun _ _ => False)) by (cbn [post]; exists L; auto).
    destruct (Z.leb_spec obj (mc_large cfg)) as [Hle|]; [|exact Hdone].
    destruct (Z.eqb_spec obj 0) as [|_]; [lia|]. set (per := Z.min 2048 (mc_max_initial cfg / obj)).
    destruct (Z.ltb_spec 1 per) as [Hper|]; [|exact Hdone].
    assert (Hmul : obj * per <= mc_max_initial cfg).
    { assert (obj * (mc_max_initial cfg / obj) <= mc_max_initial cfg) by (apply Z.mul_div_le; lia). nia. }
    set (c := fun s => mkClass obj (Z.to_nat per) s).
    assert (Hck : forall s, class_ok (mc_max_initial cfg) (c s)) by (intros s; unfold class_ok, c; cbn [cl_size cl_per]; lia).
    pose proof (so_make _ _ _ _ (class_strat (c (mkFixed [] 0 0 0)) (Hck _)) W P _ w
                  (ParentSpec_frame P limP Inv (concat (map snd L)) HP) HI) as Hm.
    cbn [FixedPool st_make cl_size cl_per c] in Hm.
    destruct (fx_init obj (Z.to_nat per) W P w) as [w' s|w' e| | |] eqn:E; cbn [post] in *; auto.
    - destruct Hm as (L1 & HR & HI'). apply (IH W P Inv _ _ _ (L ++ [([], L1)])); auto.
      + destruct CFG as [_ H2 H3 _ _]. rewrite w64_small by nia. nia.
      + apply Forall_app. split; [exact Hacc|]. constructor; [apply Hck|constructor].
      + rewrite map_app. cbn [map cl_size]. clear -Hinc Hlt. induction acc as [|a acc IHa]; cbn; [split; [intros y []|exact I]|].
        cbn in Hinc. destruct Hinc as [Ha Hb]. split.
        * intros y Hy. apply in_app_or in Hy as [Hy|[<-|[]]]; [auto|apply Hlt; now left].
        * apply IHa; auto. intros d Hd. apply Hlt. now right.
      + destruct CFG as [_ H2 H3 _ _]. rewrite w64_small by nia.
        assert (obj < obj * mc_mult cfg) by nia.
        intros d Hd. apply in_app_or in Hd as [Hd|[<-|[]]]; [specialize (Hlt d Hd); lia|exact H].
      + rewrite map_app, concat_app. cbn [map concat snd]. rewrite app_nil_r.
        eapply (ps_perm _ _ _ HP); [|exact HI']. apply Permutation_app_comm.
      + apply Forall2_app; auto.
      + intros part Hp. apply in_app_or in Hp as [Hp|[<-|[]]]; auto.
    - unfold fx_init in E. destruct (fx_new_pool _ _ _ _); discriminate.
  Qed.

  (** Replacing one part. *)
  Lemma concat_swap {A} (l1 l2 : list (list A)) a : Permutation (concat (l1 ++ a :: l2)) (a ++ concat (l1 ++ l2)).
  Proof.
    rewrite !concat_app. cbn [concat]. rewrite !app_assoc. apply Permutation_app_tail, Permutation_app_comm.
  Qed.

  Lemma nth_split_parts l parts i c : Forall2 class_rel l parts -> nth_error l i = Some c ->
    exists l1 l2 p1 part p2, l = l1 ++ c :: l2 /\ length l1 = i /\ parts = p1 ++ part :: p2 /\ length p1 = i /\
      Forall2 class_rel l1 p1 /\ class_rel c part /\ Forall2 class_rel l2 p2.
  Proof.
    intros HF E. apply nth_error_split in E as (l1 & l2 & -> & Hlen).
    apply Forall2_app_inv_l in HF as (p1 & p2' & HF1 & HF2 & ->). inversion HF2 as [|? part ? p2 H1 H2]; subst.
    exists l1, l2, p1, part, p2. pose proof (Forall2_length _ _ _ HF1). auto 10.
  Qed.

  (** One pool changes; the bookkeeping of the others stays. *)
  Lemma parts_put s l1 c l2 p1 part p2 Uq Lq fs part' m :
    Parts s (p1 ++ part :: p2) Uq Lq -> mp_fixed s = l1 ++ c :: l2 -> length l1 = length p1 ->
    class_rel (mkClass (cl_size c) (cl_per c) fs) part' ->
    (forall p n, In (p, n) (fst part') -> m p = Some (Z.of_nat (length l1)) /\ mx_index n (mp_fixed s) = length l1) ->
    (forall p n, In (p, n) (concat (map fst (p1 ++ p2)) ++ Uq) -> m p = mp_map s p) ->
    Parts (mkMixed (l1 ++ mkClass (cl_size c) (cl_per c) fs :: l2) (mp_quick s) m) (p1 ++ part' :: p2) Uq Lq.
  Proof.
    intros (H1 & H2 & H3 & H4 & H5 & H6) Ef Hlen HR Hnew Hm. unfold mx_parts. cbn [mp_fixed mp_quick mp_map].
    rewrite Ef in *. set (c' := mkClass (cl_size c) (cl_per c) fs) in *.
    assert (Es : map cl_size (l1 ++ c' :: l2) = map cl_size (l1 ++ c :: l2)) by (rewrite !map_app; reflexivity).
    assert (Ei : forall n, mx_index n (l1 ++ c' :: l2) = mx_index n (l1 ++ c :: l2)) by (intros n; now apply mx_index_sizes).
    apply Forall2_app_inv_l in H3 as (q1 & q2 & Q1 & Q2 & Eq).
    assert (Hql : length p1 = length q1) by (pose proof (Forall2_length _ _ _ Q1); lia).
    inversion Q2 as [|? q ? q2' Q3 Q4]; subst. 
    assert (p1 = q1 /\ part = q /\ p2 = q2') as (-> & -> & ->).
    { clear -Eq Hql. revert q1 Eq Hql. induction p1 as [|a p1 IHp]; intros [|b q1] Eq Hl; cbn in *; try discriminate.
      - injection Eq as -> ->. auto.
      - injection Eq as -> Eq. destruct (IHp q1 Eq ltac:(lia)) as (-> & -> & ->). auto. }
    split; [|split; [|split; [|split; [exact H4|split]]]].
    - apply Forall_app in H1 as [F1 F2]. inversion F2; subst. apply Forall_app. split; auto.
    - now rewrite Es.
    - apply Forall2_app; auto.
    - intros i prt p n Hi Hp. rewrite Ei.
      destruct (Nat.eq_dec i (length q1)) as [->|Hne].
      + rewrite nth_error_app2 in Hi by lia. rewrite Nat.sub_diag in Hi. cbn in Hi. injection Hi as <-.
        rewrite <- Hlen. apply Hnew; auto.
      + assert (Hi' : nth_error (q1 ++ q :: q2') i = Some prt).
        { destruct (Nat.lt_ge_cases i (length q1)).
          - rewrite nth_error_app1 in * by lia. auto.
          - rewrite nth_error_app2 in * by lia. destruct (i - length q1)%nat eqn:Ed; [lia|]. exact Hi. }
        rewrite (Hm p n); [now apply (H5 _ _ _ _ Hi')|]. apply in_or_app. left. apply in_concat. exists (fst prt). split; auto. apply in_map.
        destruct (Nat.lt_ge_cases i (length q1)).
        * rewrite nth_error_app1 in Hi by lia. apply nth_error_In in Hi. apply in_or_app; auto.
        * rewrite nth_error_app2 in Hi by lia. destruct (i - length q1)%nat eqn:Ed; [lia|]. cbn in Hi.
          apply nth_error_In in Hi. apply in_or_app; auto.
    - intros p n Hp. rewrite Ei. rewrite (Hm p n) by (apply in_or_app; auto).
      destruct (H6 p n Hp) as [K1 K2]. split; auto. rewrite K2, !app_length. reflexivity.
  Qed.

  Lemma mx_alloc_ok W (P : Parent W) Inv s w U L n : ParentSpec P limP Inv -> rel s U L -> Inv w L ->
    0 < n <= limP - 2 * cf_align (mc_quick cfg) ->
    post (mx_allocate cfg fuel W P n (s, w))
         (fun sw p => exists L', rel (fst sw) ((p, n) :: U) L' /\ Inv (snd sw) L')
         (fun sw _ => exists L', rel (fst sw) U L' /\ Inv (snd sw) L').
  Proof.
    intros HP (parts & Uq & Lq & HPt & HU & HL) HI Hn. pose proof HPt as (H1 & H2 & H3 & H4 & H5 & H6).
    unfold mx_allocate. set (i := mx_index n (mp_fixed s)).
    destruct (nth_error (mp_fixed s) i) as [c|] eqn:En.
    - (* a fixed pool *)
      destruct (nth_split_parts _ _ _ _ H3 En) as (l1 & l2 & p1 & part & p2 & El & Hl1 & -> & Hp1 & F1 & F2 & F3).
      assert (Hck : class_ok (mc_max_initial cfg) c) by (apply Forall_forall with (x := c) in H1; auto; eapply nth_error_In; eauto).
      assert (Hnc : n <= cl_size c) by (apply (mx_index_nth n (mp_fixed s) c En)).
      set (F := concat (map snd (p1 ++ p2)) ++ Lq).
      assert (HLF : forall La, Permutation (La ++ F) (concat (map snd (p1 ++ (fst part, La) :: p2)) ++ Lq)).
      { intros La. unfold F. rewrite app_assoc. apply Permutation_app_tail. rewrite !map_app. cbn [map snd]. symmetry. apply concat_swap. }
      assert (HI' : Inv w (snd part ++ F)).
      { eapply (ps_perm _ _ _ HP); [|exact HI]. rewrite HL, HLF. destruct part; reflexivity. }
      pose proof (class_alloc c W P _ (cl_pool c) w (fst part) (snd part) n Hck
                    (ParentSpec_frame P limP Inv F HP) F2 HI' ltac:(lia)) as Ha. unfold fx_allocate.
      destruct (fx_alloc (cl_size c) (cl_per c) fuel P (cl_size c) (cl_pool c, w)) as [[fs w'] p|[fs w'] e| | |]; cbn [post fst snd] in *; auto.
      + destruct Ha as (La & HR & HI2). rewrite El, <- Hl1, upd_split.
        exists (La ++ F). split; auto.
        assert (HPm : Permutation ((p, n) :: concat (map fst (p1 ++ part :: p2)) ++ Uq)
                        (concat (map fst (p1 ++ ((p, n) :: fst part, La) :: p2)) ++ Uq)).
        { rewrite !map_app. cbn [map fst]. rewrite !concat_swap. reflexivity. }
        assert (Hfresh : forall q m, In (q, m) (concat (map fst (p1 ++ part :: p2)) ++ Uq) -> q <> p).
        { intros q m Hq ->.
          assert (HG : good ((p, n) :: concat (map fst (p1 ++ part :: p2)) ++ Uq)).
          { eapply good_perm; [apply Permutation_sym, HPm|].
            assert (HGL : good (concat (map snd (p1 ++ ((p, n) :: fst part, La) :: p2)) ++ Lq)).
            { eapply good_perm; [|eapply ps_good; [exact HP|exact HI2]]. unfold F. rewrite app_assoc. apply Permutation_app_tail.
              rewrite !map_app. cbn [map snd]. symmetry. apply concat_swap. }
            pose proof HGL as HGL'. apply good_app in HGL' as (G1 & G2 & _).
            assert (HF' : Forall2 class_rel (l1 ++ mkClass (cl_size c) (cl_per c) fs :: l2) (p1 ++ ((p, n) :: fst part, La) :: p2))
              by (apply Forall2_app; auto).
            assert (Hc' : Forall (class_ok (mc_max_initial cfg)) (l1 ++ mkClass (cl_size c) (cl_per c) fs :: l2)).
            { rewrite El in H1. apply Forall_app in H1 as [K1 K2]. inversion K2; subst. apply Forall_app. split; auto. }
            destruct (parts_inside _ _ Hc' HF' G1) as [I1 I2]. destruct (so_inside _ _ _ _ HQok _ _ _ H4 G2) as [I3 I4].
            eapply good_covered_app; eauto. }
          apply good_cons in HG as (Gw & G2 & G3). specialize (G2 _ Hq).
          unfold disj, wf_region in *. cbn [fst snd] in *.
          assert (Hm : 0 < m).
          { clear -G3 Hq. apply in_split in Hq as (a & b & E). rewrite E in G3.
            apply good_app in G3 as (_ & G3 & _). apply good_cons in G3 as ((_ & G3 & _) & _). exact G3. }
          lia. }
        exists (p1 ++ ((p, n) :: fst part, La) :: p2), Uq, Lq. split; [|split].
        * eapply (parts_put s l1 c l2 p1 part p2); eauto; [lia| |].
          -- intros q m [E|Hq].
             ++ injection E as <- <-. rewrite fset_eq. split; [congruence|unfold i in Hl1; now rewrite Hl1].
             ++ assert (Hq' : In (q, m) (concat (map fst (p1 ++ part :: p2)) ++ Uq)).
                { apply in_or_app. left. rewrite map_app. cbn [map]. eapply Permutation_in; [apply Permutation_sym, concat_swap|]. apply in_or_app; auto. }
                rewrite fset_ne by (eapply Hfresh; eauto).
                rewrite Hl1, <- Hp1. apply (H5 _ part q m); auto. rewrite nth_error_app2 by lia. rewrite Nat.sub_diag. reflexivity.
          -- intros q m Hq. apply fset_ne. apply (Hfresh q m). apply in_app_or in Hq as [Hq|Hq]; apply in_or_app; auto.
             left. rewrite map_app in *. cbn [map]. eapply Permutation_in; [apply Permutation_sym, concat_swap|]. apply in_or_app; auto.
        * rewrite HU. exact HPm.
        * unfold F. rewrite app_assoc. apply Permutation_app_tail. rewrite !map_app. cbn [map snd]. symmetry. apply concat_swap.
      + destruct Ha as (La & HR & HI2). rewrite El, <- Hl1, upd_split.
        exists (La ++ F). split; auto. exists (p1 ++ (fst part, La) :: p2), Uq, Lq. split; [|split].
        * eapply (parts_put s l1 c l2 p1 part p2); eauto; [lia|].
          intros q m Hq. cbn [fst] in Hq. rewrite Hl1, <- Hp1. apply (H5 _ part q m); auto. rewrite nth_error_app2 by lia. rewrite Nat.sub_diag. reflexivity.
        * rewrite HU. rewrite !map_app. reflexivity.
        * apply HLF.
    - (* the quick pool *)
      assert (Hi : i = length (mp_fixed s)).
      { apply nth_error_None in En. pose proof (mx_index_le n (mp_fixed s)). unfold i in *. lia. }
      set (F := concat (map snd parts)).
      assert (HI' : Inv w (Lq ++ F)).
      { eapply (ps_perm _ _ _ HP); [|exact HI]. rewrite HL. apply Permutation_app_comm. }
      pose proof (quick_alloc W P _ (mp_quick s) w Uq Lq n
                    (ParentSpec_frame P limP Inv F HP) H4 HI' Hn) as Ha.
      destruct (q_allocate P (mc_quick cfg) n (mp_quick s, w)) as [[q w'] p|[q w'] e| | |]; cbn [post fst snd] in *; auto.
      + destruct Ha as (La & HR & HI2). exists (F ++ La). split; [|eapply (ps_perm _ _ _ HP); [apply Permutation_app_comm|exact HI2]].
        assert (Hfresh : forall q m, In (q, m) (concat (map fst parts) ++ Uq) -> q <> p).
        { intros q' m Hq ->.
          assert (HG : good (concat (map fst parts) ++ (p, n) :: Uq)).
          { assert (HGL : good (F ++ La)) by (eapply good_perm; [apply Permutation_app_comm|eapply ps_good; [exact HP|exact HI2]]).
            pose proof HGL as HGL'. apply good_app in HGL' as (G1 & G2 & _).
            destruct (parts_inside _ _ H1 H3 G1) as [I1 I2]. destruct (so_inside _ _ _ _ HQok _ _ _ HR G2) as [I3 I4].
            eapply good_covered_app; eauto. }
          apply (good_perm _ _ (Permutation_sym (Permutation_middle _ _ _))) in HG.
          apply good_cons in HG as (Gw & G2 & G3). specialize (G2 _ Hq).
          unfold disj, wf_region in *. cbn [fst snd] in *.
          assert (Hm : 0 < m).
          { clear -G3 Hq. apply in_split in Hq as (a & b & E). rewrite E in G3.
            apply good_app in G3 as (_ & G3 & _). apply good_cons in G3 as ((_ & G3 & _) & _). exact G3. }
          lia. }
        exists parts, ((p, n) :: Uq), La. split; [|split].
        * unfold mx_parts. cbn [mp_fixed mp_quick mp_map]. split; auto. split; auto. split; auto. split; auto. split.
          -- intros j part q' m Hj Hq. rewrite fset_ne; [now apply (H5 _ _ _ _ Hj)|]. apply (Hfresh q' m).
             apply in_or_app. left. apply in_concat. exists (fst part). split; auto. apply in_map. eapply nth_error_In; eauto.
          -- intros q' m [E|Hq]; [injection E as <- <-; rewrite fset_eq; auto|].
             rewrite fset_ne by (apply (Hfresh q' m), in_or_app; auto). now apply H6.
        * rewrite HU. apply Permutation_middle.
        * reflexivity.
      + destruct Ha as (La & HR & HI2). exists (F ++ La). split; [|eapply (ps_perm _ _ _ HP); [apply Permutation_app_comm|exact HI2]].
        exists parts, Uq, La. split; [|split; auto]. unfold mx_parts. cbn [mp_fixed mp_quick mp_map]. auto 10.
  Qed.

  (** A deallocation only concerns the pool of the size class of the request. *)
  Lemma mx_dealloc_ok W (P : Parent W) Inv s w U L p n cur : ParentSpec P limP Inv -> rel s ((p, n) :: U) L -> Inv w L ->
    post (mx_deallocate cfg fuel W P cur p n (s, w))
         (fun sw _ => (exists L', rel (fst sw) U L' /\ Inv (snd sw) L') /\
            (forall j, (j = mx_index n (mp_fixed s) -> j = length (mp_fixed s)) -> nth_error (mp_fixed (fst sw)) j = nth_error (mp_fixed s) j) /\
            (mx_index n (mp_fixed s) <> length (mp_fixed s) -> mp_quick (fst sw) = mp_quick s))
         (fun _ _ => False).
  Proof.
    intros HP (parts & Uq & Lq & HPt & HU & HL) HI. pose proof HPt as (H1 & H2 & H3 & H4 & H5 & H6).
    unfold mx_deallocate.
    assert (Hin : In (p, n) (concat (map fst parts) ++ Uq)) by (eapply Permutation_in; [exact HU|now left]).
    apply in_app_or in Hin as [Hin|Hin].
    - apply in_concat in Hin as (x & Hx & Hp). apply in_map_iff in Hx as (part & <- & Hpart).
      apply In_nth_error in Hpart as (i & Hi). destruct (H5 _ _ _ _ Hi Hp) as [Em Eidx]. rewrite Em, Eidx.
      destruct (Z.ltb_spec (Z.of_nat i) 0); [lia|]. rewrite Nat2Z.id.
      assert (Hc : exists c, nth_error (mp_fixed s) i = Some c).
      { assert (i < length parts)%nat by (apply nth_error_Some; congruence). rewrite <- (Forall2_length _ _ _ H3) in H0.
        apply nth_error_Some in H0. destruct (nth_error (mp_fixed s) i); eauto; congruence. }
      destruct Hc as (c & En). rewrite En.
      destruct (nth_split_parts _ _ _ _ H3 En) as (l1 & l2 & p1 & part' & p2 & El & Hl1 & -> & Hp1 & F1 & F2 & F3).
      rewrite nth_error_app2 in Hi by lia. replace (i - length p1)%nat with 0%nat in Hi by lia. cbn in Hi. injection Hi as ->.
      assert (Hck : class_ok (mc_max_initial cfg) c) by (apply Forall_forall with (x := c) in H1; auto; eapply nth_error_In; eauto).
      set (F := concat (map snd (p1 ++ p2)) ++ Lq).
      assert (HI' : Inv w (snd part ++ F)).
      { eapply (ps_perm _ _ _ HP); [|exact HI]. rewrite HL. unfold F. rewrite app_assoc. apply Permutation_app_tail.
        rewrite !map_app. cbn [map]. apply concat_swap. }
      apply in_split in Hp as (a & b & Eab).
      assert (F2' : fx_rel (cl_size c) (cl_per c) (cl_pool c) ((p, n) :: a ++ b) (snd part)).
      { eapply (so_perm _ _ _ _ (class_strat c Hck)); [|reflexivity|exact F2]. rewrite Eab. symmetry. apply Permutation_middle. }
      pose proof (so_dealloc _ _ _ _ (class_strat c Hck) W P _ (cl_pool c) w (a ++ b) (snd part) p n 0
                    (ParentSpec_frame P limP Inv F HP) F2' HI') as Ha.
      cbn [FixedPool st_dealloc] in Ha. apply post_omap. eapply post_impl; [| |exact Ha]; auto.
      intros [fs w'] u (La & HR & HI2). cbn [fst snd mp_fixed mp_quick] in *. rewrite El, <- Hl1, upd_split. split; [|split; auto].
      + exists (La ++ F). split; auto. exists (p1 ++ (a ++ b, La) :: p2), Uq, Lq. split; [|split].
        * eapply (parts_put s l1 c l2 p1 part p2); eauto; [lia|].
          intros q m Hq. cbn [fst] in Hq. rewrite Hl1, <- Hp1. apply (H5 _ part q m).
          -- rewrite nth_error_app2 by lia. rewrite Nat.sub_diag. reflexivity.
          -- rewrite Eab. apply in_app_or in Hq as [Hq|Hq]; apply in_or_app; simpl; auto.
        * apply (Permutation_cons_inv (a := (p, n))). rewrite HU. rewrite !map_app. cbn [map fst]. rewrite !concat_swap, Eab.
          rewrite <- !app_assoc. cbn [app]. symmetry. apply Permutation_middle.
        * unfold F. rewrite app_assoc. apply Permutation_app_tail. rewrite !map_app. cbn [map snd]. symmetry. apply concat_swap.
      + intros j Hj0. assert (Hj : j <> i).
        { intros ->. rewrite app_length in Hj0. cbn [length] in Hj0. lia. }
        clear Hj0. destruct (Nat.lt_ge_cases j (length l1)).
        * rewrite !nth_error_app1 by lia. reflexivity.
        * rewrite !nth_error_app2 by lia. destruct (j - length l1)%nat eqn:Ed; [lia|]. reflexivity.
    - destruct (H6 _ _ Hin) as [Em Eidx]. rewrite Em, Eidx. cbn [Z.ltb Z.compare].
      set (F := concat (map snd parts)).
      assert (HI' : Inv w (Lq ++ F)).
      { eapply (ps_perm _ _ _ HP); [|exact HI]. rewrite HL. apply Permutation_app_comm. }
      apply in_split in Hin as (a & b & Eab).
      assert (H4' : QInv (cf_align (mc_quick cfg)) (mp_quick s) ((p, n) :: a ++ b) Lq).
      { eapply (so_perm _ _ _ _ HQok); [|reflexivity|exact H4]. rewrite Eab. symmetry. apply Permutation_middle. }
      pose proof (so_dealloc _ _ _ _ HQok W P _ (mp_quick s) w (a ++ b) Lq p n 0
                    (ParentSpec_frame P limP Inv F HP) H4' HI') as Ha.
      cbn [QuickPool st_dealloc] in Ha. apply post_omap. eapply post_impl; [| |exact Ha]; auto.
      intros [q w'] u (La & HR & HI2). cbn [fst snd mp_fixed mp_quick] in *. split; [|split; [auto|intros Hc; now elim Hc]].
      exists (F ++ La). split; [|eapply (ps_perm _ _ _ HP); [apply Permutation_app_comm|exact HI2]].
      exists parts, (a ++ b), La. split; [|split].
      + unfold mx_parts. cbn [mp_fixed mp_quick mp_map]. split; auto. split; auto. split; auto. split; auto. split; auto.
        intros q' m Hq. apply H6. rewrite Eab. apply in_app_or in Hq as [Hq|Hq]; apply in_or_app; simpl; auto.
      + apply (Permutation_cons_inv (a := (p, n))). rewrite HU, Eab. rewrite !app_assoc. symmetry. apply Permutation_middle.
      + reflexivity.
  Qed.

  Lemma MixedPool_ok : StratOk (MixedPool cfg cfuel fuel) rel limP (limP - 2 * cf_align (mc_quick cfg)).
  Proof.
    constructor; cbn [st_ty MixedPool st_make st_alloc st_dealloc st_release st_coalesce].
    - intros s U U' L L' HU HL (parts & Uq & Lq & H1 & H2 & H3). exists parts, Uq, Lq. split; auto.
      split; [now rewrite <- HU|now rewrite <- HL].
    - apply mx_inside.
    - intros W P Inv w HP HI. unfold mx_init.
      pose proof (mx_build_ok cfuel W P Inv (mc_small cfg) [] w [] HP) as H.
      specialize (H ltac:(apply CFG) ltac:(constructor) I ltac:(intros c []) HI ltac:(constructor) ltac:(intros part [])).
      destruct (mx_build cfg cfuel (mc_small cfg) [] P w) as [w' l|w' e| | |]; cbn [post] in *; auto.
      destruct H as (L' & K1 & K2 & K3 & K4 & K5). exists (concat (map snd L')). split; auto.
      exists L', [], []. split; [|split].
      + unfold mx_parts. cbn [mp_fixed mp_quick mp_map]. split; auto. split; auto. split; auto. split; [apply QInv_init|]. split.
        * intros i part p n Hi Hp. rewrite (K4 part) in Hp by (eapply nth_error_In; eauto). destruct Hp.
        * intros p n [].
      + rewrite app_nil_r. clear -K4. induction L' as [|a L' IH]; cbn; [constructor|].
        rewrite (K4 a) by now left. cbn. apply IH. intros part Hp. apply K4. now right.
      + now rewrite app_nil_r.
    - intros. eapply mx_alloc_ok; eauto.
    - intros W P Inv s w U L p n cur HP HR HI. eapply post_impl; [| |eapply (mx_dealloc_ok W P Inv s w U L p n cur); eauto]; auto.
      intros sw u (H & _). exact H.
    - intros. eapply no_release_ok; eauto.
    - intros. eapply no_coalesce_ok; eauto.
  Qed.
End MixedPoolFacts.
