(** FixedPool as a client of a conforming parent. *)
From Verif Require Import Base BaseFacts StratModel StratFacts FixedPoolModel.

(** ** Bits *)
Lemma upd_length {A} (f : A -> A) i l : length (upd f i l) = length l.
Proof. revert i. induction l; destruct i; cbn; auto. Qed.

Lemma upd_nth {A} (f : A -> A) i j l (d : A) : (i < length l)%nat ->
  nth j (upd f i l) d = if Nat.eqb j i then f (nth i l d) else nth j l d.
Proof.
  revert i j. induction l as [|x l IH]; intros [|i] [|j] H; cbn in H; try lia; cbn; auto.
  apply IH. lia.
Qed.

Definition words (l : list (list bool)) : Prop := Forall (fun w => length w = 32%nat) l.

Lemma words_length l : words l -> length (concat l) = (length l * 32)%nat.
Proof. induction 1; cbn; [auto|]. rewrite app_length. lia. Qed.

Lemma upd_app_l {A} (f : A -> A) i l1 l2 : (i < length l1)%nat -> upd f i (l1 ++ l2) = upd f i l1 ++ l2.
Proof. revert i. induction l1; intros [|i] H; cbn in *; try lia; auto. rewrite IHl1; auto. lia. Qed.

Lemma upd_app_r {A} (f : A -> A) i l1 l2 : upd f (length l1 + i) (l1 ++ l2) = l1 ++ upd f i l2.
Proof. induction l1; cbn; auto. now rewrite IHl1. Qed.

Lemma words_upd f b k l : words l -> words (upd (upd f b) k l).
Proof.
  intros H. revert k. induction H as [|w l Hw H IH]; intros [|k]; cbn; constructor; auto.
  - now rewrite upd_length.
  - apply IH.
Qed.

Lemma concat_upd f b k l : words l -> (b < 32)%nat -> (k < length l)%nat ->
  concat (upd (upd f b) k l) = upd f (k * 32 + b) (concat l).
Proof.
  intros H Hb. revert k. induction H as [|w l Hw H IH]; intros [|k] Hk; cbn [length] in Hk; try lia.
  - cbn [upd concat Nat.mul Nat.add]. rewrite upd_app_l by lia. reflexivity.
  - cbn [upd concat]. replace (S k * 32 + b)%nat with (length w + (k * 32 + b))%nat by lia.
    rewrite upd_app_r, IH by lia. reflexivity.
Qed.

Lemma first_set_some w b : first_set w = Some b ->
  (b < length w)%nat /\ nth b w false = true /\ forall i, (i < b)%nat -> nth i w true = false.
Proof.
  revert b. induction w as [|[] w IH]; cbn; intros b E; try discriminate.
  - injection E as <-. repeat split; [lia|]. intros i Hi. lia.
  - destruct (first_set w) as [c|]; [|discriminate]. injection E as <-.
    destruct (IH c eq_refl) as (H1 & H2 & H3). split; [lia|]. split; [exact H2|].
    intros [|i] Hi; [reflexivity|]. apply H3. lia.
Qed.

Lemma first_set_none w : first_set w = None -> forall i, (i < length w)%nat -> nth i w true = false.
Proof.
  induction w as [|[] w IH]; cbn; intros E i Hi; try discriminate; [lia|].
  destruct (first_set w); [discriminate|]. destruct i; auto. apply IH; auto. lia.
Qed.

Lemma in_seq_nth l i : In i (seq 0 l) <-> (i < l)%nat.
Proof. rewrite in_seq. lia. Qed.

Section FixedPoolFacts.
  Context (obj : Z) (per : nat).
  Notation fx_data_bytes := (fx_data_bytes obj per).
  Notation fx_ints := (fx_ints per).

  Lemma ints_enough : (per < fx_ints * 32)%nat.
  Proof. unfold fx_ints. pose proof (Nat.div_mod per 32 ltac:(lia)). pose proof (Nat.mod_upper_bound per 32 ltac:(lia)). lia. Qed.

  Lemma fp_scan_some l : forall k k' b, words l -> fp_scan per k l = Some (k', b) ->
    exists j, k' = (k + j)%nat /\ (j < length l)%nat /\ (b < 32)%nat /\ (k' * 32 + b < per)%nat /\
              nth (j * 32 + b) (concat l) false = true.
  Proof.
    induction l as [|w l IH]; intros k k' b Hw E; cbn [fp_scan] in E; [discriminate|].
    inversion Hw as [|? ? Hw1 Hw2]; subst.
    assert (Hrest : fp_scan per (S k) l = Some (k', b) ->
      exists j, k' = (k + j)%nat /\ (j < length (w :: l))%nat /\ (b < 32)%nat /\ (k' * 32 + b < per)%nat /\
              nth (j * 32 + b) (concat (w :: l)) false = true).
    { intros E'. destruct (IH _ _ _ Hw2 E') as (j & H1 & H2 & H3 & H4 & H5). exists (S j).
      split; [lia|]. split; [cbn; lia|]. split; [exact H3|]. split; [exact H4|].
      cbn [concat]. rewrite app_nth2 by lia. rewrite <- H5. f_equal. lia. }
    destruct (first_set w) as [c|] eqn:Ef; [|auto].
    destruct (Nat.ltb_spec (k * 32 + c) per); [|auto]. injection E as <- <-.
    destruct (first_set_some w c Ef) as (H1 & H2 & _). exists 0%nat. split; [lia|]. split; [cbn; lia|].
    split; [lia|]. split; [lia|]. cbn [concat Nat.mul Nat.add]. rewrite app_nth1 by lia. exact H2.
  Qed.

  Lemma fp_scan_none l : forall k, words l -> fp_scan per k l = None ->
    forall i, (i < length (concat l))%nat -> (k * 32 + i < per)%nat -> nth i (concat l) true = false.
  Proof.
    induction l as [|w l IH]; intros k Hw E i Hi Hp; cbn [fp_scan] in E; [cbn in Hi; lia|].
    inversion Hw as [|? ? Hw1 Hw2]; subst. cbn [concat] in *. rewrite app_length in Hi.
    destruct (Nat.ltb_spec i 32) as [Hlt|Hge].
    - rewrite app_nth1 by lia. destruct (first_set w) as [c|] eqn:Ef.
      + destruct (Nat.ltb_spec (k * 32 + c) per); [discriminate|].
        destruct (first_set_some w c Ef) as (_ & _ & H3). apply H3. lia.
      + apply (first_set_none w Ef). lia.
    - rewrite app_nth2 by lia. apply (IH (S k)); auto; try lia.
      destruct (first_set w); [destruct (Nat.ltb_spec (k * 32 + n) per); [discriminate|auto]|auto].
  Qed.

  (** ** One pool: [its] are the slots in use with the sizes asked for. *)
  Definition pool_ok (p : fpool) (its : list (nat * Z)) : Prop :=
    words (fp_avail p) /\ length (fp_avail p) = fx_ints /\ NoDup (map fst its) /\
    (forall i, In i (map fst its) <-> (i < per)%nat /\ nth i (concat (fp_avail p)) true = false) /\
    fp_num p = Z.of_nat per - Z.of_nat (length its) /\
    (forall x, In x its -> 0 < snd x <= obj).

  Definition pool_used (p : fpool) (its : list (nat * Z)) : list region :=
    map (fun x => (fp_data p + obj * Z.of_nat (fst x), snd x)) its.
  Definition pool_held (p : fpool) : region := (fp_data p, fx_data_bytes).

  Lemma pool_its_bound p its : pool_ok p its -> (length its <= per)%nat.
  Proof.
    intros (_ & _ & H3 & H4 & _). rewrite <- (map_length fst), <- (seq_length per 0).
    apply NoDup_incl_length; auto. intros i Hi. apply in_seq_nth. apply H4, Hi.
  Qed.

  Lemma new_pool_ok d : pool_ok (new_fpool per d) [].
  Proof.
    unfold pool_ok, new_fpool. cbn [fp_avail fp_num fp_data map length].
    split; [apply Forall_forall; intros w Hw; apply repeat_spec in Hw; now subst|].
    split; [apply repeat_length|]. split; [constructor|]. split.
    - intros i. split; [intros []|]. intros (_ & H). exfalso. revert H.
      generalize fx_ints, (repeat_spec 32 true). generalize (repeat true 32). intros wd k Hwd. revert i. induction k as [|k IH]; intros i.
      + cbn. destruct i; discriminate.
      + cbn [repeat concat]. destruct (Nat.ltb_spec i (length wd)).
        * rewrite app_nth1 by auto. intros H'. assert (Hin : In false wd).
          { rewrite <- H'. now apply nth_In. } apply Hwd in Hin. discriminate.
        * rewrite app_nth2 by lia. apply IH.
    - split; [lia|]. intros x [].
  Qed.

  (** *** Taking a slot *)
  Hypothesis Hobj : 0 < obj.
  Hypothesis Hsize : obj * Z.of_nat per < M64.
  Hypothesis Hper : (0 < per)%nat.

  Lemma data_bytes_eq : fx_data_bytes = obj * Z.of_nat per.
  Proof. unfold fx_data_bytes. apply w64_small. lia. Qed.

  Lemma alloc_in_pool_ok p its n p' r : pool_ok p its -> 0 < fp_data p -> 0 < n <= obj ->
    alloc_in_pool obj per p = (p', r) ->
    (r = 0 /\ p' = p /\ length its = per) \/
    (exists i, r = fp_data p + obj * Z.of_nat i /\ r <> 0 /\ fp_data p' = fp_data p /\ pool_ok p' ((i, n) :: its) /\
               (length its < per)%nat).
  Proof.
    intros HP Hd Hn E. pose proof (pool_its_bound p its HP) as Hb. pose proof HP as (H1 & H2 & H3 & H4 & H5 & H6).
    unfold alloc_in_pool in E. destruct (Z.eqb_spec (fp_num p) 0) as [E0|E0].
    - injection E as <- <-. left. repeat split; auto. lia.
    - right. pose proof (words_length _ H1) as Hlen. rewrite H2 in Hlen. pose proof ints_enough as Hi.
      destruct (fp_scan per 0 (fp_avail p)) as [[k b]|] eqn:Es.
      + injection E as <- <-. destruct (fp_scan_some _ _ _ _ H1 Es) as (j & -> & S2 & S3 & S4 & S5). cbn [Nat.add] in *.
        set (i := (j * 32 + b)%nat) in *. exists i. split; [auto|]. split; [lia|]. split; [auto|].
        assert (Hni : ~ In i (map fst its)).
        { intros Hin. apply H4 in Hin as [_ Hin]. rewrite (nth_indep _ true false) in Hin by lia. congruence. }
        split; [|lia]. unfold pool_ok. cbn [fp_avail fp_num fp_data map length fst].
        split; [now apply words_upd|]. split; [now rewrite upd_length|]. split; [now constructor|].
        split; [|split].
        * intros i'. rewrite concat_upd by (auto; lia). fold i. rewrite upd_nth by lia.
          destruct (Nat.eqb_spec i' i) as [->|Hne].
          -- rewrite (nth_indep _ true false) by lia. rewrite S5. cbn. intuition lia.
          -- rewrite <- H4. cbn. intuition congruence.
        * rewrite w64_small; [lia|]. assert (Z.of_nat per < M64) by nia. lia.
        * intros x [<-|Hx]; auto.
      + exfalso. assert (Hincl : incl (seq 0 per) (map fst its)).
        { intros i Hin. apply in_seq_nth in Hin. apply H4. split; auto.
          apply (fp_scan_none _ _ H1 Es i); lia. }
        apply NoDup_incl_length in Hincl; [|apply seq_NoDup]. rewrite seq_length, map_length in Hincl. lia.
  Qed.

  (** *** Returning a slot *)
  Lemma fp_owns_spec p q : wf_region (pool_held p) ->
    fp_owns obj per p q = true <-> fp_data p <= q < fp_data p + obj * Z.of_nat per.
  Proof.
    unfold wf_region, pool_held, fp_owns. cbn [fst snd]. rewrite data_bytes_eq. unfold ASP. intros (A & B & C).
    destruct (Z.ltb_spec (obj * Z.of_nat per) (2 ^ 63)); lia.
  Qed.

  Lemma slot_inside p its u : pool_ok p its -> In u (pool_used p its) -> 0 < snd u /\ inside u (pool_held p).
  Proof.
    intros (_ & _ & _ & H4 & _ & H6) Hu. apply in_map_iff in Hu as (x & <- & Hx).
    assert (Hi : (fst x < per)%nat) by (apply H4, in_map, Hx). specialize (H6 x Hx).
    unfold inside, pool_held. cbn [fst snd]. rewrite data_bytes_eq. nia.
  Qed.

  Lemma slot_disj p its : pool_ok p its -> pairwise disj (pool_used p its).
  Proof.
    intros (_ & _ & H3 & _ & _ & H6). unfold pool_used. induction its as [|x its IH]; cbn; auto.
    inversion H3 as [|? ? H31 H32]; subst. split.
    - intros y Hy. apply in_map_iff in Hy as (z & <- & Hz).
      assert (fst z <> fst x) by (intros E; apply H31; rewrite <- E; now apply in_map).
      pose proof (H6 x (or_introl eq_refl)). pose proof (H6 z (or_intror Hz)).
      unfold disj. cbn [fst snd]. nia.
    - apply IH; auto. intros y Hy. apply H6. now right.
  Qed.

  Lemma free_in_pool_ok p its q n : pool_ok p its -> In (q, n) (pool_used p its) ->
    exists its', Permutation (pool_used p its) ((q, n) :: pool_used p its') /\
                 pool_ok (free_in_pool obj p q) its' /\ fp_data (free_in_pool obj p q) = fp_data p.
  Proof.
    intros HP Hin. pose proof (pool_its_bound p its HP) as Hb. pose proof HP as (H1 & H2 & H3 & H4 & H5 & H6).
    apply in_map_iff in Hin as ([i n'] & E & Hx). cbn [fst snd] in E. injection E as E1 E2. subst n'.
    apply in_split in Hx as (l1 & l2 & ->). exists (l1 ++ l2). split; [|split; auto].
    - unfold pool_used. rewrite !map_app. cbn [map fst snd]. rewrite E1. apply Permutation_sym, Permutation_middle.
    - unfold free_in_pool. replace (Z.to_nat ((q - fp_data p) / obj)) with i.
      2: { rewrite <- E1. replace (fp_data p + obj * Z.of_nat i - fp_data p) with (Z.of_nat i * obj) by lia.
           rewrite Z.div_mul by lia. lia. }
      assert (Hi : (i < per)%nat /\ nth i (concat (fp_avail p)) true = false).
      { apply H4. rewrite map_app. apply in_or_app. right. now left. } destruct Hi as [Hi Hbit].
      pose proof ints_enough as Hie.
      assert (Hsum : i = (Nat.div i 32 * 32 + Nat.modulo i 32)%nat) by (pose proof (Nat.div_mod i 32 ltac:(lia)); lia).
      assert (Hm : (Nat.modulo i 32 < 32)%nat) by (apply Nat.mod_upper_bound; lia).
      assert (Hk : (Nat.div i 32 < length (fp_avail p))%nat) by lia.
      pose proof (words_length _ H1) as Hlen. rewrite H2 in Hlen.
      rewrite map_app in H3. cbn [map fst] in H3. apply NoDup_remove in H3 as [N1 N2]. rewrite <- map_app in N1, N2.
      unfold pool_ok. cbn [fp_avail fp_num fp_data].
      split; [now apply words_upd|]. split; [now rewrite upd_length|]. split; [exact N1|]. split; [|split].
      + intros j. rewrite concat_upd by auto. rewrite <- Hsum. rewrite upd_nth by lia.
        destruct (Nat.eqb_spec j i) as [->|Hne].
        * rewrite Hbit. cbn. split; [intros H; now elim N2|intuition discriminate].
        * rewrite <- H4. rewrite !map_app, !in_app_iff. cbn. intuition congruence.
      + rewrite app_length in *. cbn [length] in *. rewrite w64_small; [lia|].
        assert (Z.of_nat per < M64) by nia. lia.
      + intros x Hx. apply H6. apply in_app_or in Hx as [Hx|Hx]; apply in_or_app; cbn; auto.
  Qed.

  (** ** All pools *)
  Definition all_used (pools : list fpool) (itss : list (list (nat * Z))) : list region :=
    concat (map (fun x => pool_used (fst x) (snd x)) (combine pools itss)).

  Definition fx_rel (s : fixedp) (U L : list region) : Prop :=
    exists itss, Forall2 pool_ok (fx_pools s) itss /\ Permutation U (all_used (fx_pools s) itss) /\
      Permutation L (map pool_held (fx_pools s)) /\ fx_cur s = w64 (obj * Z.of_nat (length U)).

  Lemma all_used_cons p pools its itss : all_used (p :: pools) (its :: itss) = pool_used p its ++ all_used pools itss.
  Proof. reflexivity. Qed.

  Lemma all_used_app a b ia ib : length a = length ia ->
    all_used (a ++ b) (ia ++ ib) = all_used a ia ++ all_used b ib.
  Proof.
    revert ia. induction a as [|p a IH]; intros [|x ia] H; cbn in H; try discriminate; [reflexivity|].
    cbn [app]. rewrite !all_used_cons, IH by lia. now rewrite app_assoc.
  Qed.

  Lemma all_used_in pools itss u : Forall2 pool_ok pools itss -> In u (all_used pools itss) ->
    exists p, In p pools /\ 0 < snd u /\ inside u (pool_held p).
  Proof.
    induction 1 as [|p its pools itss Hp HF IH]; cbn; [tauto|]. intros Hin.
    apply in_app_or in Hin as [Hin|Hin].
    - exists p. split; auto. eapply slot_inside; eauto.
    - destruct (IH Hin) as (p' & Hp' & H). exists p'. auto.
  Qed.

  Lemma all_used_good pools itss : Forall2 pool_ok pools itss -> good (map pool_held pools) -> good (all_used pools itss).
  Proof.
    induction 1 as [|p its pools itss Hp HF IH]; intros HG; [apply good_nil|].
    rewrite all_used_cons. cbn [map] in HG. apply good_cons in HG as (G1 & G2 & G3). apply good_app.
    split; [|split; [auto|]].
    - split; [|eapply slot_disj; eauto]. intros u Hu. destruct (slot_inside p its u Hp Hu) as (A & B).
      unfold wf_region, inside in *. lia.
    - intros u v Hu Hv. destruct (slot_inside p its u Hp Hu) as (_ & B).
      destruct (all_used_in _ _ _ HF Hv) as (p' & Hp' & _ & B').
      pose proof (G2 (pool_held p') (in_map _ _ _ Hp')). unfold disj, inside in *. lia.
  Qed.

  Lemma Forall2_snoc {A B} (R : A -> B -> Prop) l l' x y : Forall2 R l l' -> R x y -> Forall2 R (l ++ [x]) (l' ++ [y]).
  Proof. intros H H'. apply Forall2_app; auto. Qed.

  Lemma Forall2_rev {A B} (R : A -> B -> Prop) l l' : Forall2 R l l' -> Forall2 R (rev l) (rev l').
  Proof. induction 1; cbn; [constructor|]. now apply Forall2_snoc. Qed.

  Lemma Forall2_len {A B} (R : A -> B -> Prop) l l' : Forall2 R l l' -> length l = length l'.
  Proof. induction 1; cbn; auto. Qed.

  Lemma all_used_rev pools itss : Forall2 pool_ok pools itss -> Permutation (all_used (rev pools) (rev itss)) (all_used pools itss).
  Proof.
    induction 1 as [|p its pools itss Hp HF IH]; [reflexivity|]. cbn [rev].
    rewrite all_used_app by (rewrite !rev_length; eapply Forall2_len; eauto).
    rewrite all_used_cons, IH. cbn [all_used combine map concat fst snd]. rewrite app_nil_r. apply Permutation_app_comm.
  Qed.

  Lemma all_used_count pools itss : Forall2 pool_ok pools itss ->
    (length (all_used pools itss) <= per * length pools)%nat.
  Proof.
    induction 1 as [|p its pools itss Hp HF IH]; [cbn; lia|]. rewrite all_used_cons, app_length.
    pose proof (pool_its_bound _ _ Hp). unfold pool_used at 1. rewrite map_length. cbn [length]. lia.
  Qed.

  Lemma fx_try_ok n : 0 < n <= obj -> forall l itss l' r, Forall2 pool_ok l itss -> (forall p, In p l -> 0 < fp_data p) ->
    fx_try obj per l = (l', r) ->
    (r = 0 /\ l' = l /\ length (all_used l itss) = (per * length l)%nat) \/
    (r <> 0 /\ map pool_held l' = map pool_held l /\ (length (all_used l itss) < per * length l)%nat /\
     exists itss', Forall2 pool_ok l' itss' /\ Permutation (all_used l' itss') ((r, n) :: all_used l itss)).
  Proof.
    intros Hn. induction l as [|p l IH]; intros itss l' r HF Hd E; cbn [fx_try] in E.
    - injection E as <- <-. left. inversion HF; subst. split; auto.
    - inversion HF as [|? its ? itss' Hp HF']; subst.
      destruct (alloc_in_pool obj per p) as [p' q] eqn:Ea.
      destruct (alloc_in_pool_ok p its n p' q Hp (Hd p (or_introl eq_refl)) Hn Ea) as [(-> & -> & Hfull)|(i & -> & Hnz & Hdat & Hok & Hlt)].
      + cbn [Z.eqb] in E. destruct (fx_try obj per l) as [t' r'] eqn:Et. injection E as <- <-.
        destruct (IH itss' t' r' HF' (fun x Hx => Hd x (or_intror Hx)) eq_refl) as [(-> & -> & Hf)|(Hr & Hh & Hlt & its2 & HF2 & HP2)].
        * left. split; auto. split; auto. rewrite all_used_cons, app_length, Hf. unfold pool_used. rewrite map_length. cbn [length]. lia.
        * right. split; auto. split; [cbn [map]; now rewrite Hh|].
          split; [rewrite all_used_cons, app_length; unfold pool_used; rewrite map_length; cbn [length]; lia|].
          exists (its :: its2). split; [now constructor|]. rewrite !all_used_cons, HP2. apply Permutation_sym, Permutation_middle.
      + assert (Ez : (fp_data p + obj * Z.of_nat i =? 0) = false) by lia. rewrite Ez in E. injection E as <- <-.
        right. split; [exact Hnz|]. split; [cbn [map]; unfold pool_held at 1 3; now rewrite Hdat|].
        split.
        * rewrite all_used_cons, app_length. pose proof (all_used_count _ _ HF'). unfold pool_used at 1. rewrite map_length. cbn [length]. lia.
        * exists (((i, n) :: its) :: itss'). split; [now constructor|]. rewrite !all_used_cons.
          cbn [pool_used map fst snd app]. rewrite Hdat. reflexivity.
  Qed.

  Lemma fx_free_pools_ok q n : forall pools itss, Forall2 pool_ok pools itss -> good (map pool_held pools) ->
    In (q, n) (all_used pools itss) ->
    exists pools' itss', fx_free_pools obj per q pools = Some pools' /\ Forall2 pool_ok pools' itss' /\
      map pool_held pools' = map pool_held pools /\
      Permutation (all_used pools itss) ((q, n) :: all_used pools' itss').
  Proof.
    intros pools itss HF. induction HF as [|p its pools itss Hp HF IH]; intros HG Hin; [destruct Hin|].
    cbn [map] in HG. apply good_cons in HG as (G1 & G2 & G3). cbn [fx_free_pools].
    rewrite all_used_cons in *. apply in_app_or in Hin as [Hin|Hin].
    - destruct (slot_inside p its _ Hp Hin) as (A & B). unfold inside in B. cbn [fst snd pool_held] in A, B.
      rewrite data_bytes_eq in B.
      assert (E : fp_owns obj per p q = true) by (apply fp_owns_spec; [exact G1|lia]). rewrite E.
      destruct (free_in_pool_ok p its q n Hp Hin) as (its' & P1 & P2 & P3).
      exists (free_in_pool obj p q :: pools), (its' :: itss). split; auto. split; [now constructor|].
      split; [cbn [map]; unfold pool_held at 1 3; now rewrite P3|]. rewrite all_used_cons, P1.
      cbn [app]. unfold pool_used. now rewrite P3.
    - destruct (all_used_in _ _ _ HF Hin) as (p' & Hp' & A & B). unfold inside in B. cbn [fst snd pool_held] in A, B.
      assert (E : fp_owns obj per p q = false).
      { destruct (fp_owns obj per p q) eqn:E; auto. apply fp_owns_spec in E; [|exact G1].
        specialize (G2 _ (in_map _ _ _ Hp')). unfold disj, pool_held in G2. cbn [fst snd] in G2.
        rewrite data_bytes_eq in *. lia. }
      rewrite E. destruct (IH G3 Hin) as (pools' & itss' & E1 & E2 & E3 & E4).
      exists (p :: pools'), (its :: itss'). rewrite E1. split; auto. split; [now constructor|].
      split; [cbn [map]; now rewrite E3|]. rewrite all_used_cons, E4. apply Permutation_sym, Permutation_middle.
  Qed.

  (** Release: an unused pool has no item. *)
  Lemma fx_filter_ok pools itss : Forall2 pool_ok pools itss ->
    exists itss', Forall2 pool_ok (filter (fun p => negb (fp_unused per p)) pools) itss' /\
      all_used (filter (fun p => negb (fp_unused per p)) pools) itss' = all_used pools itss.
  Proof.
    induction 1 as [|p its pools itss Hp HF (itss' & I1 & I2)]; [exists []; split; [constructor|reflexivity]|].
    cbn [filter]. destruct (fp_unused per p) eqn:E; unfold fp_unused in E; cbn [negb].
    - exists itss'. split; auto. rewrite all_used_cons, I2.
      destruct Hp as (_ & _ & _ & _ & H5 & _). destruct its; [reflexivity|cbn [length] in H5; lia].
    - exists (its :: itss'). split; [now constructor|]. now rewrite !all_used_cons, I2.
  Qed.

  Lemma fx_free_unused_ok W (P : Parent W) (Inv : W -> list region -> Prop) limP (HP : ParentSpec P limP Inv) : forall pools w L,
    Inv w (map pool_held pools ++ L) ->
    post (fx_free_unused obj per P pools w)
         (fun w' _ => Inv w' (map pool_held (filter (fun p => negb (fp_unused per p)) pools) ++ L))
         (fun _ _ => False).
  Proof.
    induction pools as [|p pools IH]; intros w L HI; cbn [fx_free_unused]; [exact HI|].
    cbn [map filter app] in *. destruct (fp_unused per p) eqn:E; cbn [negb].
    - apply post_bind. eapply post_impl; [| |apply (ps_dealloc _ _ _ HP w _ (fp_data p) fx_data_bytes HI)]; auto.
    - cbn [map app]. eapply post_impl; [| |apply (IH w (pool_held p :: L))]; auto.
      + intros w' ? H. eapply (ps_perm _ _ _ HP); [|exact H]. apply Permutation_sym, Permutation_middle.
      + eapply (ps_perm _ _ _ HP); [|exact HI]. apply Permutation_middle.
  Qed.

  Lemma w64_add a b : w64 (w64 a + b) = w64 (a + b).
  Proof. unfold w64. now rewrite Zplus_mod_idemp_l. Qed.
  Lemma w64_sub a b : w64 (w64 a - b) = w64 (a - b).
  Proof. unfold w64. now rewrite Zminus_mod_idemp_l. Qed.

  Lemma fx_new_pool_ok W (P : Parent W) (Inv : W -> list region -> Prop) limP s w U L :
    ParentSpec P limP Inv -> obj * Z.of_nat per <= limP -> fx_rel s U L -> Inv w L ->
    post (fx_new_pool obj per P (s, w))
         (fun sw _ => exists d L', fx_pools (fst sw) = fx_pools s ++ [new_fpool per d] /\ 0 < d /\
                        fx_rel (fst sw) U L' /\ Inv (snd sw) L')
         (fun sw _ => fst sw = s /\ Inv (snd sw) L).
  Proof.
    intros HP Hl (itss & R1 & R2 & R3 & R4) HI. unfold fx_new_pool.
    assert (Hn : 0 < fx_data_bytes <= limP) by (rewrite data_bytes_eq; nia).
    pose proof (ps_alloc _ _ _ HP w L _ HI Hn) as H.
    destruct (p_alloc P fx_data_bytes w) as [w' d|w' e| | |]; cbn [post fst snd] in *; auto.
    exists d, ((d, fx_data_bytes) :: L). cbn [fx_pools fx_cur]. split; auto.
    split; [apply (ps_good _ _ _ HP) in H; apply good_cons in H as ((H & _) & _); exact H|].
    split; auto. exists (itss ++ [[]]). cbn [fx_pools fx_cur]. split; [apply Forall2_snoc; auto using new_pool_ok|].
    rewrite all_used_app by (eapply Forall2_len; eauto). rewrite map_app.
    split; [|split; auto].
    - rewrite R2. cbn [all_used combine map concat fst snd pool_used]. now rewrite !app_nil_r.
    - cbn [map]. unfold pool_held at 2. cbn [fp_data new_fpool]. rewrite R3. apply Permutation_cons_append.
  Qed.

  Lemma fx_rel_pos s U L : fx_rel s U L -> good L -> forall p, In p (fx_pools s) -> 0 < fp_data p.
  Proof.
    intros (itss & _ & _ & R3 & _) HG p Hp.
    assert (Hin : In (pool_held p) L) by (eapply Permutation_in; [apply Permutation_sym, R3|now apply in_map]).
    apply (proj1 HG) in Hin. exact (proj1 Hin).
  Qed.

  Lemma fx_alloc_ok W (P : Parent W) (Inv : W -> list region -> Prop) limP n :
    ParentSpec P limP Inv -> obj * Z.of_nat per <= limP -> 0 < n <= obj ->
    forall f s w U L, fx_rel s U L -> Inv w L ->
    post (fx_alloc obj per f P n (s, w))
         (fun sw p => exists L', fx_rel (fst sw) ((p, n) :: U) L' /\ Inv (snd sw) L')
         (fun sw _ => exists L', fx_rel (fst sw) U L' /\ Inv (snd sw) L').
  Proof.
    intros HP Hl Hn. induction f as [|f IH]; intros s w U L HR HI; cbn [fx_alloc]; [exact I|].
    destruct (fx_try obj per (rev (fx_pools s))) as [rp q] eqn:Et.
    pose proof (fx_rel_pos s U L HR (ps_good _ _ _ HP _ _ HI)) as Hpos.
    pose proof HR as (itss & R1 & R2 & R3 & R4).
    destruct (fx_try_ok n Hn _ (rev itss) _ _ (Forall2_rev _ _ _ R1) (fun p Hp => Hpos p (proj2 (in_rev _ _) Hp)) Et)
      as [(-> & -> & _)|(Hr & Hh & _ & its2 & HF2 & HP2)].
    - cbn [Z.eqb]. rewrite rev_involutive. replace (mkFixed (fx_pools s) (fx_cur s) (fx_actual s) (fx_hwm s)) with s by (destruct s; auto).
      apply post_bind. eapply post_impl; [| |apply (fx_new_pool_ok W P Inv limP s w U L HP Hl HR HI)].
      + intros [s1 w1] _ (d & L' & _ & _ & HR' & HI'). apply (IH s1 w1 U L' HR' HI').
      + intros [s1 w1] e (E & HI'). cbn [fst snd] in *. subst s1. exists L. auto.
    - assert (Ez : (q =? 0) = false) by lia. rewrite Ez. cbn [post fst snd]. exists L. split; auto.
      exists (rev its2). cbn [fx_pools fx_cur]. split; [now apply Forall2_rev|]. split; [|split].
      + rewrite (all_used_rev rp its2 HF2), HP2, (all_used_rev _ _ R1). now constructor.
      + rewrite R3, map_rev, Hh, map_rev, rev_involutive. reflexivity.
      + rewrite R4, w64_add. f_equal. cbn [length]. lia.
  Qed.

  Lemma FixedPool_ok (fuel : nat) limP : obj * Z.of_nat per <= limP -> StratOk (FixedPool obj per fuel) fx_rel limP obj.
  Proof.
    intros Hl. constructor; cbn [st_ty FixedPool st_make st_alloc st_dealloc st_release st_coalesce].
    - intros s U U' L L' H1 H2 (itss & R1 & R2 & R3 & R4). exists itss. split; auto.
      split; [now rewrite <- H1|]. split; [now rewrite <- H2|]. now rewrite <- (Permutation_length H1).
    - intros s U L (itss & R1 & R2 & R3 & R4) HG. split.
      + eapply good_perm; [apply Permutation_sym, R2|]. apply all_used_good; auto. eapply good_perm; eauto.
      + eapply covered_perm; [apply Permutation_sym, R2|apply Permutation_sym, R3|].
        intros u Hu. destruct (all_used_in _ _ _ R1 Hu) as (p & Hp & _ & Hi). exists (pool_held p). split; auto. now apply in_map.
    - intros W P Inv w HP HI. unfold fx_init.
      assert (HR : fx_rel (mkFixed [] 0 0 0) [] []).
      { exists []. cbn. rewrite Z.mul_0_r. repeat split; auto. }
      pose proof (fx_new_pool_ok W P Inv limP _ w [] [] HP Hl HR HI) as H.
      destruct (fx_new_pool obj per P (mkFixed [] 0 0 0, w)) as [sw u|sw e| | |]; cbn [post] in *; auto.
      destruct H as (d & L' & _ & _ & H1 & H2). exists L'. auto.
    - intros W P Inv s w U L n HP HR HI Hn. unfold fx_allocate.
      exact (fx_alloc_ok W P Inv limP n HP Hl Hn fuel s w U L HR HI).
    - intros W P Inv s w U L p n cur HP (itss & R1 & R2 & R3 & R4) HI. unfold fx_deallocate.
      assert (HG : good (map pool_held (fx_pools s))) by (eapply good_perm; [exact R3|eapply ps_good; eauto]).
      assert (Hin : In (p, n) (all_used (fx_pools s) itss)) by (eapply Permutation_in; [exact R2|now left]).
      destruct (fx_free_pools_ok p n _ _ R1 HG Hin) as (pools' & itss' & E1 & E2 & E3 & E4).
      rewrite E1. cbn [post fst snd]. exists L. split; auto. exists itss'. cbn [fx_pools fx_cur]. split; auto. split; [|split].
      + apply (Permutation_cons_inv (a := (p, n))). now rewrite <- E4.
      + now rewrite E3.
      + rewrite R4, w64_sub. f_equal. cbn [length]. lia.
    - intros W P Inv s w U L HP (itss & R1 & R2 & R3 & R4) HI. unfold fx_release.
      assert (HI' : Inv w (map pool_held (fx_pools s) ++ [])) by (rewrite app_nil_r; eapply (ps_perm _ _ _ HP); eauto).
      pose proof (fx_free_unused_ok W P Inv limP HP (fx_pools s) w [] HI') as H.
      destruct (fx_free_unused obj per P (fx_pools s) w) as [w' u|w' e| | |]; cbn [post fst snd] in *; auto; [|tauto].
      destruct (fx_filter_ok _ _ R1) as (itss' & F1 & F2).
      rewrite app_nil_r in H. exists (map pool_held (filter (fun p => negb (fp_unused per p)) (fx_pools s))). split; auto.
      exists itss'. cbn [fx_pools fx_cur]. split; auto. split; [now rewrite F2|]. split; auto.
    - intros W P Inv s w U L cur HP HR HI. now apply (no_coalesce_ok _ _ fx_rel) with (L := L).
  Qed.
End FixedPoolFacts.
