(** Storing in and deleting from the Judy array. *)
From Verif Require Import Base BaseFacts MapModel MapSpec JudyModel JudyFacts.

Section JudyUpdate.
  Context {V : Type}.
  Notation jn := (@jn V).

  Lemma opt_ext (a b : option V) : (forall x, a = Some x <-> b = Some x) -> a = b.
  Proof.
    intros H. destruct a as [x|]; [symmetry; apply H; reflexivity|]. destruct b as [y|]; [|reflexivity]. apply H. reflexivity.
  Qed.

  Lemma asc_in_fun (L : list (Z * V)) k v w : asc L -> In (k, v) L -> In (k, w) L -> v = w.
  Proof.
    intros Ha H1 H2. apply (slots_get_lin 0 L k Ha) in H1, H2. congruence.
  Qed.

  (** ** Assigning to the cell of a key that is present *)
  Lemma lin_pos ty ks e (L : list (Z * V)) k p : (0 < ks)%nat -> asc L -> (forall x, In x L -> 0 <= fst x < pw ks) -> 0 <= k < pw ks ->
    lk (JLin ty (lin e L)) ks k <> None -> slot (JLin ty (lin e L)) ks k = (p, Some p) ->
    exists A w B, L = A ++ (k, w) :: B /\ p = [Z.of_nat (e + length A)].
  Proof.
    intros Hks Ha Hr Hk Hd Es. cbn [lk] in Hd. destruct (slots_get _ _) as [w|] eqn:E; [|congruence]. apply slots_get_lin in E; auto.
    rewrite Z.mod_small in E by lia. apply in_split in E as (A & B & ->). exists A, w, B. split; auto.
    destruct (lin_found ty ks e A k w B Hks Ha Hr) as (F1 & _). rewrite Es in F1. congruence.
  Qed.

  Lemma lin_split e (A : list (Z * V)) a w B : lin e (A ++ (a, w) :: B) = (repeat (0, None) e ++ live A) ++ (a, Some w) :: live B.
  Proof. unfold lin. rewrite live_app, <- app_assoc. reflexivity. Qed.

  Lemma asc_replace (A : list (Z * V)) a w w' B : asc (A ++ (a, w) :: B) -> asc (A ++ (a, w') :: B).
  Proof. unfold asc. rewrite !map_app. auto. Qed.

  Lemma scan_keys v (l l' : list (Z * option V)) : map fst l = map fst l' -> forall i b, scan v l i b = scan v l' i b.
  Proof.
    revert l'. induction l as [|x l IH]; intros [|y l'] E i b; try discriminate; auto. cbn [map] in E. injection E as E1 E2. cbn [scan]. rewrite E1. auto.
  Qed.

  Lemma slot_key_keys (l l' : list (Z * option V)) s : map fst l = map fst l' -> slot_key l s = slot_key l' s.
  Proof.
    intros E. unfold slot_key. generalize (Z.to_nat s). intros i. pose proof (f_equal (fun x => nth_error x i) E) as H.
    cbn beta in H. rewrite !nth_error_map in H. destruct (nth_error l i), (nth_error l' i); cbn in H; congruence.
  Qed.

  Lemma write_ok (n : jn) : forall ks k p v, wf ks n -> 0 <= k < pw ks -> lk n ks k <> None -> slot n ks k = (p, Some p) ->
    wf ks (write n p v) /\ write n p v <> JNil /\
    (forall x, lk (write n p v) ks x = if x mod pw ks =? k mod pw ks then Some v else lk n ks x) /\
    (forall x, slot (write n p v) ks x = slot n ks x) /\ (plain n -> plain (write n p v)).
  Proof.
    induction n as [|v0|ty sl|kids IH]; intros ks k p v Hw Hk Hd Es; [discriminate|discriminate| |].
    - pose proof Hw as (Hks & Hty & e & L & -> & Hne & Ha & Hr & Hc).
      destruct (lin_pos ty ks e L k p ltac:(lia) Ha Hr Hk Hd Es) as (A & w & B & -> & ->).
      rewrite (write_at _ _ _ _ _ v ty (lin_split e A k w B)) by (now rewrite lin_pre). cbn [fst]. rewrite <- lin_split.
      pose proof (asc_replace _ _ _ v _ Ha) as Ha'.
      split; [|split; [discriminate|split; [|split; [|auto]]]].
      + split; auto. split; auto. exists e, (A ++ (k, v) :: B). split; auto. split; [intros E; symmetry in E; now apply app_cons_not_nil in E|]. split; auto. split.
        * intros x Hx. apply in_app_or in Hx as [Hx|[<-|Hx]]; [apply Hr, in_or_app; auto|exact Hk|apply Hr, in_or_app; right; right; auto].
        * rewrite app_length in *. exact Hc.
      + intros x. cbn [lk]. apply opt_ext. intros y. rewrite slots_get_lin by auto. rewrite (Z.mod_small k) by lia.
        destruct (Z.eqb_spec (x mod pw ks) k) as [E|E].
        * rewrite E. split; [|intros H; injection H as <-; apply in_elt]. intros H. f_equal. apply (asc_in_fun _ _ _ _ Ha' (in_elt _ _ _) H).
        * rewrite slots_get_lin by auto. split; intros H; apply in_app_or in H as [H|[H|H]]; try (apply in_or_app; simpl; auto); congruence.
      + intros x. cbn [slot]. assert (Em : map fst (lin e (A ++ (k, v) :: B)) = map fst (lin e (A ++ (k, w) :: B))).
        { rewrite !lin_split, !map_app. reflexivity. }
        now rewrite (scan_keys _ _ _ Em), (slot_key_keys _ _ _ Em).
    - pose proof Hw as (ks' & -> & Hks & Hex & Hkk). rewrite slot_rad in Es. rewrite lk_rad in Hd. set (b := kbyte (S ks') k) in *.
      destruct (Hkk b) as [Hwb Hob].
      assert (Hgo : exists q, p = b :: q /\ (let n' := write (kids b) q v in
        wf ks' n' /\ n' <> JNil /\ (forall x, lk n' ks' x = if x mod pw ks' =? k mod pw ks' then Some v else lk (kids b) ks' x) /\
        (plain (kids b) -> plain n') /\ forall x, slot (JRad (upd kids b n')) (S ks') x = slot (JRad kids) (S ks') x)).
      { assert (Hslot : forall n' : jn, ((exists v1 v2, n' = JVal v1 /\ kids b = JVal v2) \/
            (n' <> JNil /\ kids b <> JNil /\ (forall u, n' <> JVal u) /\ (forall u, kids b <> JVal u) /\ forall x, slot n' ks' x = slot (kids b) ks' x)) ->
            forall x, slot (JRad (upd kids b n')) (S ks') x = slot (JRad kids) (S ks') x).
        { intros n' H x. rewrite !slot_rad. unfold upd. destruct (Z.eqb_spec (kbyte (S ks') x) b) as [E|]; [rewrite E|reflexivity].
          destruct H as [(v1 & v2 & -> & ->)|(H1 & H2 & H3 & H4 & H5)]; [reflexivity|]. specialize (H5 x).
          destruct n' as [|u| |]; [congruence|elim (H3 u); auto| |]; (destruct (kids b) as [|u| |]; [congruence|elim (H4 u); auto| |]); now rewrite H5. }
        destruct (kids b) as [|u|ty sl|kb] eqn:Ek; [discriminate| | |].
        - injection Es as <-. exists []. split; auto. cbn [write]. cbn [wf] in Hwb. subst ks'. split; [reflexivity|]. split; [discriminate|].
          split; [|split; [intros []|]].
          + intros x. cbn [lk]. rewrite pw_0, !Z.mod_1_r, Z.eqb_refl. reflexivity.
          + apply Hslot. left. eauto.
        - rewrite <- Ek in *. destruct (slot (kids b) ks' k) as [q r] eqn:Es0. injection Es as <- Es. exists q. split; auto.
          assert (r = Some q) as -> by (destruct r; inversion Es; auto). assert (Hz : ks' <> 0%nat) by (rewrite Ek in Hwb; destruct Hwb; lia).
          rewrite (slot_mod _ ks' _ (k mod pw ks')) in Es0 by (auto; symmetry; apply Z.mod_mod; pose proof (pw_pos ks'); lia).
          rewrite (lk_mod _ ks' _ (k mod pw ks')) in Hd by (auto; symmetry; apply Z.mod_mod; pose proof (pw_pos ks'); lia).
          destruct (IH b ks' (k mod pw ks') q v Hwb (mod_pw_range ks' k) Hd Es0) as (I1 & I2 & I3 & I4 & I5).
          split; [exact I1|]. split; [exact I2|]. split; [intros x; rewrite I3, Z.mod_mod by (pose proof (pw_pos ks'); lia); reflexivity|]. split; [exact I5|].
          apply Hslot. right. split; [exact I2|]. split; [congruence|]. split; [apply (wf_nz ks'); auto|]. split; [congruence|exact I4].
        - rewrite <- Ek in *. destruct (slot (kids b) ks' k) as [q r] eqn:Es0. injection Es as <- Es. exists q. split; auto.
          assert (r = Some q) as -> by (destruct r; inversion Es; auto). assert (Hz : ks' <> 0%nat) by (rewrite Ek in Hwb; destruct Hwb as (? & -> & _); lia).
          rewrite (slot_mod _ ks' _ (k mod pw ks')) in Es0 by (auto; symmetry; apply Z.mod_mod; pose proof (pw_pos ks'); lia).
          rewrite (lk_mod _ ks' _ (k mod pw ks')) in Hd by (auto; symmetry; apply Z.mod_mod; pose proof (pw_pos ks'); lia).
          destruct (IH b ks' (k mod pw ks') q v Hwb (mod_pw_range ks' k) Hd Es0) as (I1 & I2 & I3 & I4 & I5).
          split; [exact I1|]. split; [exact I2|]. split; [intros x; rewrite I3, Z.mod_mod by (pose proof (pw_pos ks'); lia); reflexivity|]. split; [exact I5|].
          apply Hslot. right. split; [exact I2|]. split; [congruence|]. split; [apply (wf_nz ks'); auto|]. split; [congruence|exact I4]. }
      destruct Hgo as (q & -> & G1 & G2 & G3 & G4 & G5). cbn [write]. set (n' := write (kids b) q v) in *.
      split; [|split; [discriminate|split; [|split; [exact G5|]]]].
      + exists ks'. split; auto. split; auto. split; [exists b; unfold upd; rewrite Z.eqb_refl; exact G2|]. intros x. unfold upd.
        destruct (Z.eqb_spec x b) as [->|]; [|apply Hkk]. split; auto. intros H. exfalso. apply H, kbyte_range.
      + intros x. rewrite !lk_rad. unfold upd. destruct (Z.eqb_spec (kbyte (S ks') x) b) as [E|E].
        * rewrite G3, E. destruct (Z.eqb_spec (x mod pw ks') (k mod pw ks')) as [E2|E2], (Z.eqb_spec (x mod pw (S ks')) (k mod pw (S ks'))) as [E3|E3]; auto.
          -- elim E3. apply eq_mod_S. auto.
          -- apply eq_mod_S in E3 as [_ E3]. contradiction.
        * destruct (Z.eqb_spec (x mod pw (S ks')) (k mod pw (S ks'))) as [E3|E3]; auto. apply eq_mod_S in E3 as [E3 _]. contradiction.
      + intros Hp x. unfold upd. destruct (Z.eqb_spec x b); [apply G4, Hp|apply Hp].
  Qed.

  (** ** Making a cell *)
  (** At most 56 keys that differ in the last byte only, counting [k]. *)
  Definition room (n : jn) (ks : nat) (k : Z) : Prop :=
    forall w l, NoDup l -> (forall x, In x l -> 0 <= x < pw ks /\ (x = k mod pw ks \/ lk n ks x <> None) /\ x / 256 = w) -> (length l <= 56)%nat.

  Definition put (ks : nat) (n : jn) (k : Z) (n' : jn) (p : path) : Prop :=
    (lk n ks k = None -> read n' p = None) /\
    (lk n ks k <> None -> wf ks n' /\ (forall x, lk n' ks x = lk n ks x) /\ (ks <> 0%nat -> slot n' ks k = (p, Some p))) /\
    (forall v, let n2 := write n' p v in
       wf ks n2 /\ n2 <> JNil /\ (forall x, lk n2 ks x = if x mod pw ks =? k mod pw ks then Some v else lk n ks x) /\
       (ks <> 0%nat -> slot n2 ks k = (p, Some p))) /\
    (ks <> 0%nat -> plain n -> room n ks k -> plain n' /\ forall v, plain (write n' p v)) /\
    (ks = 0%nat -> p = []).

  (** A new key in a linear node. *)
  Lemma put_lin ty ks e (A B : list (Z * V)) k n : (0 < ks <= 8)%nat -> (1 <= ty <= JUDY_max)%nat -> asc A -> asc B ->
    (forall x, In x A -> fst x < k mod pw ks) -> (forall x, In x B -> k mod pw ks < fst x) ->
    (forall x, In x (A ++ B) -> 0 <= fst x < pw ks) -> Z.of_nat (e + S (length A + length B)) = jcnt ty ks ->
    (forall x y, lk n ks x = Some y <-> In (x mod pw ks, y) (A ++ B)) ->
    put ks n k (JLin ty (lin e A ++ (k mod pw ks, None) :: live B)) [Z.of_nat (e + length A)].
  Proof.
    intros Hks Hty HA HB HAk HBk Hr Hc Hlk. set (v := k mod pw ks) in *. pose proof (mod_pw_range ks k) as Hv. fold v in Hv.
    assert (Hnone : lk n ks k = None).
    { destruct (lk n ks k) as [y|] eqn:E; auto. apply Hlk in E. fold v in E. apply in_app_or in E as [E|E]; [specialize (HAk _ E)|specialize (HBk _ E)]; cbn [fst] in *; lia. }
    assert (El : forall w, write (JLin ty (lin e A ++ (v, None) :: live B)) [Z.of_nat (e + length A)] w = JLin ty (lin e (A ++ (v, w) :: B))).
    { intros w. rewrite (write_at _ _ _ _ _ w ty eq_refl) by (now rewrite lin_length). cbn [fst]. rewrite lin_split. reflexivity. }
    assert (Ha : forall w, asc (A ++ (v, w) :: B)).
    { intros w. apply asc_app. split; auto. split; [split; [intros y Hy; apply in_map_iff in Hy as (z & <- & Hz); apply HBk, Hz|exact HB]|].
      intros x y Hx [<-|Hy]; [apply HAk, Hx|]. specialize (HAk x Hx). specialize (HBk y Hy). lia. }
    assert (Hr' : forall w x, In x (A ++ (v, w) :: B) -> 0 <= fst x < pw ks).
    { intros w x Hx. apply in_app_or in Hx as [Hx|[<-|Hx]]; [apply Hr, in_or_app; auto|exact Hv|apply Hr, in_or_app; auto]. }
    split; [|split; [intros H; contradiction|split; [|split; [|lia]]]].
    - intros _. cbn [read]. destruct (slot_at (lin e A ++ (v, None) :: live B) _ _ _ (Z.of_nat (e + length A)) eq_refl) as [_ K]; [now rewrite lin_length|]. exact K.
    - intros w. cbn zeta. rewrite El. split; [|split; [discriminate|split]].
      + split; auto. split; auto. exists e, (A ++ (v, w) :: B). split; auto. split; [intros E; symmetry in E; now apply app_cons_not_nil in E|]. split; auto.
        split; [apply Hr'|]. rewrite app_length. cbn [length]. rewrite <- Hc. lia.
      + intros x. cbn [lk]. apply opt_ext. intros y. rewrite slots_get_lin by auto. fold v. destruct (Z.eqb_spec (x mod pw ks) v) as [E|E].
        * rewrite E. split; [|intros H; injection H as <-; apply in_elt]. intros H. f_equal. apply (asc_in_fun _ _ _ _ (Ha w) (in_elt _ _ _) H).
        * rewrite Hlk. split; intros H; apply in_app_or in H as [H|H]; try (apply in_or_app; simpl; auto; fail). destruct H as [H|H]; [congruence|apply in_or_app; auto].
      + intros _. rewrite (slot_mod _ ks k v).
        * destruct (lin_found ty ks e A v w B ltac:(lia) (Ha w) (Hr' w)) as (F & _). exact F.
        * split; auto. split; auto. exists e, (A ++ (v, w) :: B). split; auto. split; [intros E; symmetry in E; now apply app_cons_not_nil in E|]. split; auto.
          split; [apply Hr'|]. rewrite app_length. cbn [length]. rewrite <- Hc. lia.
        * subst v. symmetry. apply Z.mod_mod. pose proof (pw_pos ks). lia.
    - intros _ _ _. split; [exact I|]. intros w. rewrite El. exact I.
  Qed.

  Lemma room_sub (kids : Z -> jn) ks k : wf (S ks) (JRad kids) -> ks <> 0%nat -> room (JRad kids) (S ks) k -> room (kids (kbyte (S ks) k)) ks k.
  Proof.
    intros Hw Hz Hr w l Hnd Hl. set (b := kbyte (S ks) k) in *. assert (Hb : 0 <= b < 256) by apply kbyte_range.
    destruct ks as [|ks]; [contradiction|]. pose proof (pw_pos ks) as Hpw.
    rewrite <- (map_length (fun y => b * pw (S ks) + y) l). apply (Hr (b * pw ks + w)).
    - apply FinFun.Injective_map_NoDup; auto. intros x y. lia.
    - intros x Hx. apply in_map_iff in Hx as (y & <- & Hy). destruct (Hl y Hy) as (H1 & H2 & H3). split; [apply join_range; auto|]. split.
      + destruct H2 as [H2|H2]; [left; rewrite (mod_split (S ks) k); fold b; lia|right].
        rewrite lk_rad, kbyte_join by auto. pose proof Hw as (? & E & _ & _ & Hk). injection E as <-.
        rewrite (lk_mod _ _ _ y); auto; [apply Hk|]. rewrite mod_join by auto. symmetry. apply Z.mod_small. auto.
      + rewrite pw_S. replace (b * (256 * pw ks) + y) with (y + b * pw ks * 256) by lia. rewrite Z.div_add by lia. lia.
  Qed.

  Lemma put_rad (kids : Z -> jn) ks k n' p : wf (S ks) (JRad kids) ->
    put ks (kids (kbyte (S ks) k)) k n' p ->
    put (S ks) (JRad kids) k (JRad (upd kids (kbyte (S ks) k) n')) (kbyte (S ks) k :: p).
  Proof.
    intros Hw (P1 & P2 & P3 & P4 & P5). set (b := kbyte (S ks) k) in *. assert (Hb : 0 <= b < 256) by apply kbyte_range.
    pose proof Hw as (ks' & E & Hks & Hex & Hk). injection E as <-.
    assert (Hwf : forall m : jn, wf ks m -> m <> JNil -> wf (S ks) (JRad (upd kids b m))).
    { intros m Hm Hmn. exists ks. split; auto. split; auto. split; [exists b; unfold upd; rewrite Z.eqb_refl; auto|]. intros x. unfold upd.
      destruct (Z.eqb_spec x b) as [->|]; auto. split; auto. intros H. contradiction. }
    assert (Hsl : forall m : jn, wf ks m -> m <> JNil -> (ks <> 0%nat -> slot m ks k = (p, Some p)) -> slot (JRad (upd kids b m)) (S ks) k = (b :: p, Some (b :: p))).
    { intros m Hm Hmn Hs. rewrite slot_rad. fold b. unfold upd. rewrite Z.eqb_refl. destruct (Nat.eq_dec ks 0) as [Hz|Hz].
      - rewrite Hz in *. rewrite (P5 eq_refl). destruct m; cbn [wf] in Hm; [congruence|reflexivity|destruct Hm; lia|destruct Hm as (? & ? & _); discriminate].
      - specialize (Hs Hz). destruct m; cbn [wf] in Hm; [congruence|contradiction|rewrite Hs; reflexivity|rewrite Hs; reflexivity]. }
    split; [|split; [|split; [|split]]].
    - rewrite lk_rad. fold b. intros H. cbn [read]. unfold upd. rewrite Z.eqb_refl. auto.
    - rewrite lk_rad. fold b. intros H. destruct (P2 H) as (Q1 & Q2 & Q3).
      assert (Hn' : n' <> JNil) by (intros ->; apply H; rewrite <- Q2; reflexivity).
      split; [auto|]. split; [|auto]. intros x. rewrite !lk_rad. unfold upd. destruct (Z.eqb_spec (kbyte (S ks) x) b) as [E|]; auto. rewrite E. auto.
    - intros v. cbn zeta. specialize (P3 v). cbn zeta in P3. cbn [write].
      replace (upd kids b n' b) with n' by (unfold upd; now rewrite Z.eqb_refl). set (n2 := write n' p v) in *. destruct P3 as (Q1 & Q2 & Q3 & Q4).
      assert (Hup : forall x, upd (upd kids b n') b n2 x = upd kids b n2 x) by (intros x; unfold upd; destruct (x =? b); auto).
      split; [|split; [discriminate|split]].
      + exists ks. split; auto. split; auto. split; [exists b; rewrite Hup; unfold upd; rewrite Z.eqb_refl; auto|]. intros x. rewrite Hup. unfold upd.
        destruct (Z.eqb_spec x b) as [->|]; auto. split; auto. intros H. contradiction.
      + intros x. rewrite !lk_rad, Hup. unfold upd. destruct (Z.eqb_spec (kbyte (S ks) x) b) as [E|E].
        * rewrite Q3, E. destruct (Z.eqb_spec (x mod pw ks) (k mod pw ks)) as [E2|E2], (Z.eqb_spec (x mod pw (S ks)) (k mod pw (S ks))) as [E3|E3]; auto.
          -- elim E3. apply eq_mod_S. auto.
          -- apply eq_mod_S in E3 as [_ E3]. contradiction.
        * destruct (Z.eqb_spec (x mod pw (S ks)) (k mod pw (S ks))) as [E3|E3]; auto. apply eq_mod_S in E3 as [E3 _]. contradiction.
      + intros _. rewrite slot_rad, Hup, <- slot_rad. apply Hsl; auto.
    - intros _ Hp Hroom. assert (Hz : ks <> 0%nat).
      { destruct Hex as [b0 Hb0]. destruct (Hk b0) as [Hw0 _]. apply (wf_plain_nz ks (kids b0)); auto. }
      destruct (P4 Hz (Hp b) (room_sub _ _ _ Hw Hz Hroom)) as [Q1 Q2]. split.
      + intros x. unfold upd. destruct (x =? b); auto.
      + intros v. cbn [write]. intros x. unfold upd at 1. destruct (Z.eqb_spec x b) as [E|E].
        * unfold upd. rewrite Z.eqb_refl. apply Q2.
        * unfold upd. destruct (Z.eqb_spec x b); [contradiction|]. apply Hp.
    - discriminate.
  Qed.

  (** *** Splitting a full node *)
  Lemma jcnt_1 ks : (0 < ks <= 8)%nat -> jcnt 1 ks = 1.
  Proof. intros H. unfold jcnt, jsize. cbn. do 9 (destruct ks as [|ks]; [reflexivity || lia|]). lia. Qed.

  Lemma jcnt_step ty ks : (0 < ks <= 8)%nat -> (1 <= ty < JUDY_max)%nat -> jcnt ty ks + 1 <= jcnt (S ty) ks.
  Proof.
    unfold JUDY_max. intros H1 H2. do 6 (destruct ty as [|ty]; [lia || (do 9 (destruct ks as [|ks]; [lia || (vm_compute; discriminate)|]); lia)|]). lia.
  Qed.

  Lemma jcnt_down ks : (1 < ks <= 8)%nat -> jcnt JUDY_max ks <= jcnt JUDY_max (ks - 1).
  Proof. intros H. do 9 (destruct ks as [|ks]; [lia || (vm_compute; discriminate)|]). lia. Qed.

  Lemma fit_ok ks c : forall fuel ty, (1 <= ty <= JUDY_max)%nat -> (JUDY_max <= ty + fuel)%nat -> c <= jcnt JUDY_max ks ->
    (1 <= fit fuel ty c ks <= JUDY_max)%nat /\ c <= jcnt (fit fuel ty c ks) ks.
  Proof.
    induction fuel as [|f IH]; intros ty Hty Hf Hc.
    - cbn [fit]. assert (ty = JUDY_max) by lia. subst. auto.
    - cbn [fit]. destruct (Z.ltb_spec (jcnt ty ks) c) as [Hlt|Hge]; cbn [andb]; auto.
      destruct (Nat.ltb_spec ty JUDY_max) as [H|H]; [apply IH; auto; lia|]. exfalso. assert (ty = JUDY_max) by lia. subst. lia.
  Qed.

  Lemma filter_live f (L : list (Z * V)) : filter (fun x => f (fst x)) (live L) = live (filter (fun x => f (fst x)) L).
  Proof. unfold live. induction L as [|[a w] L IH]; [reflexivity|]. cbn [map filter fst]. destruct (f a); cbn [map]; now rewrite IH. Qed.

  Lemma asc_filter f (L : list (Z * V)) : asc L -> asc (filter f L).
  Proof.
    unfold asc. induction L as [|a L IH]; [auto|]. intros [H1 H2]. cbn [filter]. destruct (f a); auto. split; auto.
    intros y Hy. apply H1. apply in_map_iff in Hy as (z & <- & Hz). apply in_map. apply filter_In in Hz. tauto.
  Qed.

  Lemma filter_length_le {A} (f : A -> bool) l : (length (filter f l) <= length l)%nat.
  Proof. induction l as [|a l IH]; [auto|]. cbn [filter]. destruct (f a); cbn [length]; lia. Qed.

  Lemma asc_mod ks b (G : list (Z * V)) : (forall x, In x G -> fst x / pw ks = b) -> asc G -> asc (map (fun x => (fst x mod pw ks, snd x)) G).
  Proof.
    unfold asc. induction G as [|a G IH]; [auto|]. intros Hb [H1 H2]. cbn [map]. split; [|apply IH; auto; intros; apply Hb; simpl; auto].
    intros y Hy. rewrite map_map in Hy. apply in_map_iff in Hy as (z & <- & Hz). cbn [fst].
    specialize (H1 (fst z) (in_map fst _ _ Hz)). pose proof (Hb a ltac:(simpl; auto)). pose proof (Hb z ltac:(simpl; auto)).
    pose proof (Z.div_mod (fst a) (pw ks)). pose proof (Z.div_mod (fst z) (pw ks)). pose proof (pw_pos ks). nia.
  Qed.

  Lemma group_ok ks b (L : list (Z * V)) : (ks <= 7)%nat -> asc L -> (forall x, In x L -> 0 <= fst x < pw (S ks)) ->
    Z.of_nat (length L) <= jcnt JUDY_max (S ks) ->
    let G := filter (fun x => fst x / pw ks =? b) L in let n := group_node ks (live G) in
    wf ks n /\ (G <> [] -> n <> JNil) /\ (G = [] -> n = JNil) /\ (ks <> 0%nat -> plain n) /\
    forall x y, kbyte (S ks) x = b -> (lk n ks x = Some y <-> In (x mod pw (S ks), y) L).
  Proof.
    intros Hks Ha Hr Hc G n. pose proof (pw_pos ks) as Hpw.
    assert (HG : forall a w, In (a, w) G <-> In (a, w) L /\ a / pw ks = b).
    { intros a w. unfold G. rewrite filter_In. cbn [fst]. now rewrite Z.eqb_eq. }
    assert (HGa : asc G) by (apply asc_filter, Ha).
    assert (Hin : forall x y, kbyte (S ks) x = b -> (In (x mod pw (S ks), y) L <-> In (x mod pw (S ks), y) G)).
    { intros x y Hx. rewrite HG. split; [|tauto]. intros H. split; auto. specialize (Hr _ H). cbn [fst] in Hr.
      rewrite <- Hx, <- kbyte_mod, kbyte_S. symmetry. apply Z.mod_small. split; [apply Z.div_pos; lia|]. rewrite pw_S in Hr |- *.
      apply Z.div_lt_upper_bound; lia. }
    subst n. destruct G as [|[a w] G'] eqn:EG.
    - cbn [live map group_node]. split; [exact I|]. split; [congruence|]. split; auto. split; [intros; exact I|]. intros x y Hx. rewrite Hin by auto. cbn. split; [discriminate|tauto].
    - destruct ks as [|ks].
      + cbn [live map group_node snd]. split; [reflexivity|]. split; [discriminate|]. split; [discriminate|]. split; [congruence|].
        intros x y Hx. rewrite Hin by auto. cbn [lk].
        assert (Hone : forall u w', In (u, w') ((a, w) :: G') -> u = b). { intros u w' H. apply HG in H as [_ H]. rewrite pw_0, Z.div_1_r in H. exact H. }
        assert (Exb : x mod pw 1 = b). { rewrite (mod_split 0), Hx, pw_0, Z.mod_1_r. lia. }
        rewrite Exb. assert (Ea : a = b) by (apply (Hone a w); simpl; auto). subst a. split; [intros E; injection E as ->; simpl; auto|].
        intros [E|E]; [congruence|]. exfalso. destruct HGa as [HGa _]. specialize (HGa b (in_map fst _ _ E)). cbn [fst] in HGa. lia.
      + assert (HcG : Z.of_nat (length ((a, w) :: G')) <= jcnt JUDY_max (S ks)).
        { pose proof (filter_length_le (fun x : Z * V => fst x / pw (S ks) =? b) L) as Hl. fold G in Hl. rewrite EG in Hl.
          pose proof (jcnt_down (S (S ks)) ltac:(lia)) as Hd. cbn [Nat.sub] in Hd. lia. }
        rewrite <- EG in *.
        set (G2 := map (fun x : Z * V => (fst x mod pw (S ks), snd x)) G).
        assert (HG2 : asc G2).
        { apply (asc_mod (S ks) b); auto. intros [u w'] H. apply HG in H. cbn [fst]. tauto. }
        set (ty := fit JUDY_max 1 (Z.of_nat (length G)) (S ks)).
        destruct (fit_ok (S ks) (Z.of_nat (length G)) JUDY_max 1) as [Hty1 Hty2]; [unfold JUDY_max; lia|unfold JUDY_max; lia|exact HcG|]. fold ty in Hty1, Hty2.
        assert (En : group_node (S ks) (live G) = JLin ty (lin (Z.to_nat (jcnt ty (S ks) - Z.of_nat (length G))) G2)).
        { assert (Elen : length (live G) = length G) by (unfold live; apply map_length).
          assert (Emap : map (fun x : Z * option V => (fst x mod pw (S ks), snd x)) (live G) = live G2) by (unfold live, G2; rewrite !map_map; reflexivity).
          unfold group_node. rewrite Elen. fold ty. rewrite Emap. unfold lin, empties. rewrite EG at 1. reflexivity. }
        rewrite En. split; [|split; [discriminate|split; [congruence|split; [intros; exact I|]]]].
        * split; [lia|]. split; auto. eexists _, G2. split; [reflexivity|]. split; [unfold G2; rewrite EG; discriminate|]. split; auto. split.
          -- intros x Hx. apply in_map_iff in Hx as (z & <- & Hz). cbn [fst]. apply mod_pw_range.
          -- unfold G2. rewrite map_length. lia.
        * intros x y Hx. cbn [lk]. rewrite slots_get_lin by auto. rewrite Hin by auto. unfold G2. rewrite in_map_iff. split.
          -- intros ([u w'] & E & Hu). cbn [fst snd] in E. injection E as E ->. replace (x mod pw (S (S ks))) with u; auto.
             apply HG in Hu as [Hu1 Hu2]. rewrite (mod_split (S ks) x), Hx, <- E, <- Hu2. pose proof (Z.div_mod u (pw (S ks))). lia.
          -- intros H. exists (x mod pw (S (S ks)), y). split; auto. cbn [fst snd]. now rewrite mod_pw_mod.
  Qed.

  Lemma split_ok ks ty (L : list (Z * V)) : (ks <= 7)%nat -> L <> [] -> asc L -> (forall x, In x L -> 0 <= fst x < pw (S ks)) ->
    Z.of_nat (length L) = jcnt JUDY_max (S ks) ->
    let n := JRad (split (S ks) (lin 0 L)) in
    wf (S ks) n /\ (forall x, lk n (S ks) x = lk (JLin ty (lin 0 L)) (S ks) x) /\ (ks <> 0%nat -> plain n).
  Proof.
    intros Hks Hne Ha Hr Hc. cbn zeta.
    assert (Ek : forall b, split (S ks) (lin 0 L) b = group_node ks (live (filter (fun x => fst x / pw ks =? b) L))).
    { intros b. unfold split. cbn [Nat.sub]. rewrite Nat.sub_0_r. change (lin 0 L) with (live L). now rewrite (filter_live (fun a => a / pw ks =? b)). }
    pose proof (fun b => group_ok ks b L Hks Ha Hr ltac:(lia)) as Hg. cbn zeta in Hg.
    split; [|split].
    - exists ks. split; auto. split; [lia|]. split.
      + destruct L as [|[a w] L]; [congruence|]. exists (a / pw ks). rewrite Ek. apply Hg. cbn [filter fst]. rewrite Z.eqb_refl. discriminate.
      + intros b. rewrite Ek. split; [apply Hg|]. intros Hb. apply Hg. destruct (filter _ L) as [|[a w] G] eqn:EG; auto. exfalso. apply Hb.
        assert (Hin : In (a, w) (filter (fun x => fst x / pw ks =? b) L)) by (rewrite EG; simpl; auto). apply filter_In in Hin as [H1 H2].
        cbn [fst] in H2. apply Z.eqb_eq in H2. specialize (Hr _ H1). cbn [fst] in Hr. rewrite pw_S in Hr. pose proof (pw_pos ks). subst b.
        split; [apply Z.div_pos; lia|apply Z.div_lt_upper_bound; lia].
    - intros x. rewrite lk_rad, Ek. apply opt_ext. intros y. destruct (Hg (kbyte (S ks) x)) as (_ & _ & _ & _ & H). rewrite (H x y eq_refl).
      cbn [lk]. now rewrite slots_get_lin.
    - intros Hz b. rewrite Ek. apply Hg, Hz.
  Qed.

  Lemma put_ext ks n m k n' p : (forall x, lk n ks x = lk m ks x) -> (ks <> 0%nat -> plain n -> room n ks k -> plain m) -> put ks m k n' p -> put ks n k n' p.
  Proof.
    intros He Hp (P1 & P2 & P3 & P4 & P5). split; [|split; [|split; [|split; [|exact P5]]]].
    - rewrite He. exact P1.
    - rewrite He. intros H. destruct (P2 H) as (Q1 & Q2 & Q3). split; auto. split; auto. intros x. rewrite He. auto.
    - intros v. destruct (P3 v) as (Q1 & Q2 & Q3 & Q4). cbn zeta. split; auto. split; auto. split; auto. intros x. rewrite He. auto.
    - intros Hz Hn Hroom. apply P4; auto. intros w l Hnd Hl. apply (Hroom w l Hnd). intros x Hx. rewrite He. auto.
  Qed.

  Lemma cell_ok ks : forall (n : jn) k, (ks <= 8)%nat -> wf ks n -> let '(n', p) := cell ks n k in put ks n k n' p.
  Proof.
    induction ks as [|ks IH]; intros n k Hks Hw.
    - cbn [cell]. destruct n as [|u| |]; cbn [wf] in Hw; [| |destruct Hw; lia|destruct Hw as (? & ? & _); discriminate].
      + split; [auto|]. split; [intros H; elim H; reflexivity|]. split; [|split; [congruence|auto]].
        intros v. cbn [write]. split; [reflexivity|]. split; [discriminate|]. split; [|congruence]. intros x. rewrite pw_0, !Z.mod_1_r. reflexivity.
      + split; [discriminate|]. split; [intros _; split; [exact Hw|split; [auto|congruence]]|]. split; [|split; [congruence|auto]].
        intros v. cbn [write]. split; [reflexivity|]. split; [discriminate|]. split; [|congruence]. intros x. rewrite pw_0, !Z.mod_1_r. reflexivity.
    - assert (Hrad : forall kids, wf (S ks) (JRad kids) ->
        let '(n', p) := (let '(n', p) := cell ks (kids (kbyte (S ks) k)) k in (JRad (upd kids (kbyte (S ks) k) n'), kbyte (S ks) k :: p)) in
        put (S ks) (JRad kids) k n' p).
      { intros kids Hwk. pose proof Hwk as (ks' & E & _ & _ & Hkk). injection E as <-. specialize (IH (kids (kbyte (S ks) k)) k ltac:(lia) (proj1 (Hkk _))).
        destruct (cell ks (kids (kbyte (S ks) k)) k) as [n' p]. apply put_rad; auto. }
      cbn [cell]. set (v := k mod pw (S ks)) in *. pose proof (mod_pw_range (S ks) k) as Hv. fold v in Hv.
      destruct n as [|u|ty sl|kids]; [|cbn [wf] in Hw; discriminate| |apply Hrad, Hw].
      + apply (put_lin 1 (S ks) 0 [] [] k JNil); try (intros x []); try exact I; try lia.
        * unfold JUDY_max. lia.
        * rewrite jcnt_1 by lia. reflexivity.
        * intros x y. cbn. split; [discriminate|tauto].
      + pose proof Hw as (_ & Hty & e & L & -> & Hne & Ha & Hr & Hc).
        assert (Hlk : forall x y, lk (JLin ty (lin e L)) (S ks) x = Some y <-> In (x mod pw (S ks), y) L).
        { intros x y. cbn [lk]. apply slots_get_lin, Ha. }
        destruct (asc_pick L v Ha) as (A & B & -> & HB & HA).
        assert (HA' : forall x, In x A -> fst x <= v).
        { intros x Hx. destruct HA as [(A' & w & -> & H)|[(A' & a & w & -> & H1 & H)| ->]]; [| |destruct Hx];
            (apply in_app_or in Hx as [Hx|[<-|[]]]; [specialize (H x Hx)|]; cbn [fst]; lia). }
        rewrite (scan_lin v e A B) by (auto; lia). set (s := Z.of_nat e + Z.of_nat (length A) - 1).
        assert (Es0 : s = Z.of_nat e + Z.of_nat (length A) - 1) by reflexivity. clearbody s.
        pose proof Ha as Ha0. apply asc_app in Ha0 as (HaA & HaB & _).
        destruct HA as [(A' & w & EA & H)|HA].
        * (* the key is there *)
          assert (Es : s = Z.of_nat (e + length A')) by (rewrite Es0, EA, app_length; cbn [length]; lia). rewrite Es. clear Es Es0 s. subst A.
          rewrite <- app_assoc in *. cbn [app] in *.
          destruct (lin_found ty (S ks) e A' v w B ltac:(lia) Ha Hr) as (F1 & F2 & F3 & F4).
          rewrite F3, Z.eqb_refl. destruct (Z.leb_spec 0 (Z.of_nat (e + length A'))); [|lia]. cbn [andb].
          assert (Hmm : k mod pw (S ks) = v mod pw (S ks)) by (subst v; symmetry; apply Z.mod_mod; pose proof (pw_pos (S ks)); lia).
          assert (Hlk' : lk (JLin ty (lin e (A' ++ (v, w) :: B))) (S ks) k = Some w) by (rewrite (lk_mod _ _ _ v Hw Hmm); exact F2).
          assert (Hsl : slot (JLin ty (lin e (A' ++ (v, w) :: B))) (S ks) k = ([Z.of_nat (e + length A')], Some [Z.of_nat (e + length A')])) by (rewrite (slot_mod _ _ _ v Hw Hmm); exact F1).
          split; [congruence|]. split; [intros _; auto|]. split; [|split; [|lia]].
          -- intros u. destruct (write_ok _ (S ks) v [Z.of_nat (e + length A')] u Hw Hv ltac:(congruence) F1) as (W1 & W2 & W3 & W4 & W5).
             cbn zeta. split; auto. split; auto. split; [intros x; rewrite W3, <- Hmm; reflexivity|]. intros _. rewrite W4. exact Hsl.
          -- intros _ _ _. split; [exact I|]. intros u. cbn [write]. exact I.
        * assert (HAlt : forall x, In x A -> fst x < v).
          { intros x Hx. destruct HA as [(A' & a & w & -> & H1 & H)| ->]; [|destruct Hx].
            apply in_app_or in Hx as [Hx|[<-|[]]]; [specialize (H x Hx)|]; cbn [fst]; lia. }
          (* the slot found has another key, unless it is the empty one of key 0 *)
          destruct ((0 <=? s) && (slot_key (lin e (A ++ B)) s =? v)) eqn:Etest.
          -- apply andb_true_iff in Etest as [Hs Hkv]. apply Z.leb_le in Hs. apply Z.eqb_eq in Hkv.
             assert (EA : A = []).
             { destruct HA as [(A' & a & w & -> & H1 & H)| ->]; auto. exfalso. rewrite app_length in Es0. cbn [length] in Es0.
               destruct (slot_at _ _ _ _ s (lin_mid e A' a w B)) as [K1 _]; [rewrite lin_pre; lia|]. rewrite K1 in Hkv. cbn [fst] in Hkv. lia. }
             subst A. cbn [app length] in *. destruct e as [|e]; [lia|].
             assert (El : lin (S e) B = lin e [] ++ (0, None) :: live B).
             { unfold lin. change (repeat (0, @None V) (S e)) with ((0, @None V) :: repeat (0, None) e). rewrite repeat_cons, <- app_assoc. cbn [live map]. now rewrite app_nil_r. }
             assert (Es : s = Z.of_nat (e + length (@nil (Z * V)))) by (cbn [length]; lia).
             destruct (slot_at _ _ _ _ s El) as [K1 _]; [rewrite lin_length; exact Es|]. rewrite K1 in Hkv. cbn [fst] in Hkv. rewrite Hkv in El. clear K1. rewrite El at 2.
             rewrite Es. subst v. apply put_lin; auto; try lia.
          -- destruct e as [|e].
             ++ (* no empty slot *)
                assert (Ecell : exists u, slot_cell (lin 0 (A ++ B)) 0 = Some u).
                { destruct (A ++ B) as [|[a w] L']; [congruence|]. exists w. reflexivity. }
                destruct Ecell as [u ->]. cbn [Nat.add] in Hc. rewrite app_length in Hc.
                replace (s + 1) with (Z.of_nat (length A)) by lia. rewrite Nat2Z.id.
                destruct (Nat.ltb_spec ty JUDY_max) as [Hlt|Hge].
                ** pose proof (jcnt_step ty (S ks) ltac:(lia) ltac:(lia)) as Hst.
                   replace (promote ty (S ks) (lin 0 (A ++ B)) (length A) v) with (lin (Z.to_nat (jcnt (S ty) (S ks) - jcnt ty (S ks) - 1)) A ++ (v, None) :: live B).
                   2:{ unfold promote, lin, empties. cbn [repeat app]. rewrite live_app. replace (length A) with (length (live A)) by (unfold live; apply map_length).
                       rewrite firstn_app, firstn_all, Nat.sub_diag, skipn_app, skipn_all, Nat.sub_diag. cbn [firstn skipn app]. rewrite app_nil_r, <- app_assoc. reflexivity. }
                   set (e' := Z.to_nat (jcnt (S ty) (S ks) - jcnt ty (S ks) - 1)).
                   replace (jcnt (S ty) (S ks) - jcnt ty (S ks) - 1 + Z.of_nat (length A)) with (Z.of_nat (e' + length A)) by (subst e'; lia).
                   apply put_lin; auto; try lia.
                ** assert (ty = JUDY_max) by lia. subst ty.
                   destruct (split_ok ks JUDY_max (A ++ B) ltac:(lia) Hne Ha Hr) as (S1 & S2 & S3); [rewrite app_length; lia|].
                   specialize (Hrad (split (S ks) (lin 0 (A ++ B))) S1).
                   destruct (let '(n', p) := cell ks (split (S ks) (lin 0 (A ++ B)) (kbyte (S ks) k)) k in _) as [n' p].
                   eapply put_ext; [| |exact Hrad]; [intros x; symmetry; apply S2|].
                   intros _ _ Hroom. apply S3. intros ->.
                   assert (Hnd : NoDup (map fst (A ++ (v, u) :: B))).
                   { assert (Hasc : asc (A ++ (v, u) :: B)).
                     { apply asc_app. split; auto. split; [split; [intros y Hy; apply in_map_iff in Hy as (z & <- & Hz); apply HB, Hz|exact HaB]|].
                       intros x y Hx [<-|Hy]; [apply HAlt, Hx|]. specialize (HAlt x Hx). specialize (HB y Hy). lia. }
                     revert Hasc. unfold asc. generalize (map fst (A ++ (v, u) :: B)). clear. induction l as [|a l IH]; intros H; constructor.
                     - intros Hi. destruct H as [H _]. specialize (H a Hi). lia.
                     - apply IH, H. }
                   specialize (Hroom 0 _ Hnd). rewrite map_length, app_length in Hroom. cbn [length] in Hroom.
                   assert (Hle : (length A + S (length B) <= 56)%nat).
                   { apply Hroom. intros x Hx. apply in_map_iff in Hx as (z & <- & Hz). change (pw 1) with 256 in *. apply in_app_or in Hz as [Hz|[<-|Hz]].
                     - specialize (Hr z ltac:(apply in_or_app; auto)). split; auto. split; [|apply Z.div_small; lia]. right. destruct z as [a w].
                       intros E. assert (E2 : lk (JLin JUDY_max (lin 0 (A ++ B))) 1 a = Some w); [|cbn [fst] in E; congruence].
                       apply Hlk. cbn [fst] in Hr. rewrite Z.mod_small by lia. apply in_or_app. auto.
                     - cbn [fst]. split; [exact Hv|]. split; [left; reflexivity|apply Z.div_small; lia].
                     - specialize (Hr z ltac:(apply in_or_app; auto)). split; auto. split; [|apply Z.div_small; lia]. right. destruct z as [a w].
                       intros E. assert (E2 : lk (JLin JUDY_max (lin 0 (A ++ B))) 1 a = Some w); [|cbn [fst] in E; congruence].
                       apply Hlk. cbn [fst] in Hr. rewrite Z.mod_small by lia. apply in_or_app. auto. }
                   change (jcnt JUDY_max 1) with 56 in Hc. lia.
             ++ assert (Ecell : slot_cell (lin (S e) (A ++ B)) 0 = None) by reflexivity. rewrite Ecell.
                assert (Es : s = Z.of_nat (e + length A)) by lia. rewrite Es, Nat2Z.id. clear Es Etest Es0 s.
                replace (firstn (e + length A) (tl (lin (S e) (A ++ B))) ++ (v, None) :: skipn (e + length A + 1) (lin (S e) (A ++ B))) with (lin e A ++ (v, None) :: live B).
                2:{ change (tl (lin (S e) (A ++ B))) with (lin e (A ++ B)). change (lin (S e) (A ++ B)) with ((0, @None V) :: lin e (A ++ B)).
                    rewrite Nat.add_1_r. cbn [skipn]. assert (El : lin e (A ++ B) = lin e A ++ live B) by (unfold lin; rewrite live_app, app_assoc; reflexivity).
                    rewrite El. replace (e + length A)%nat with (length (lin e A)) by apply lin_length.
                    rewrite firstn_app, firstn_all, Nat.sub_diag, skipn_app, skipn_all, Nat.sub_diag. cbn [firstn skipn app]. now rewrite app_nil_r. }
                apply put_lin; auto; try lia. rewrite <- Hc, app_length. lia.
  Qed.

  (** ** Deleting *)
  Lemma del_ok (n : jn) : forall ks k p, wf ks n -> 0 <= k < pw ks -> lk n ks k <> None ->
    (slot n ks k = (p, Some p) \/ (ks = 0%nat /\ p = [])) ->
    wf ks (fst (del n p)) /\
    (forall x, lk (fst (del n p)) ks x = if x mod pw ks =? k mod pw ks then None else lk n ks x) /\
    (plain n -> plain (fst (del n p))).
  Proof.
    induction n as [|v0|ty sl|kids IH]; intros ks k p Hw Hk Hd Es.
    - elim Hd. reflexivity.
    - destruct Es as [Es|[-> ->]]; [discriminate|]. cbn [del fst]. split; [exact I|]. split; [|intros []]. intros x. rewrite pw_0, !Z.mod_1_r. reflexivity.
    - pose proof Hw as (Hks & Hty & e & L & -> & Hne & Ha & Hr & Hc). destruct Es as [Es|[? _]]; [|lia].
      destruct (lin_pos ty ks e L k p ltac:(lia) Ha Hr Hk Hd Es) as (A & w & B & -> & ->).
      cbn [del]. rewrite Nat2Z.id.
      assert (El : (0, @None V) :: firstn (e + length A) (lin e (A ++ (k, w) :: B)) ++ skipn (e + length A + 1) (lin e (A ++ (k, w) :: B)) = lin (S e) (A ++ B)).
      { assert (E1 : lin e (A ++ (k, w) :: B) = lin e A ++ (k, Some w) :: live B) by (unfold lin; rewrite live_app, app_assoc; reflexivity).
        rewrite E1. replace (e + length A)%nat with (length (lin e A)) by apply lin_length. rewrite Nat.add_1_r.
        rewrite firstn_app, firstn_all, Nat.sub_diag, skipn_app. replace (S (length (lin e A)) - length (lin e A))%nat with 1%nat by lia.
        rewrite (skipn_all2 (lin e A)) by lia. cbn [firstn skipn app]. rewrite app_nil_r. unfold lin. rewrite live_app, app_assoc. reflexivity. }
      rewrite El. assert (Hab : asc (A ++ B)).
      { apply asc_app in Ha as (H1 & [H2 H3] & H4). apply asc_app. split; auto. split; auto. intros x y Hx Hy. apply H4; simpl; auto. }
      assert (Hlk : forall x, slots_get (lin (S e) (A ++ B)) (x mod pw ks) = if x mod pw ks =? k mod pw ks then None else lk (JLin ty (lin e (A ++ (k, w) :: B))) ks x).
      { intros x. rewrite (Z.mod_small k) by lia. destruct (Z.eqb_spec (x mod pw ks) k) as [E|E].
        - apply slots_get_none; auto. rewrite E. intros y Hy. apply asc_app in Ha as (_ & [H2 _] & H3).
          apply in_app_or in Hy as [Hy|Hy]; [specialize (H3 y (k, w) Hy ltac:(simpl; auto)); cbn [fst] in H3; lia|].
          specialize (H2 _ (in_map fst _ _ Hy)). cbn [fst] in H2. lia.
        - apply opt_ext. intros y. cbn [lk]. rewrite !slots_get_lin by auto.
          split; intros H; apply in_app_or in H as [H|H]; apply in_or_app; simpl; auto. destruct H as [H|H]; [congruence|auto]. }
      rewrite lin_length. destruct (A ++ B) as [|x0 L0] eqn:EAB.
      + replace (slot_cell (lin (S e) []) (Z.of_nat (S e + length (@nil (Z * V))) - 1)) with (@None V) by (symmetry; apply slot_cell_empty; cbn [length]; lia).
        cbn [fst]. split; [exact I|]. split; [|auto]. intros x. rewrite <- Hlk. cbn [lk]. destruct (slots_get _ _) eqn:E; auto. apply slots_get_lin in E; [destruct E|exact I].
      + rewrite <- EAB in *. assert (HneAB : A ++ B <> []) by (rewrite EAB; discriminate). clear EAB. destruct (exists_last HneAB) as (C & [a u] & EC). 
        destruct (slot_at (lin (S e) (A ++ B)) _ _ _ (Z.of_nat (S e + length (A ++ B)) - 1) ltac:(rewrite EC; apply lin_split)) as [_ K].
        { rewrite lin_pre, EC, app_length. cbn [length]. lia. }
        rewrite K. cbn [snd fst]. split; [|split; [exact Hlk|auto]]. split; auto. split; auto. exists (S e), (A ++ B). split; auto. split; auto. split; auto. split.
        * intros x Hx. apply Hr. apply in_app_or in Hx as [Hx|Hx]; apply in_or_app; simpl; auto.
        * rewrite <- Hc, !app_length. cbn [length]. lia.
    - pose proof Hw as (ks' & -> & Hks & Hex & Hkk). destruct Es as [Es|[? _]]; [|discriminate]. rewrite slot_rad in Es. rewrite lk_rad in Hd. set (b := kbyte (S ks') k) in *.
      destruct (Hkk b) as [Hwb Hob]. assert (Hb : 0 <= b < 256) by apply kbyte_range.
      assert (Hgo : exists q, p = b :: q /\ (slot (kids b) ks' (k mod pw ks') = (q, Some q) \/ (ks' = 0%nat /\ q = []))).
      { rewrite <- (slot_mod _ ks' k) by (auto; symmetry; apply Z.mod_mod; pose proof (pw_pos ks'); lia).
        destruct (kids b) as [|u|ty sl|kb] eqn:Ek; [discriminate| | |].
        - injection Es as <-. exists []. split; auto.
        - destruct (slot (JLin ty sl) ks' k) as [q r] eqn:Es0. injection Es as <- Es. exists q. split; auto. left. destruct r; inversion Es; auto.
        - destruct (slot (JRad kb) ks' k) as [q r] eqn:Es0. injection Es as <- Es. exists q. split; auto. left. destruct r; inversion Es; auto. }
      destruct Hgo as (q & -> & Hq). rewrite (lk_mod _ ks' _ (k mod pw ks')) in Hd by (auto; symmetry; apply Z.mod_mod; pose proof (pw_pos ks'); lia).
      destruct (IH b ks' (k mod pw ks') q Hwb (mod_pw_range ks' k) Hd Hq) as (I1 & I2 & I3). cbn [del].
      destruct (del (kids b) q) as [n' q']. cbn [fst] in I1, I2, I3.
      assert (Hlk : forall x, lk (upd kids b n' (kbyte (S ks') x)) ks' x = if x mod pw (S ks') =? k mod pw (S ks') then None else lk (kids (kbyte (S ks') x)) ks' x).
      { intros x. unfold upd. destruct (Z.eqb_spec (kbyte (S ks') x) b) as [E|E].
        - rewrite I2, E, Z.mod_mod by (pose proof (pw_pos ks'); lia).
          destruct (Z.eqb_spec (x mod pw ks') (k mod pw ks')) as [E2|E2], (Z.eqb_spec (x mod pw (S ks')) (k mod pw (S ks'))) as [E3|E3]; auto.
          + elim E3. apply eq_mod_S. auto.
          + apply eq_mod_S in E3 as [_ E3]. contradiction.
        - destruct (Z.eqb_spec (x mod pw (S ks')) (k mod pw (S ks'))) as [E3|E3]; auto. apply eq_mod_S in E3 as [E3 _]. contradiction. }
      assert (Hwu : (exists x, upd kids b n' x <> JNil) -> wf (S ks') (JRad (upd kids b n'))).
      { intros H. exists ks'. split; auto. split; auto. split; auto. intros x. unfold upd. destruct (Z.eqb_spec x b) as [->|]; auto. split; auto. intros H1. contradiction. }
      assert (Hpl : plain (JRad kids) -> plain (JRad (upd kids b n'))).
      { intros Hp x. unfold upd. destruct (x =? b); auto. }
      destruct (is_nil n') eqn:En.
      + assert (n' = JNil) by (destruct n'; auto; discriminate). subst n'. destruct (existsb (occupied (upd kids b JNil)) bytes) eqn:Eo.
        * cbn [fst]. apply existsb_exists in Eo as (x & _ & Ho). apply occ_iff in Ho. split; [apply Hwu; eauto|]. split; [|exact Hpl]. intros x0. rewrite !lk_rad. apply Hlk.
        * cbn [fst]. split; [exact I|]. split; [|auto]. intros x. rewrite lk_rad, <- Hlk. cbn [lk].
          assert (Hno : upd kids b JNil (kbyte (S ks') x) = JNil); [|now rewrite Hno].
          apply occ_false. destruct (occupied (upd kids b JNil) (kbyte (S ks') x)) eqn:E; auto. rewrite <- Eo. symmetry. apply existsb_exists. exists (kbyte (S ks') x). split; auto. apply in_bytes, kbyte_range.
      + cbn [fst]. split; [apply Hwu; exists b; unfold upd; rewrite Z.eqb_refl; intros ->; discriminate|]. split; [|exact Hpl]. intros x. rewrite !lk_rad. apply Hlk.
  Qed.

  Lemma slot_pkey (n : jn) : forall ks k p, wf ks n -> slot n ks k = (p, Some p) -> exists l, pkey ks n p = (k mod pw ks, l, true).
  Proof.
    induction n as [|v0|ty sl|kids IH]; intros ks k p Hw Es; try discriminate.
    - destruct Hw as (Hks & _). cbn [slot] in Es. injection Es as <- Es. destruct (_ && _) eqn:E; [|discriminate]. apply andb_true_iff in E as [_ E]. apply Z.eqb_eq in E.
      destruct ks; [lia|]. cbn [pkey]. rewrite E. eauto.
    - pose proof Hw as (ks' & -> & _ & _ & Hkk). rewrite slot_rad in Es. set (b := kbyte (S ks') k) in *. destruct (Hkk b) as [Hwb _].
      rewrite (mod_split ks' k). fold b. destruct (kids b) as [|u|ty sl|kb] eqn:Ek; [discriminate| | |].
      + injection Es as <-. cbn [wf] in Hwb. subst ks'. cbn [pkey]. rewrite pw_0, Z.mod_1_r. eauto.
      + rewrite <- Ek in *. destruct (slot (kids b) ks' k) as [q r] eqn:Es0. injection Es as <- Es. assert (r = Some q) as -> by (destruct r; inversion Es; auto).
        destruct (IH b ks' k q Hwb Es0) as [l Hl]. cbn [pkey]. rewrite Hl. eauto.
      + rewrite <- Ek in *. destruct (slot (kids b) ks' k) as [q r] eqn:Es0. injection Es as <- Es. assert (r = Some q) as -> by (destruct r; inversion Es; auto).
        destruct (IH b ks' k q Hwb Es0) as [l Hl]. cbn [pkey]. rewrite Hl. eauto.
  Qed.
End JudyUpdate.

(** ** The contract *)
Section Contract.
  Context {V : Type}.
  Notation judy := (@judy V).

  Definition jrel (j : judy) (m : fmap V) (c : cursor) : Prop :=
    wf 8 (jroot j) /\ (forall k, m k = if (0 <=? k) && (k <? M64) then lk (jroot j) 8 k else None) /\
    match c with
    | CTop => jstack j = []
    | CPos k => addr_ok k /\ slot (jroot j) 8 k = (jstack j, Some (jstack j))
    | CGap k => addr_ok k /\ fst (slot (jroot j) 8 k) = jstack j
    | CLost => True
    end.
  Definition jloc (j : judy) (l : path) (k : Z) : Prop :=
    addr_ok k /\ lk (jroot j) 8 k <> None /\ slot (jroot j) 8 k = (l, Some l).
  Definition jplain (j : judy) : Prop := plain (jroot j).

  Lemma pw_8 : pw 8 = M64.
  Proof. reflexivity. Qed.

  Lemma range_true k : addr_ok k -> (0 <=? k) && (k <? M64) = true.
  Proof. intros [H1 H2]. apply andb_true_iff. split; [apply Z.leb_le|apply Z.ltb_lt]; auto. Qed.

  Lemma rel_at j m c k : jrel j m c -> addr_ok k -> m k = lk (jroot j) 8 k.
  Proof. intros (_ & H & _) Hk. now rewrite H, range_true. Qed.

  Lemma rel_dom j m c k : jrel j m c -> dom m k -> addr_ok k /\ dom_in 8 (jroot j) k.
  Proof.
    intros (_ & H & _) Hd. unfold dom in Hd. rewrite H in Hd. destruct (Z.leb_spec 0 k); cbn [andb] in Hd; [|congruence].
    destruct (Z.ltb_spec k M64); [|congruence]. split; [split; auto|]. split; auto.
  Qed.

  Lemma mod8 k : addr_ok k -> k mod pw 8 = k.
  Proof. intros H. rewrite pw_8. apply Z.mod_small, H. Qed.

  Lemma stands_rel j m c n q k v : jrel j m c -> n = jroot j -> stands 8 n q k v ->
    m k = Some v /\ jrel (mkJ n q) m (CPos k) /\ jloc (mkJ n q) q k /\ forall b, keyof (mkJ n q) b = k.
  Proof.
    intros Hj -> (S1 & S2 & S3 & l & S4). assert (Hk : addr_ok k) by exact S1. split; [rewrite (rel_at j m c k Hj Hk); exact S2|].
    split; [|split].
    - destruct Hj as (J1 & J2 & _). split; [exact J1|]. split; [exact J2|]. split; auto.
    - split; auto. split; [cbn [jroot]; congruence|exact S3].
    - intros b. unfold keyof. cbn [jroot jstack]. destruct q as [|s q].
      + exfalso. destruct Hj as (J1 & _). apply (slot_path (jroot j) 8 k); [intros E; rewrite E in S3; discriminate|apply (wf_nz 8); auto|now rewrite S3].
      + now rewrite S4.
  Qed.

  Lemma jfirst_ok j m c : jrel j m c ->
    let '(j', ol) := jfirst j in
    (jplain j -> jplain j') /\
    match ol with
    | None => jrel j' m CTop /\ forall x, ~ dom m x
    | Some l => exists k v, least_above m None k v /\ jrel j' m (CPos k) /\ jloc j' l k /\ forall b, keyof j' b = k
    end.
  Proof.
    intros Hj. unfold jfirst. pose proof Hj as (J1 & J2 & _).
    assert (Hn : jroot j = JNil \/ jroot j <> JNil) by (destruct (jroot j); [left; reflexivity|right; discriminate..]). destruct Hn as [Hn|Hn].
    - rewrite Hn. cbn [first]. split; [intros _; exact I|]. split.
      + split; [exact I|]. split; [|reflexivity]. intros k. rewrite J2, Hn. reflexivity.
      + intros x Hx. destruct (rel_dom _ _ _ _ Hj Hx) as [_ [_ H]]. rewrite Hn in H. apply H. reflexivity.
    - destruct (first_ok (jroot j) 8 J1 ltac:(lia) Hn) as (q & k & v & F1 & F2 & F3). rewrite F1. split; [auto|].
      destruct (stands_rel j m c _ q k v Hj eq_refl F2) as (R1 & R2 & R3 & R4). exists k, v. split; [|auto]. split; auto. split; [exact I|].
      intros x Hx _. apply F3. apply (rel_dom _ _ _ _ Hj Hx).
  Qed.

  (** From anywhere [judy_slot] can leave the cursor. *)
  Lemma nxt_from j m k : wf 8 (jroot j) -> (forall k, m k = if (0 <=? k) && (k <? M64) then lk (jroot j) 8 k else None) ->
    addr_ok k -> fst (slot (jroot j) 8 k) = jstack j ->
    let '(j', ol) := jnxt j in
    (jplain j -> jplain j') /\
    match ol with
    | None => jrel j' m CTop /\ forall x, dom m x -> ~ k < x
    | Some l => exists k' v, least_above m (Some k) k' v /\ jrel j' m (CPos k') /\ jloc j' l k' /\ forall b, keyof j' b = k'
    end.
  Proof.
    intros J1 J2 Hk Es. assert (Hj : jrel j m (CGap k)) by (split; auto).
    assert (Hn : jroot j = JNil \/ jroot j <> JNil) by (destruct (jroot j); [left; reflexivity|right; discriminate..]). destruct Hn as [Hn|Hn].
    - unfold jnxt. rewrite Hn in Es. cbn [slot fst] in Es. rewrite <- Es. pose proof (jfirst_ok j m _ Hj) as Hf. unfold jfirst in *. rewrite Hn in *. cbn [first] in *.
      destruct Hf as (H1 & H2 & H3). split; auto. split; auto. intros x Hx. elim (H3 x Hx).
    - unfold jnxt. pose proof (slot_path (jroot j) 8 k Hn (wf_nz 8 _ J1 ltac:(lia))) as Hp. rewrite Es in Hp. destruct (jstack j) as [|s q] eqn:Ej; [congruence|].
      destruct (slot (jroot j) 8 k) as [p r] eqn:Es0. cbn [fst] in Es. subst p.
      pose proof (nxt_ok (jroot j) 8 k (s :: q) r J1 ltac:(lia) Hn Hk Es0) as Hx. destruct (nxt (jroot j) (s :: q)) as [q'|].
      + destruct Hx as (k' & v & S1 & S2 & S3). split; auto. destruct (stands_rel j m _ _ q' k' v Hj eq_refl S1) as (R1 & R2 & R3 & R4).
        exists k', v. split; [|auto]. split; auto. split; auto. intros x Hx Hlt. apply S3; auto. apply (rel_dom _ _ _ _ Hj Hx).
      + split; auto. split; [split; auto|]. intros x Hd Hlt. destruct (rel_dom _ _ _ _ Hj Hd) as [_ Hd']. specialize (Hx x Hd'). lia.
  Qed.

  Theorem judy_array_ok : JudySpec (judy_array V) sparse56 jrel jloc jplain.
  Proof.
    constructor; cbn [judy_array j_ty j_loc j_open j_cell j_slot j_strt j_first j_nxt j_prv j_del j_key j_read j_write].
    - (* js_sparse *) intros P Q H Hs w l Hnd Hl. apply (Hs w l Hnd). intros x Hx. destruct (Hl x Hx). auto.
    - (* js_ext *) intros j m m' c E (J1 & J2 & J3). split; auto. split; auto. intros k. rewrite <- E. auto.
    - (* js_dom *) intros j m c k Hj Hd. apply (rel_dom _ _ _ _ Hj Hd).
    - (* js_open *) split; [|exact I]. split; [exact I|]. split; [|reflexivity]. intros k. cbn [jroot lk]. unfold fempty. destruct (_ && _); reflexivity.
    - (* js_key *) intros j m (_ & _ & Hs). unfold keyof. rewrite Hs. reflexivity.
    - (* js_read *) intros j m c l k Hj (Hk & Hd & Hs). rewrite (rel_at j m c k Hj Hk). split; [unfold dom; now rewrite (rel_at j m c k Hj Hk)|].
      destruct Hj as (J1 & _). destruct (slot_dom _ _ _ J1 ltac:(lia) Hd) as (p & E1 & E2). rewrite Hs in E1. injection E1 as <- _. exact E2.
    - (* js_write *) intros j m c l k v Hj (Hk & Hd & Hs). pose proof Hj as (J1 & J2 & J3).
      destruct (write_ok (jroot j) 8 k l v J1 Hk Hd Hs) as (W1 & W2 & W3 & W4 & W5). split; [|split; [|exact W5]].
      + split; [exact W1|]. split.
        * intros x. cbn [jroot]. unfold fset. rewrite J2, W3, (mod8 k Hk). destruct (Z.eqb_spec x k) as [E|E].
          -- rewrite E, range_true, mod8, Z.eqb_refl by auto. reflexivity.
          -- destruct ((0 <=? x) && (x <? M64)) eqn:Er; auto. rewrite mod8 by (apply andb_true_iff in Er as [E1 E2]; split; lia).
             destruct (Z.eqb_spec x k); [contradiction|reflexivity].
        * destruct c; cbn [jroot jstack]; auto; rewrite W4; exact J3.
      + split; auto. cbn [jroot]. rewrite W3, W4, Z.eqb_refl. split; [discriminate|exact Hs].
    - (* js_cell *) intros j m c k Hj Hk. pose proof Hj as (J1 & J2 & J3). unfold jcell. pose proof (cell_ok 8 (jroot j) k ltac:(lia) J1) as Hc.
      destruct (cell 8 (jroot j) k) as [n' p]. destruct Hc as (P1 & P2 & P3 & P4 & _). split.
      + rewrite (rel_at j m c k Hj Hk). cbn [jroot jstack]. destruct (lk (jroot j) 8 k) as [w|] eqn:Ek.
        * destruct (P2 ltac:(discriminate)) as (Q1 & Q2 & Q3). specialize (Q3 ltac:(lia)). split.
          -- split; [exact Q1|]. split; [|split; auto]. intros x. cbn [jroot]. rewrite Q2. apply J2.
          -- split; auto. cbn [jroot]. rewrite Q2, Ek. split; [discriminate|exact Q3].
        * split; [auto|]. intros v. destruct (P3 v) as (Q1 & Q2 & Q3 & Q4). specialize (Q4 ltac:(lia)). split.
          -- split; [exact Q1|]. split; [|split; auto]. intros x. cbn [jroot]. unfold fset. rewrite J2, Q3, (mod8 k Hk). destruct (Z.eqb_spec x k) as [E|E].
             ++ rewrite E, range_true, mod8, Z.eqb_refl by auto. reflexivity.
             ++ destruct ((0 <=? x) && (x <? M64)) eqn:Er; auto. rewrite mod8 by (apply andb_true_iff in Er as [E1 E2]; split; lia).
                destruct (Z.eqb_spec x k); [contradiction|reflexivity].
          -- split; auto. cbn [jroot]. rewrite Q3, Z.eqb_refl. split; [discriminate|exact Q4].
      + intros Hp Hs. apply P4; [lia|exact Hp|]. intros w l Hnd Hl. apply (Hs w l Hnd). intros x Hx. destruct (Hl x Hx) as (H1 & H2 & H3). split; auto.
        rewrite (mod8 k Hk) in H2. destruct H2 as [H2|H2]; auto. right. unfold dom. rewrite (rel_at j m c x Hj); auto.
    - (* js_slot *) intros j m c k Hj Hk. pose proof Hj as (J1 & J2 & J3). unfold jslot. destruct (slot (jroot j) 8 k) as [p r] eqn:Es.
      pose proof (slot_ok (jroot j) 8 k p r J1 Es) as Hr. rewrite (rel_at j m c k Hj Hk). split; [|split; [auto|]].
      + split; auto. split; auto. destruct r as [l|]; cbn [jroot jstack].
        * destruct Hr as [-> _]. auto.
        * split; auto. now rewrite Es.
      + destruct r as [l|]; cbn [jroot].
        * destruct Hr as [-> Hr]. destruct (lk (jroot j) 8 k) eqn:Ek; [|exact Hr]. split; auto. cbn [jroot]. split; congruence.
        * rewrite Hr by lia. exact I.
    - (* js_strt *) intros j m c k Hj Hk. pose proof Hj as (J1 & J2 & J3). unfold jstrt, jslot. destruct (slot (jroot j) 8 k) as [p r] eqn:Es.
      pose proof (slot_ok (jroot j) 8 k p r J1 Es) as Hr. pose proof (rel_at j m c k Hj Hk) as Hm. destruct r as [l|].
      + destruct Hr as [-> Hr]. split; auto. assert (Hj' : jrel (mkJ (jroot j) p) m (CPos k)) by (split; auto).
        destruct (slot_pkey _ _ _ _ J1 Es) as [l0 Hl0]. rewrite (mod8 k Hk) in Hl0.
        assert (Hkey : forall b, keyof (mkJ (jroot j) p) b = k).
        { intros b. unfold keyof. cbn [jroot jstack]. destruct p as [|s p]; [|now rewrite Hl0].
          exfalso. apply (slot_path (jroot j) 8 k); [intros E; rewrite E in Es; discriminate|apply (wf_nz 8); auto|now rewrite Es]. }
        destruct (lk (jroot j) 8 k) as [w|] eqn:Ek.
        * right. exists k, w. split; [|split; [auto|split; [|exact Hkey]]].
          -- split; auto. cbn. split; [lia|]. intros x _ H. lia.
          -- split; auto. cbn [jroot]. split; congruence.
        * left. auto.
      + assert (Hnone : lk (jroot j) 8 k = None) by (apply Hr; lia). rewrite Hnone in Hm.
        pose proof (nxt_from (mkJ (jroot j) p) m k J1 J2 Hk ltac:(cbn [jroot jstack]; now rewrite Es)) as Hn.
        destruct (jnxt (mkJ (jroot j) p)) as [j' ol]. destruct Hn as [Hn1 Hn]. split; auto. destruct ol as [l|].
        * right. destruct Hn as (k' & v & (L1 & L2 & L3) & Hn). exists k', v. split; auto. cbn [gt_opt] in *. split; auto. split; [cbn; lia|].
          intros x Hx Hlt. cbn [gt_opt] in Hlt. apply L3; auto. assert (x <> k) by (intros ->; contradiction). lia.
        * destruct Hn as [H1 H2]. split; auto. intros x Hx. specialize (H2 x Hx). assert (x <> k) by (intros ->; contradiction). lia.
    - (* js_first *) apply jfirst_ok.
    - (* js_nxt *) intros j m c Hj Hc. pose proof Hj as (J1 & J2 & J3). destruct c as [|k|k|]; [| | |congruence].
      + unfold jnxt. rewrite J3. pose proof (jfirst_ok j m _ Hj) as Hf. destruct (jfirst j) as [j' ol]. destruct Hf as [Hf1 Hf]. split; auto. destruct ol; auto.
        destruct Hf as [H1 H2]. split; auto. intros x Hx. elim (H2 x Hx).
      + destruct J3 as [Hk Hs]. apply (nxt_from j m k J1 J2 Hk). now rewrite Hs.
      + destruct J3 as [Hk Hs]. apply (nxt_from j m k J1 J2 Hk Hs).
    - (* js_prv *) intros j m c Hj Hc Hg Hp. pose proof Hj as (J1 & J2 & J3). unfold jprv.
      assert (Hn : jroot j = JNil \/ jroot j <> JNil) by (destruct (jroot j); [left; reflexivity|right; discriminate..]).
      destruct c as [|k|k|]; [| |elim (Hg k); reflexivity|congruence].
      + rewrite J3. destruct Hn as [Hn|Hn].
        * rewrite Hn. cbn [last]. split; [exact I|]. split.
          -- split; [exact I|]. split; [|reflexivity]. intros k. rewrite J2, Hn. reflexivity.
          -- intros x Hx. destruct (rel_dom _ _ _ _ Hj Hx) as [_ [_ H]]. rewrite Hn in H. elim H. reflexivity.
        * destruct (last_ok (jroot j) 8 J1 Hp Hn) as (q & k & v & F1 & F2 & F3). rewrite F1. split; [exact Hp|].
          destruct (stands_rel j m _ _ q k v Hj eq_refl F2) as (R1 & R2 & R3 & R4). exists k, v. split; [|auto]. split; auto. split; [exact I|].
          intros x Hx _. apply F3. apply (rel_dom _ _ _ _ Hj Hx).
      + destruct J3 as [Hk Hs]. destruct Hn as [Hn|Hn]; [rewrite Hn in Hs; discriminate|].
        pose proof (slot_path (jroot j) 8 k Hn (wf_nz 8 _ J1 ltac:(lia))) as Hpth. rewrite Hs in Hpth. cbn [fst] in Hpth.
        pose proof (prv_ok (jroot j) 8 k (jstack j) J1 Hp Hn Hk Hs) as Hx. destruct (jstack j) as [|s q]; [congruence|].
        destruct (prv (jroot j) (s :: q)) as [[q' l]|].
        * destruct Hx as (-> & k' & v & S1 & S2 & S3). split; [exact Hp|]. destruct (stands_rel j m _ _ q' k' v Hj eq_refl S1) as (R1 & R2 & R3 & R4).
          exists k', v. split; [|auto]. split; auto. split; auto. intros x Hx Hlt. apply S3; auto. apply (rel_dom _ _ _ _ Hj Hx).
        * split; [exact Hp|]. split; [split; auto|]. intros x Hd Hlt. cbn in Hlt. destruct (rel_dom _ _ _ _ Hj Hd) as [_ Hd']. specialize (Hx x Hd'). lia.
    - (* js_prv_any *) intros j m c (J1 & J2 & J3) _. unfold jprv. destruct (match jstack j with [] => _ | _ => _ end) as [[p l]|]; split; auto.
    - (* js_del *) intros j m k Hj Hd. pose proof Hj as (J1 & J2 & Hk & Hs). destruct (rel_dom _ _ _ _ Hj Hd) as [_ [_ Hl]]. unfold jdel.
      destruct (del_ok (jroot j) 8 k (jstack j) J1 Hk Hl (or_introl Hs)) as (D1 & D2 & D3). destruct (del (jroot j) (jstack j)) as [n' p']. cbn [fst] in *.
      split; [|exact D3]. split; [exact D1|]. split; [|exact I]. intros x. cbn [jroot]. unfold fdel. rewrite J2, D2, (mod8 k Hk). destruct (Z.eqb_spec x k) as [E|E].
      + rewrite E, range_true, mod8, Z.eqb_refl by auto. reflexivity.
      + destruct ((0 <=? x) && (x <? M64)) eqn:Er; auto. rewrite mod8 by (apply andb_true_iff in Er as [E1 E2]; split; lia).
        destruct (Z.eqb_spec x k); [contradiction|reflexivity].
  Qed.

  (** Keys that are all multiples of some [a >= 5] are sparse. *)
  Lemma aligned_sparse (P : Z -> Prop) a : 5 <= a -> (forall x, P x -> (a | x)) -> sparse56 P.
  Proof.
    intros Ha HP w l Hnd Hl.
    assert (Hinc : incl (map (fun x => x / a) l) (map (fun i => (256 * w + a - 1) / a + Z.of_nat i) (seq 0 52))).
    { intros y Hy. apply in_map_iff in Hy as (x & <- & Hx). destruct (Hl x Hx) as [H1 H2]. destruct (HP x H1) as [q ->]. rewrite Z.div_mul by lia.
      set (c := (256 * w + a - 1) / a). assert (Hc1 : a * c <= 256 * w + a - 1) by (apply Z.mul_div_le; lia).
      assert (Hc2 : 256 * w + a - 1 < a * c + a) by (pose proof (Z.mul_succ_div_gt (256 * w + a - 1) a ltac:(lia)); fold c in H; lia).
      pose proof (Z.div_mod (q * a) 256 ltac:(lia)) as Hdm. rewrite H2 in Hdm. pose proof (Z.mod_pos_bound (q * a) 256 ltac:(lia)) as Hmb.
      assert (Hq1 : c <= q) by nia. assert (Hq2 : q < c + 52) by nia.
      apply in_map_iff. exists (Z.to_nat (q - c)). split; [lia|]. apply in_seq. lia. }
    assert (Hnd2 : NoDup (map (fun x => x / a) l)).
    { clear Hinc. induction l as [|x l IH]; [constructor|]. inversion Hnd as [|? ? Hni Hnd']; subst. cbn [map]. constructor; [|apply IH; auto; intros; apply Hl; simpl; auto].
      intros Hi. apply in_map_iff in Hi as (y & Ey & Hy). apply Hni. destruct (HP x (proj1 (Hl x ltac:(simpl; auto)))) as [q1 ->].
      destruct (HP y (proj1 (Hl y ltac:(simpl; auto)))) as [q2 ->]. rewrite !Z.div_mul in Ey by lia. now subst. }
    pose proof (NoDup_incl_length Hnd2 Hinc) as Hlen. rewrite !map_length, seq_length in Hlen. lia.
  Qed.
End Contract.
