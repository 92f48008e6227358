(** The Judy array meets the contract MemoryMap relies on. *)
From Verif Require Import Base BaseFacts MapModel MapSpec JudyModel.

(** ** Key bytes *)
Lemma pw_pos ks : 0 < pw ks.
Proof. unfold pw. apply Z.pow_pos_nonneg; lia. Qed.

Lemma pw_S ks : pw (S ks) = 256 * pw ks.
Proof. unfold pw. rewrite Nat2Z.inj_succ, Z.pow_succ_r by lia. reflexivity. Qed.

Lemma pw_0 : pw 0 = 1. Proof. reflexivity. Qed.

Lemma kbyte_S ks k : kbyte (S ks) k = (k / pw ks) mod 256.
Proof. unfold kbyte. now rewrite Nat.sub_succ, Nat.sub_0_r. Qed.

Lemma kbyte_range ks k : 0 <= kbyte ks k < 256.
Proof. unfold kbyte. apply Z.mod_pos_bound. lia. Qed.

Lemma mod_split ks k : k mod pw (S ks) = kbyte (S ks) k * pw ks + k mod pw ks.
Proof.
  rewrite kbyte_S, pw_S. pose proof (pw_pos ks). rewrite (Z.mul_comm 256), Z.rem_mul_r by lia. lia.
Qed.

Lemma mod_pw_range ks k : 0 <= k mod pw ks < pw ks.
Proof. apply Z.mod_pos_bound, pw_pos. Qed.

Lemma mod_pw_mod ks k : k mod pw (S ks) mod pw ks = k mod pw ks.
Proof. rewrite mod_split, Z.add_comm, Z.mod_add by (pose proof (pw_pos ks); lia). apply Z.mod_mod. pose proof (pw_pos ks); lia. Qed.

Lemma kbyte_join ks b r : 0 <= b < 256 -> 0 <= r < pw ks -> kbyte (S ks) (b * pw ks + r) = b.
Proof.
  intros Hb Hr. rewrite kbyte_S, Z.add_comm, Z.div_add, Z.div_small by lia. apply Z.mod_small. lia.
Qed.

Lemma mod_join ks b r : 0 <= r < pw ks -> (b * pw ks + r) mod pw ks = r.
Proof. intros Hr. rewrite Z.add_comm, Z.mod_add by lia. apply Z.mod_small. lia. Qed.

Lemma join_range ks b r : 0 <= b < 256 -> 0 <= r < pw ks -> 0 <= b * pw ks + r < pw (S ks).
Proof. intros Hb Hr. rewrite pw_S. nia. Qed.

Lemma kbyte_mod ks k : kbyte (S ks) (k mod pw (S ks)) = kbyte (S ks) k.
Proof. rewrite mod_split. apply kbyte_join; [apply kbyte_range|apply mod_pw_range]. Qed.

(** In range, a key is its first byte and the rest. *)
Lemma key_join ks k : 0 <= k < pw (S ks) -> k = kbyte (S ks) k * pw ks + k mod pw ks.
Proof. intros H. rewrite <- mod_split. symmetry. apply Z.mod_small, H. Qed.

Lemma key_lt ks x y : 0 <= x < pw (S ks) -> 0 <= y < pw (S ks) ->
  (x < y <-> kbyte (S ks) x < kbyte (S ks) y \/ (kbyte (S ks) x = kbyte (S ks) y /\ x mod pw ks < y mod pw ks)).
Proof.
  intros Hx Hy. rewrite (key_join ks x Hx) at 1. rewrite (key_join ks y Hy) at 1.
  pose proof (mod_pw_range ks x). pose proof (mod_pw_range ks y).
  set (a := kbyte (S ks) x). set (b := kbyte (S ks) y). set (u := x mod pw ks) in *. set (v := y mod pw ks) in *. clearbody a b u v.
  split; intros; [|nia]. destruct (Z.lt_trichotomy a b) as [|[->|]]; [left; auto|right; split; auto; lia|exfalso; nia].
Qed.

(** Comparing keys of one node by the part below. *)
Lemma eq_mod_S ks x y : (x mod pw (S ks) = y mod pw (S ks)) <-> kbyte (S ks) x = kbyte (S ks) y /\ x mod pw ks = y mod pw ks.
Proof.
  split.
  - intros E. split.
    + rewrite <- (kbyte_mod ks x), <- (kbyte_mod ks y). now rewrite E.
    + rewrite <- (mod_pw_mod ks x), <- (mod_pw_mod ks y). now rewrite E.
  - intros [E1 E2]. now rewrite !mod_split, E1, E2.
Qed.

(** ** Finding a byte *)
Lemma in_bytes b : In b bytes <-> 0 <= b < 256.
Proof.
  unfold bytes. rewrite in_map_iff. split.
  - intros (i & <- & H). apply in_seq in H. lia.
  - intros H. exists (Z.to_nat b). split; [lia|]. apply in_seq. lia.
Qed.

Lemma bytes_asc : ascending bytes.
Proof.
  unfold bytes. generalize 0%nat at 1. generalize 256%nat. induction n as [|n IH]; intros a; [exact I|]. cbn [seq map ascending]. split; [|apply IH].
  intros y Hy. apply in_map_iff in Hy as (i & <- & Hi). apply in_seq in Hi. lia.
Qed.

Lemma find_asc f l : ascending l ->
  match find f l with
  | Some b => In b l /\ f b = true /\ forall x, In x l -> x < b -> f x = false
  | None => forall x, In x l -> f x = false
  end.
Proof.
  induction l as [|a l IH]; intros Ha; [intros x []|]. cbn [find]. destruct (f a) eqn:E.
  - split; [simpl; auto|]. split; auto. intros x [->|Hx] Hlt; [lia|]. destruct Ha as [Ha _]. specialize (Ha x Hx). lia.
  - destruct Ha as [Ha Hl]. specialize (IH Hl). destruct (find f l) as [b|].
    + destruct IH as (I1 & I2 & I3). split; [simpl; auto|]. split; auto. intros x [<-|Hx] Hlt; auto.
    + intros x [<-|Hx]; auto.
Qed.

Lemma find_app {A} (f : A -> bool) l l' : find f (l ++ l') = match find f l with Some x => Some x | None => find f l' end.
Proof. induction l as [|a l IH]; [reflexivity|]. cbn [app find]. destruct (f a); auto. Qed.

Lemma find_desc f l : ascending l ->
  match find f (rev l) with
  | Some b => In b l /\ f b = true /\ forall x, In x l -> b < x -> f x = false
  | None => forall x, In x l -> f x = false
  end.
Proof.
  induction l as [|a l IH]; intros Ha; [intros x []|]. cbn [rev]. rewrite find_app. destruct Ha as [Ha Hl]. specialize (IH Hl).
  destruct (find f (rev l)) as [b|].
  - destruct IH as (I1 & I2 & I3). split; [simpl; auto|]. split; auto. intros x [<-|Hx] Hlt; auto. specialize (Ha b I1). lia.
  - cbn [find]. destruct (f a) eqn:E.
    + split; [simpl; auto|]. split; auto. intros x [<-|Hx] Hlt; [lia|auto].
    + intros x [<-|Hx]; auto.
Qed.

Section JudyFacts.
  Context {V : Type}.
  Notation jn := (@jn V).

  (** ** Linear nodes *)
  Definition live (L : list (Z * V)) : list (Z * option V) := map (fun x => (fst x, Some (snd x))) L.
  Definition lin (e : nat) (L : list (Z * V)) : list (Z * option V) := repeat (0, None) e ++ live L.
  Definition asc (L : list (Z * V)) : Prop := ascending (map fst L).

  Lemma live_app A B : live (A ++ B) = live A ++ live B.
  Proof. apply map_app. Qed.

  Lemma lin_length e L : length (lin e L) = (e + length L)%nat.
  Proof. unfold lin, live. now rewrite app_length, repeat_length, map_length. Qed.

  Lemma asc_app A B : asc (A ++ B) <-> asc A /\ asc B /\ forall x y, In x A -> In y B -> fst x < fst y.
  Proof.
    unfold asc. induction A as [|a A IH]; cbn [app map ascending].
    - split; [intros H; split; [exact I|split; [exact H|intros x y []]]|intros (_ & H & _); exact H].
    - rewrite IH. split.
      + intros (H1 & H2 & H3 & H4). split; [split; auto|split; [auto|]].
        * intros y Hy. apply H1. rewrite map_app. apply in_or_app. auto.
        * intros x y [<-|Hx] Hy; auto. apply H1. rewrite map_app. apply in_or_app. right. now apply in_map.
      + intros ((H1 & H2) & H3 & H4). split; [|split; [auto|split; [auto|]]].
        * intros y Hy. rewrite map_app in Hy. apply in_app_or in Hy as [Hy|Hy]; auto. apply in_map_iff in Hy as (z & <- & Hz). apply H4; simpl; auto.
        * intros x y Hx Hy. apply H4; simpl; auto.
  Qed.

  Lemma asc_split L v : asc L -> exists A B, L = A ++ B /\ (forall x, In x A -> fst x <= v) /\ (forall x, In x B -> v < fst x).
  Proof.
    induction L as [|a L IH]; intros H; [exists [], []; repeat split; intros x []|].
    destruct H as [H1 H2]. destruct (Z.le_gt_cases (fst a) v).
    - destruct (IH H2) as (A & B & -> & HA & HB). exists (a :: A), B. split; auto. split; auto. intros x [<-|Hx]; auto.
    - exists [], (a :: L). split; auto. split; [intros x []|]. intros x [<-|Hx]; [lia|]. specialize (H1 (fst x) (in_map fst _ _ Hx)). lia.
  Qed.

  (** The last entry not above [v] is [v] itself or [v] is absent. *)
  Lemma asc_pick L v : asc L -> exists A B, L = A ++ B /\ (forall x, In x B -> v < fst x) /\
    ((exists A' w, A = A' ++ [(v, w)] /\ forall x, In x A' -> fst x < v) \/
     (exists A' a w, A = A' ++ [(a, w)] /\ a < v /\ forall x, In x A' -> fst x < a) \/ A = []).
  Proof.
    intros H. destruct (asc_split L v H) as (A & B & -> & HA & HB). exists A, B. split; auto. split; auto.
    destruct A as [|a A _] using rev_ind; auto. apply asc_app in H as (H & _ & _). apply asc_app in H as (_ & _ & H). destruct a as [a w].
    assert (Ha : a <= v) by (apply (HA (a, w)); apply in_or_app; simpl; auto).
    assert (Hlt : forall x, In x A -> fst x < a) by (intros x Hx; apply (H x (a, w)); simpl; auto).
    destruct (Z.eq_dec a v) as [->|]; [left; eauto|]. right. left. exists A, a, w. split; auto. split; auto. lia.
  Qed.

  Lemma scan_app v (l1 l2 : list (Z * option V)) : forall i best,
    scan v (l1 ++ l2) i best = scan v l2 (i + Z.of_nat (length l1)) (scan v l1 i best).
  Proof.
    induction l1 as [|x l1 IH]; intros i best; cbn [app scan length]; [f_equal; lia|]. rewrite IH. f_equal. lia.
  Qed.

  Lemma scan_le v (l : list (Z * option V)) : (forall x, In x l -> fst x <= v) -> forall i best,
    scan v l i best = match l with [] => best | _ => i + Z.of_nat (length l) - 1 end.
  Proof.
    induction l as [|x l IH]; intros H i best; [reflexivity|]. cbn [scan]. rewrite IH by (intros; apply H; simpl; auto).
    destruct (Z.leb_spec (fst x) v) as [|Hl]; [|specialize (H x ltac:(simpl; auto)); lia]. destruct l; cbn [length]; lia.
  Qed.

  Lemma scan_gt v (l : list (Z * option V)) : (forall x, In x l -> v < fst x) -> forall i best, scan v l i best = best.
  Proof.
    induction l as [|x l IH]; intros H i best; [reflexivity|]. cbn [scan]. rewrite IH by (intros; apply H; simpl; auto).
    destruct (Z.leb_spec (fst x) v) as [Hl|]; [specialize (H x ltac:(simpl; auto)); lia|reflexivity].
  Qed.

  Lemma scan_lin v e A B : 0 <= v -> (forall x, In x A -> fst x <= v) -> (forall x, In x B -> v < fst x) ->
    scan v (lin e (A ++ B)) 0 (-1) = Z.of_nat e + Z.of_nat (length A) - 1.
  Proof.
    intros Hv HA HB. unfold lin. rewrite live_app, app_assoc, scan_app.
    rewrite (scan_gt v (live B)) by (intros x Hx; unfold live in Hx; apply in_map_iff in Hx as (y & <- & Hy); cbn [fst]; auto).
    rewrite scan_le.
    - unfold live. rewrite app_length, repeat_length, map_length.
      destruct e, A; cbn [repeat map app length]; lia.
    - intros x Hx. apply in_app_or in Hx as [Hx|Hx]; [apply repeat_spec in Hx; now subst x|].
      unfold live in Hx. apply in_map_iff in Hx as (y & <- & Hy). cbn [fst]. auto.
  Qed.

  Lemma nth_mid {A} (l1 l2 : list A) x : nth_error (l1 ++ x :: l2) (length l1) = Some x.
  Proof. induction l1; auto. Qed.

  Lemma set_nth_mid {A} (l1 l2 : list A) x y : set_nth (length l1) y (l1 ++ x :: l2) = l1 ++ y :: l2.
  Proof. induction l1 as [|a l1 IH]; cbn [app length set_nth]; [reflexivity|now rewrite IH]. Qed.

  (** Slot [s] of a list, by the part before it. *)
  Lemma slot_at (sl l1 l2 : list (Z * option V)) x s : sl = l1 ++ x :: l2 -> s = Z.of_nat (length l1) ->
    slot_key sl s = fst x /\ slot_cell sl s = snd x.
  Proof. intros -> ->. unfold slot_key, slot_cell. rewrite Nat2Z.id, nth_mid. auto. Qed.

  Lemma write_at (sl l1 l2 : list (Z * option V)) x s v ty : sl = l1 ++ x :: l2 -> s = Z.of_nat (length l1) ->
    write (JLin ty sl) [s] v = JLin ty (l1 ++ (fst x, Some v) :: l2).
  Proof. intros E Es. cbn [write]. destruct (slot_at _ _ _ _ _ E Es) as [-> _]. subst sl s. now rewrite Nat2Z.id, set_nth_mid. Qed.

  Definition slots_get (sl : list (Z * option V)) (v : Z) : option V :=
    match find (fun x => (fst x =? v) && match snd x with Some _ => true | None => false end) sl with
    | Some x => snd x
    | None => None
    end.

  Lemma slots_get_lin e L v : asc L -> forall x, slots_get (lin e L) v = Some x <-> In (v, x) L.
  Proof.
    intros H x. unfold slots_get, lin. rewrite find_app.
    replace (find _ (repeat (0, None) e)) with (@None (Z * option V)).
    2:{ induction e; cbn [repeat find fst snd]; auto. rewrite andb_false_r. auto. }
    induction L as [|[k w] L IH]; [split; [discriminate|intros []]|]. destruct H as [H1 H2]. cbn [live map find fst snd].
    rewrite andb_true_r. destruct (Z.eqb_spec k v) as [->|Hn].
    - cbn [snd]. split; [intros E; injection E as ->; simpl; auto|]. intros [E|Hi]; [congruence|].
      specialize (H1 v (in_map fst _ _ Hi)). cbn [fst] in H1. lia.
    - fold (live L). rewrite (IH H2). simpl. split; auto. intros [E|]; [congruence|auto].
  Qed.

  Lemma slots_get_none e L v : asc L -> (forall x, In x L -> fst x <> v) -> slots_get (lin e L) v = None.
  Proof.
    intros Ha H. destruct (slots_get (lin e L) v) eqn:E; auto. apply slots_get_lin in E; auto. elim (H _ E). reflexivity.
  Qed.

  (** ** Well-formed arrays *)
  Fixpoint wf (ks : nat) (n : jn) : Prop :=
    match n with
    | JNil => True
    | JVal _ => ks = 0%nat
    | JLin ty sl => (0 < ks <= 8)%nat /\ (1 <= ty <= JUDY_max)%nat /\
        exists e L, sl = lin e L /\ L <> [] /\ asc L /\ (forall x, In x L -> 0 <= fst x < pw ks) /\ Z.of_nat (e + length L) = jcnt ty ks
    | JRad kids => exists ks', ks = S ks' /\ (ks <= 8)%nat /\ (exists b, kids b <> JNil) /\
        forall b, wf ks' (kids b) /\ (~ 0 <= b < 256 -> kids b = JNil)
    end.

  Fixpoint lk (n : jn) (ks : nat) (k : Z) : option V :=
    match n with
    | JNil => None
    | JVal v => Some v
    | JLin _ sl => slots_get sl (k mod pw ks)
    | JRad kids => lk (kids (kbyte ks k)) (ks - 1) k
    end.

  (** No radix node of cells. *)
  Fixpoint plain (n : jn) : Prop :=
    match n with
    | JVal _ => False
    | JRad kids => forall b, plain (kids b)
    | _ => True
    end.

  Lemma lk_rad (kids : Z -> jn) ks k : lk (JRad kids) (S ks) k = lk (kids (kbyte (S ks) k)) ks k.
  Proof. cbn [lk]. now rewrite Nat.sub_succ, Nat.sub_0_r. Qed.

  Lemma slot_rad (kids : Z -> jn) ks k : slot (JRad kids : jn) (S ks) k =
    match kids (kbyte (S ks) k) with
    | JNil => ([kbyte (S ks) k], None)
    | JVal _ => ([kbyte (S ks) k], Some [kbyte (S ks) k])
    | _ => let '(p, r) := slot (kids (kbyte (S ks) k)) ks k in (kbyte (S ks) k :: p, option_map (cons (kbyte (S ks) k)) r)
    end.
  Proof. cbn [slot]. rewrite Nat.sub_succ, Nat.sub_0_r. reflexivity. Qed.

  Lemma lk_mod n : forall ks k k', wf ks n -> k mod pw ks = k' mod pw ks -> lk n ks k = lk n ks k'.
  Proof.
    induction n as [|v|ty sl|kids IH]; intros ks k k' Hw E; cbn [lk]; auto; [now rewrite E|].
    destruct Hw as (ks' & -> & _ & _ & Hk). apply eq_mod_S in E as [E1 E2]. rewrite Nat.sub_succ, Nat.sub_0_r, E1. apply IH; [apply Hk|exact E2].
  Qed.

  Lemma slot_mod n : forall ks k k', wf ks n -> k mod pw ks = k' mod pw ks -> slot n ks k = slot n ks k'.
  Proof.
    induction n as [|v|ty sl|kids IH]; intros ks k k' Hw E; auto; [cbn [slot]; now rewrite E|].
    destruct Hw as (ks' & -> & _ & _ & Hk). apply eq_mod_S in E as [E1 E2]. rewrite !slot_rad, E1.
    destruct (kids (kbyte (S ks') k')) eqn:Ek; auto; rewrite <- Ek; rewrite (IH _ ks' k k'); auto; apply Hk.
  Qed.

  Lemma wf_nz ks n : wf ks n -> ks <> 0%nat -> forall v, n <> JVal v.
  Proof. intros H H0 v ->. contradiction. Qed.

  (** ** judy_slot *)
  Lemma slot_ok n : forall ks k p r, wf ks n -> slot n ks k = (p, r) ->
    match r with
    | Some l => l = p /\ read n p = lk n ks k
    | None => ks <> 0%nat -> lk n ks k = None
    end.
  Proof.
    induction n as [|v|ty sl|kids IH]; intros ks k p r Hw E.
    - injection E as <- <-. auto.
    - injection E as <- <-. intros H. contradiction.
    - destruct Hw as (Hks & _ & e & L & -> & Hne & Ha & Hr & _). cbn [slot lk] in *. pose proof (mod_pw_range ks k) as Hv.
      set (v := k mod pw ks) in *. destruct (asc_pick L v Ha) as (A & B & -> & HB & HA).
      assert (HA' : forall x, In x A -> fst x <= v).
      { intros x Hx. destruct HA as [(A' & w & -> & H)|[(A' & a & w & -> & H1 & H)| ->]]; [| |destruct Hx];
          (apply in_app_or in Hx as [Hx|[<-|[]]]; [specialize (H x Hx)|]; cbn [fst]; lia). }
      rewrite (scan_lin v e A B) in E by (auto; lia).
      destruct HA as [(A' & w & -> & H)|[(A' & a & w & -> & H1 & H)| ->]].
      + rewrite app_length in E. cbn [length] in E.
        assert (El : lin e ((A' ++ [(v, w)]) ++ B) = (repeat (0, None) e ++ live A') ++ (v, Some w) :: live B).
        { unfold lin. rewrite !live_app, <- !app_assoc. reflexivity. }
        destruct (slot_at _ _ _ _ (Z.of_nat e + Z.of_nat (length A' + 1) - 1) El) as [K1 K2].
        { rewrite app_length, repeat_length. unfold live. rewrite map_length. lia. }
        rewrite K1 in E. cbn [fst] in E. rewrite Z.eqb_refl, andb_true_r in E.
        destruct (Z.leb_spec 0 (Z.of_nat e + Z.of_nat (length A' + 1) - 1)); [|lia]. injection E as <- <-.
        split; auto. cbn [read]. rewrite K2. cbn [snd]. symmetry. apply slots_get_lin; auto. apply in_or_app. left. apply in_or_app. simpl. auto.
      + rewrite app_length in E. cbn [length] in E.
        assert (El : lin e ((A' ++ [(a, w)]) ++ B) = (repeat (0, None) e ++ live A') ++ (a, Some w) :: live B).
        { unfold lin. rewrite !live_app, <- !app_assoc. reflexivity. }
        destruct (slot_at _ _ _ _ (Z.of_nat e + Z.of_nat (length A' + 1) - 1) El) as [K1 K2].
        { rewrite app_length, repeat_length. unfold live. rewrite map_length. lia. }
        rewrite K1 in E. cbn [fst] in E. destruct (Z.eqb_spec a v); [lia|]. rewrite andb_false_r in E. injection E as <- <-.
        intros _. apply slots_get_none; auto. intros x Hx.
        apply in_app_or in Hx as [Hx|Hx]; [|specialize (HB x Hx); lia]. apply in_app_or in Hx as [Hx|[<-|[]]]; [specialize (H x Hx)|cbn [fst]]; lia.
      + cbn [app length] in E |- *. change (Z.of_nat 0) with 0 in E. assert (Hnone : slots_get (lin e B) v = None).
        { apply slots_get_none; auto. intros x Hx. specialize (HB x Hx). lia. }
        destruct (Z.leb_spec 0 (Z.of_nat e + 0 - 1)) as [He|He]; cbn [andb] in E; [|injection E as <- <-; auto].
        destruct e as [|e]; [lia|].
        assert (El : lin (S e) B = repeat (0, None) e ++ (0, None) :: live B).
        { unfold lin. change (repeat (0, @None V) (S e)) with ((0, @None V) :: repeat (0, None) e).
          rewrite repeat_cons, <- app_assoc. reflexivity. }
        destruct (slot_at _ _ _ _ (Z.of_nat (S e) + 0 - 1) El) as [K1 K2]; [rewrite repeat_length; lia|].
        set (s := Z.of_nat (S e) + 0 - 1) in *. clearbody s.
        rewrite K1 in E. cbn [fst] in E. destruct (0 =? v); injection E as <- <-; auto.
        split; auto. cbn [read]. rewrite K2. auto.
    - destruct Hw as (ks' & -> & _ & _ & Hk). rewrite slot_rad in E. rewrite lk_rad. set (b := kbyte (S ks') k) in *.
      destruct (Hk b) as [Hwb _].
      assert (Hrec : forall p0 r0, slot (kids b) ks' k = (p0, r0) -> (p, r) = (b :: p0, option_map (cons b) r0) -> ks' <> 0%nat ->
                match r with Some l => l = p /\ read (JRad kids) p = lk (kids b) ks' k | None => S ks' <> 0%nat -> lk (kids b) ks' k = None end).
      { intros p0 r0 Es Ep Hz. injection Ep as -> ->. specialize (IH b ks' k p0 r0 Hwb Es). destruct r0 as [l0|]; cbn [option_map].
        - destruct IH as [-> I2]. split; auto.
        - intros _. apply IH, Hz. }
      destruct (kids b) eqn:Ek; cbn [wf] in Hwb.
      + injection E as <- <-. auto.
      + injection E as <- <-. split; auto. cbn [read]. now rewrite Ek.
      + destruct (slot (JLin ty slots) ks' k) as [p0 r0] eqn:Es. symmetry in E. eapply Hrec; eauto. destruct Hwb; lia.
      + destruct (slot (JRad kids0) ks' k) as [p0 r0] eqn:Es. symmetry in E. eapply Hrec; eauto. destruct Hwb as (? & -> & _). lia.
  Qed.

  Lemma slot_dom (n : jn) ks k : wf ks n -> ks <> 0%nat -> lk n ks k <> None -> exists p, slot n ks k = (p, Some p) /\ read n p = lk n ks k.
  Proof.
    intros Hw Hz Hd. destruct (slot n ks k) as [p r] eqn:E. pose proof (slot_ok n ks k p r Hw E) as H. destruct r as [l|].
    - destruct H as [-> H]. eauto.
    - elim Hd. auto.
  Qed.

  Lemma slot_path (n : jn) ks k : n <> JNil -> (forall v, n <> JVal v) -> fst (slot n ks k) <> [].
  Proof.
    intros H1 H2. destruct n as [|v|ty sl|kids]; [congruence|elim (H2 v); reflexivity|discriminate|].
    cbn [slot]. destruct (kids (kbyte ks k)); try discriminate; destruct (slot _ _ _); discriminate.
  Qed.

  (** ** Going forwards *)
  Lemma lin_mid e A a w B : lin e ((A ++ [(a, w)]) ++ B) = (repeat (0, None) e ++ live A) ++ (a, Some w) :: live B.
  Proof. unfold lin. rewrite !live_app, <- !app_assoc. reflexivity. Qed.

  Lemma lin_pre e A : length (repeat (0, @None V) e ++ live A) = (e + length A)%nat.
  Proof. unfold live. now rewrite app_length, repeat_length, map_length. Qed.

  (** A key present in a linear node. *)
  Lemma lin_found ty ks e A a w B : (0 < ks)%nat -> asc (A ++ (a, w) :: B) -> (forall x, In x (A ++ (a, w) :: B) -> 0 <= fst x < pw ks) ->
    slot (JLin ty (lin e (A ++ (a, w) :: B))) ks a = ([Z.of_nat (e + length A)], Some [Z.of_nat (e + length A)]) /\
    lk (JLin ty (lin e (A ++ (a, w) :: B))) ks a = Some w /\
    slot_key (lin e (A ++ (a, w) :: B)) (Z.of_nat (e + length A)) = a /\
    slot_cell (lin e (A ++ (a, w) :: B)) (Z.of_nat (e + length A)) = Some w.
  Proof.
    intros Hks Ha Hr. assert (Hra : 0 <= a < pw ks) by (apply (Hr (a, w)), in_elt).
    change ((a, w) :: B) with ([(a, w)] ++ B) in *. rewrite app_assoc in *. pose proof Ha as Ha'. apply asc_app in Ha' as (H1 & H2 & H3).
    apply asc_app in H1 as (_ & _ & H4). destruct (slot_at _ _ _ _ (Z.of_nat (e + length A)) (lin_mid e A a w B)) as [K1 K2]; [now rewrite lin_pre|].
    cbn [fst snd] in K1, K2. cbn [slot lk]. rewrite !(Z.mod_small a) by lia.
    rewrite (scan_lin a e (A ++ [(a, w)]) B).
    - replace (Z.of_nat e + Z.of_nat (length (A ++ [(a, w)])) - 1) with (Z.of_nat (e + length A)) by (rewrite app_length; cbn [length]; lia).
      rewrite K1, K2, Z.eqb_refl. destruct (Z.leb_spec 0 (Z.of_nat (e + length A))); [|lia]. cbn [andb]. split; auto. split; auto.
      apply slots_get_lin; auto. apply in_or_app. left. apply in_elt.
    - lia.
    - intros x Hx. apply in_app_or in Hx as [Hx|[<-|[]]]; [|cbn [fst]; lia]. specialize (H4 x (a, w) Hx ltac:(simpl; auto)). cbn [fst] in H4. lia.
    - intros x Hx. apply (H3 (a, w) x); auto. apply in_or_app. simpl. auto.
  Qed.

  (** [q] is the stack of the key [k]. *)
  Definition stands (ks : nat) (n : jn) (q : path) (k : Z) (v : V) : Prop :=
    0 <= k < pw ks /\ lk n ks k = Some v /\ slot n ks k = (q, Some q) /\ exists l, pkey ks n q = (k, l, true).

  Lemma stands_rad kids ks b q k v : wf (S ks) (JRad kids) -> 0 <= b < 256 -> ks <> 0%nat -> stands ks (kids b) q k v ->
    stands (S ks) (JRad kids) (b :: q) (b * pw ks + k) v.
  Proof.
    intros (ks' & E & _ & _ & Hk) Hb Hz (S1 & S2 & S3 & l & S4). injection E as <-. destruct (Hk b) as [Hw _].
    split; [apply join_range; auto|]. rewrite lk_rad, slot_rad, kbyte_join by auto.
    rewrite (lk_mod (kids b) ks _ k) by (auto; rewrite mod_join by auto; symmetry; apply Z.mod_small; auto). split; [exact S2|].
    rewrite (slot_mod (kids b) ks _ k) by (auto; rewrite mod_join by auto; symmetry; apply Z.mod_small; auto). split.
    - destruct (kids b); try (rewrite S3; reflexivity); [discriminate|cbn [wf] in Hw; contradiction].
    - exists (1 + l). cbn [pkey]. now rewrite S4.
  Qed.

  Lemma stands_val kids b v : wf 1 (JRad kids) -> 0 <= b < 256 -> kids b = JVal v -> stands 1 (JRad kids) [b] b v.
  Proof.
    intros _ Hb Ek. assert (Ekb : kbyte 1 b = b) by (rewrite kbyte_S, pw_0, Z.div_1_r; apply Z.mod_small; lia).
    split; [rewrite pw_S, pw_0; lia|]. rewrite lk_rad, slot_rad, Ekb, Ek. cbn [lk]. split; auto. split; auto. exists 1. cbn [pkey]. rewrite pw_0. f_equal. f_equal. lia.
  Qed.

  Definition dom_in (ks : nat) (n : jn) (x : Z) : Prop := 0 <= x < pw ks /\ lk n ks x <> None.

  Lemma dom_rad kids ks x : wf (S ks) (JRad kids) -> dom_in (S ks) (JRad kids) x ->
    0 <= kbyte (S ks) x < 256 /\ kids (kbyte (S ks) x) <> JNil /\ dom_in ks (kids (kbyte (S ks) x)) (x mod pw ks).
  Proof.
    intros (ks' & E & _ & _ & Hk) [Hx Hd]. injection E as <-. split; [apply kbyte_range|]. rewrite lk_rad in Hd.
    split; [intros E; rewrite E in Hd; apply Hd; reflexivity|]. split; [apply mod_pw_range|].
    rewrite (lk_mod _ ks _ x); auto; [apply Hk|]. apply Z.mod_mod. pose proof (pw_pos ks). lia.
  Qed.

  Lemma occ_iff (kids : Z -> jn) b : occupied kids b = true <-> kids b <> JNil.
  Proof. unfold occupied. destruct (kids b); cbn; split; congruence. Qed.
  Lemma occ_false (kids : Z -> jn) b : occupied kids b = false <-> kids b = JNil.
  Proof. unfold occupied. destruct (kids b); cbn; split; congruence. Qed.

  Definition leaf_or (f : jn -> option path) (kids : Z -> jn) (b : Z) : option path :=
    match kids b with JVal _ => Some [b] | _ => option_map (cons b) (f (kids b)) end.

  Lemma first_live_lin e L : L <> [] -> forall i, first_live (lin e L) i = i + Z.of_nat e.
  Proof.
    intros H. induction e as [|e IH]; intros i.
    - destruct L as [|x L]; [congruence|]. cbn. lia.
    - change (lin (S e) L) with ((0, @None V) :: lin e L). cbn [first_live snd]. rewrite IH. lia.
  Qed.

  Definition first_is (ks : nat) (n : jn) : Prop :=
    exists q k v, first n = Some q /\ stands ks n q k v /\ forall x, dom_in ks n x -> k <= x.

  (** The least key among the children of a radix node from [b] on. *)
  Lemma kid_first kids ks b (f : jn -> option path) : wf (S ks) (JRad kids) -> 0 <= b < 256 -> kids b <> JNil ->
    f = first -> (ks <> 0%nat -> first_is ks (kids b)) ->
    exists q k v, match kids b with JVal _ => Some [b] | _ => option_map (cons b) (f (kids b)) end = Some q /\
      stands (S ks) (JRad kids) q k v /\ kbyte (S ks) k = b /\
      forall x, dom_in (S ks) (JRad kids) x -> b <= kbyte (S ks) x -> k <= x.
  Proof.
    intros Hw Hb Hn -> IH. pose proof Hw as (ks' & E & _ & _ & Hk). injection E as <-. destruct (Hk b) as [Hwb _].
    destruct ks as [|ks].
    - destruct (kids b) eqn:Ek; cbn [wf] in Hwb; [congruence| |destruct Hwb; lia|destruct Hwb as (? & ? & _); discriminate].
      exists [b], b, v. split; auto. split; [apply stands_val; auto|].
      assert (Ekb : forall x, 0 <= x < 256 -> kbyte 1 x = x) by (intros x Hx; rewrite kbyte_S, pw_0, Z.div_1_r; apply Z.mod_small; lia).
      split; [apply Ekb; auto|]. intros x [Hx _] Hle. rewrite pw_S, pw_0 in Hx. rewrite Ekb in Hle by lia. exact Hle.
    - destruct (IH ltac:(lia)) as (q & k & v & F1 & F2 & F3). exists (b :: q), (b * pw (S ks) + k), v.
      split; [|split; [apply stands_rad; auto|]].
      + destruct (kids b) eqn:Ek; cbn [wf] in Hwb; try (rewrite F1; reflexivity). discriminate.
      + split; [apply kbyte_join; auto; apply F2|]. intros x Hx Hle. pose proof (dom_rad _ _ _ Hw Hx) as (D1 & D2 & D3).
        destruct Hx as [Hx _]. rewrite (key_join _ _ Hx). pose proof (mod_pw_range (S ks) x). destruct F2 as [F2 _].
        destruct (Z.eq_dec (kbyte (S (S ks)) x) b) as [Eb|Hne]; [|nia]. rewrite Eb in *. specialize (F3 _ D3). lia.
  Qed.

  Lemma first_ok n : forall ks, wf ks n -> ks <> 0%nat -> n <> JNil -> first_is ks n.
  Proof.
    induction n as [|v|ty sl|kids IH]; intros ks Hw Hz Hn; [congruence|cbn [wf] in Hw; contradiction| |].
    - destruct Hw as (Hks & _ & e & L & -> & Hne & Ha & Hr & _). destruct L as [|[a w] L]; [congruence|].
      destruct (lin_found ty ks e [] a w L ltac:(lia) Ha Hr) as (F1 & F2 & F3 & F4). cbn [app length] in *. rewrite Nat.add_0_r in *.
      exists [Z.of_nat e], a, w. split; [cbn [first]; rewrite first_live_lin by discriminate; reflexivity|]. split.
      + split; [apply (Hr (a, w)); simpl; auto|]. split; auto. split; auto. exists (Z.of_nat ks). destruct ks; [lia|]. cbn [pkey]. now rewrite F3.
      + intros x [Hx Hd]. cbn [lk] in Hd. destruct (slots_get _ _) as [y|] eqn:E; [|congruence]. apply slots_get_lin in E; auto.
        rewrite Z.mod_small in E by lia. destruct E as [E|E]; [injection E; lia|]. destruct Ha as [Ha _].
        specialize (Ha x (in_map fst _ _ E)). cbn [fst] in Ha. lia.
    - pose proof Hw as (ks' & -> & _ & (b0 & Hb0) & Hk). pose proof (find_asc (occupied kids) bytes bytes_asc) as Hf. unfold first_is. cbn [first].
      destruct (find (occupied kids) bytes) as [b|].
      + destruct Hf as (F1 & F2 & F3). apply in_bytes in F1. apply occ_iff in F2.
        destruct (kid_first kids ks' b first Hw F1 F2 eq_refl) as (q & k & v & K1 & K2 & K3 & K4).
        { intros Hz'. apply IH; auto. apply Hk. }
        exists q, k, v. split; [exact K1|]. split; [exact K2|]. intros x Hx. apply K4; auto. destruct (dom_rad _ _ _ Hw Hx) as (D1 & D2 & _).
        destruct (Z.le_gt_cases b (kbyte (S ks') x)); auto. specialize (F3 _ (proj2 (in_bytes _) D1) ltac:(lia)). apply occ_false in F3. contradiction.
      + exfalso. destruct (Hk b0) as [_ Ho]. assert (Hr : 0 <= b0 < 256) by (destruct (Z_le_dec 0 b0), (Z_lt_dec b0 256); try lia; elim Hb0; apply Ho; lia).
        specialize (Hf b0 (proj2 (in_bytes _) Hr)). apply occ_false in Hf. contradiction.
  Qed.

  Lemma nxt_ok n : forall ks k p r, wf ks n -> ks <> 0%nat -> n <> JNil -> 0 <= k < pw ks -> slot n ks k = (p, r) ->
    match nxt n p with
    | Some q => exists k' v, stands ks n q k' v /\ k < k' /\ forall x, dom_in ks n x -> k < x -> k' <= x
    | None => forall x, dom_in ks n x -> x <= k
    end.
  Proof.
    induction n as [|v|ty sl|kids IH]; intros ks k p r Hw Hz Hn Hk Es; [congruence|cbn [wf] in Hw; contradiction| |].
    - destruct Hw as (Hks & _ & e & L & -> & Hne & Ha & Hr & _). cbn [slot] in Es. rewrite Z.mod_small in Es by lia.
      destruct (asc_split L k Ha) as (A & B & -> & HA & HB). rewrite (scan_lin k e A B) in Es by (auto; lia). injection Es as <- _.
      cbn [nxt]. rewrite lin_length, app_length.
      assert (Hdom : forall x, dom_in ks (JLin ty (lin e (A ++ B))) x -> exists y, In (x, y) (A ++ B)).
      { intros x [Hx Hd]. cbn [lk] in Hd. destruct (slots_get _ _) as [y|] eqn:E; [|congruence]. apply slots_get_lin in E; auto.
        rewrite Z.mod_small in E by lia. eauto. }
      destruct B as [|[a w] B].
      + cbn [length]. destruct (Z.ltb_spec (Z.of_nat e + Z.of_nat (length A) - 1 + 1) (Z.of_nat (e + (length A + 0)))); [lia|].
        intros x Hx. destruct (Hdom x Hx) as [y Hy]. rewrite app_nil_r in Hy. apply (HA _ Hy).
      + cbn [length]. destruct (Z.ltb_spec (Z.of_nat e + Z.of_nat (length A) - 1 + 1) (Z.of_nat (e + (length A + S (length B))))); [|lia].
        destruct (lin_found ty ks e A a w B ltac:(lia) Ha Hr) as (F1 & F2 & F3 & F4).
        replace (Z.of_nat e + Z.of_nat (length A) - 1 + 1) with (Z.of_nat (e + length A)) by lia.
        exists a, w. split; [|split; [apply (HB (a, w)); simpl; auto|]].
        * split; [apply (Hr (a, w)), in_elt|]. split; auto. split; auto. exists (Z.of_nat ks). destruct ks; [lia|]. cbn [pkey]. now rewrite F3.
        * intros x Hx Hlt. destruct (Hdom x Hx) as [y Hy]. apply in_app_or in Hy as [Hy|[Hy|Hy]]; [specialize (HA _ Hy); cbn [fst] in HA; lia|injection Hy; lia|].
          apply asc_app in Ha as (_ & Ha & _). destruct Ha as [Ha _]. specialize (Ha x (in_map fst _ _ Hy)). cbn [fst] in Ha. lia.
    - pose proof Hw as (ks' & -> & _ & _ & Hkk). set (b := kbyte (S ks') k) in *. rewrite slot_rad in Es. fold b in Es.
      assert (Hb : 0 <= b < 256) by apply kbyte_range. destruct (Hkk b) as [Hwb _].
      (* what the child on the stack says *)
      assert (Hsub : exists q0, p = b :: q0 /\
        match (match q0 with [] => None | _ => nxt (kids b) q0 end) with
        | Some q' => exists k' v, stands (S ks') (JRad kids) (b :: q') k' v /\ k < k' /\ forall x, dom_in (S ks') (JRad kids) x -> k < x -> k' <= x
        | None => forall x, dom_in (S ks') (JRad kids) x -> kbyte (S ks') x = b -> x <= k
        end).
      { assert (Hgo : forall q0 r0, kids b <> JNil -> (forall v, kids b <> JVal v) -> slot (kids b) ks' k = (q0, r0) ->
          match (match q0 with [] => None | _ => nxt (kids b) q0 end) with
          | Some q' => exists k' v, stands (S ks') (JRad kids) (b :: q') k' v /\ k < k' /\ forall x, dom_in (S ks') (JRad kids) x -> k < x -> k' <= x
          | None => forall x, dom_in (S ks') (JRad kids) x -> kbyte (S ks') x = b -> x <= k
          end).
        { intros q0 r0 Hnn Hnv Es0. assert (Hz' : ks' <> 0%nat).
          { intros ->. destruct (kids b) eqn:Ek; cbn [wf] in Hwb; [congruence|elim (Hnv v); auto|destruct Hwb; lia|destruct Hwb as (? & ? & _); discriminate]. }
          pose proof (slot_path (kids b) ks' k Hnn Hnv) as Hp. rewrite Es0 in Hp. cbn [fst] in Hp. destruct q0 as [|s q0]; [congruence|].
          rewrite (slot_mod _ ks' _ (k mod pw ks')) in Es0 by (auto; symmetry; apply Z.mod_mod; pose proof (pw_pos ks'); lia).
          specialize (IH b ks' (k mod pw ks') (s :: q0) r0 Hwb Hz' Hnn (mod_pw_range ks' k) Es0).
          destruct (nxt (kids b) (s :: q0)) as [q'|].
          - destruct IH as (k' & v & S1 & S2 & S3). exists (b * pw ks' + k'), v. split; [apply stands_rad; auto|].
            destruct S1 as [S1 _]. rewrite (key_join ks' k Hk). fold b. split; [lia|]. intros x Hx Hlt.
            destruct (dom_rad _ _ _ Hw Hx) as (D1 & D2 & D3). destruct Hx as [Hx _]. rewrite (key_join ks' x Hx) in Hlt |- *.
            pose proof (mod_pw_range ks' x). pose proof (mod_pw_range ks' k).
            destruct (Z.lt_trichotomy (kbyte (S ks') x) b) as [Hlb|[Eb|Hlb]]; [nia| |nia].
            rewrite Eb in *. assert (k' <= x mod pw ks'); [|lia]. apply S3; auto. lia.
          - intros x Hx Eb. destruct (dom_rad _ _ _ Hw Hx) as (D1 & D2 & D3). destruct Hx as [Hx _]. rewrite Eb in D3. specialize (IH _ D3).
            rewrite (key_join ks' x Hx), (key_join ks' k Hk). fold b. rewrite Eb. lia. }
        destruct (kids b) eqn:Ek.
        - injection Es as <- _. exists []. split; auto. intros x Hx Eb. destruct (dom_rad _ _ _ Hw Hx) as (D1 & D2 & D3). rewrite Eb in D2. contradiction.
        - injection Es as <- _. exists []. split; auto. cbn [wf] in Hwb. subst ks'. intros x [Hx _] Eb. rewrite (key_join 0 x Hx), (key_join 0 k Hk).
          fold b. rewrite Eb, pw_0, !Z.mod_1_r. lia.
        - destruct (slot (JLin ty slots) ks' k) as [q0 r0] eqn:Es0. injection Es as <- _. exists q0. split; auto. eapply Hgo; eauto; discriminate.
        - destruct (slot (JRad kids0) ks' k) as [q0 r0] eqn:Es0. injection Es as <- _. exists q0. split; auto. eapply Hgo; eauto; discriminate. }
      destruct Hsub as (q0 & -> & Hsub). cbn [nxt]. destruct (match q0 with [] => None | _ => nxt (kids b) q0 end) as [q'|]; [exact Hsub|].
      pose proof (find_asc (fun x => (b <? x) && occupied kids x) bytes bytes_asc) as Hf.
      destruct (find _ bytes) as [b'|].
      + destruct Hf as (F1 & F2 & F3). apply in_bytes in F1. apply andb_true_iff in F2 as [F2 F4]. apply Z.ltb_lt in F2. apply occ_iff in F4.
        destruct (kid_first kids ks' b' first Hw F1 F4 eq_refl) as (q & k' & v & K1 & K2 & K3 & K4).
        { intros Hz'. apply first_ok; auto. apply Hkk. }
        match goal with |- match ?t with _ => _ end => assert (E1 : t = Some q) by exact K1; rewrite E1; clear E1 end. exists k', v. split; [exact K2|]. destruct K2 as [K2 _]. split; [apply (key_lt ks'); auto; left; fold b; lia|].
        intros x Hx Hlt. apply K4; auto. destruct (dom_rad _ _ _ Hw Hx) as (D1 & D2 & _). pose proof Hx as [Hxr _]. pose proof Hlt as Hlt0.
        apply (key_lt ks') in Hlt as [Hlt|[Hlt _]]; auto; fold b in Hlt.
        * destruct (Z.le_gt_cases b' (kbyte (S ks') x)); auto. specialize (F3 _ (proj2 (in_bytes _) D1) ltac:(lia)). apply andb_false_iff in F3 as [F3|F3]; [lia|].
          apply occ_false in F3. contradiction.
        * exfalso. specialize (Hsub x Hx (eq_sym Hlt)). lia.
      + intros x Hx. destruct (dom_rad _ _ _ Hw Hx) as (D1 & D2 & _). specialize (Hf _ (proj2 (in_bytes _) D1)). pose proof Hx as [Hxr _].
        destruct (Z.lt_trichotomy (kbyte (S ks') x) b) as [Hlb|[Eb|Hlb]].
        * assert (x < k); [|lia]. apply (key_lt ks'); auto.
        * apply Hsub; auto.
        * apply andb_false_iff in Hf as [Hf|Hf]; [lia|]. apply occ_false in Hf. contradiction.
  Qed.

  (** ** Going backwards *)
  Lemma lin_stands ty ks e A a w B : (0 < ks)%nat -> asc (A ++ (a, w) :: B) -> (forall x, In x (A ++ (a, w) :: B) -> 0 <= fst x < pw ks) ->
    stands ks (JLin ty (lin e (A ++ (a, w) :: B))) [Z.of_nat (e + length A)] a w.
  Proof.
    intros Hks Ha Hr. destruct (lin_found ty ks e A a w B Hks Ha Hr) as (F1 & F2 & F3 & F4).
    split; [apply (Hr (a, w)), in_elt|]. split; auto. split; auto. exists (Z.of_nat ks). destruct ks; [lia|]. cbn [pkey]. now rewrite F3.
  Qed.

  Lemma lin_dom ty ks e L x : asc L -> dom_in ks (JLin ty (lin e L)) x -> exists y, In (x, y) L.
  Proof.
    intros Ha [Hx Hd]. cbn [lk] in Hd. destruct (slots_get _ _) as [y|] eqn:E; [|congruence]. apply slots_get_lin in E; auto.
    rewrite Z.mod_small in E by lia. eauto.
  Qed.

  Lemma wf_plain_nz ks n : wf ks n -> plain n -> n <> JNil -> ks <> 0%nat.
  Proof. intros Hw Hp Hn ->. destruct n; [congruence|contradiction|destruct Hw; lia|destruct Hw as (? & ? & _); discriminate]. Qed.

  Definition last_is (ks : nat) (n : jn) : Prop :=
    exists q k v, last n = Some (q, q) /\ stands ks n q k v /\ forall x, dom_in ks n x -> x <= k.

  Lemma kid_last kids ks b : wf (S ks) (JRad kids) -> plain (JRad kids) -> 0 <= b < 256 -> kids b <> JNil -> last_is ks (kids b) ->
    exists q k v, match kids b with JVal _ => Some ([b], [Z.land b 240]) | _ => option_map (fun x : path * path => (b :: fst x, b :: snd x)) (last (kids b)) end = Some (q, q) /\
      stands (S ks) (JRad kids) q k v /\ kbyte (S ks) k = b /\
      forall x, dom_in (S ks) (JRad kids) x -> kbyte (S ks) x <= b -> x <= k.
  Proof.
    intros Hw Hp Hb Hn (q & k & v & F1 & F2 & F3). pose proof Hw as (ks' & E & _ & _ & Hk). injection E as <-. destruct (Hk b) as [Hwb _].
    assert (Hz : ks <> 0%nat) by (apply (wf_plain_nz ks (kids b)); auto; apply Hp).
    exists (b :: q), (b * pw ks + k), v. split; [|split; [apply stands_rad; auto|]].
    - rewrite F1. cbn [option_map fst snd]. specialize (Hp b). destruct (kids b); auto. contradiction.
    - split; [apply kbyte_join; auto; apply F2|]. intros x Hx Hle. pose proof (dom_rad _ _ _ Hw Hx) as (D1 & D2 & D3).
      destruct Hx as [Hx _]. rewrite (key_join _ _ Hx). pose proof (mod_pw_range ks x). destruct F2 as [F2 _].
      destruct (Z.eq_dec (kbyte (S ks) x) b) as [Eb|Hne]; [|nia]. rewrite Eb in *. specialize (F3 _ D3). lia.
  Qed.

  Lemma last_ok n : forall ks, wf ks n -> plain n -> n <> JNil -> last_is ks n.
  Proof.
    induction n as [|v|ty sl|kids IH]; intros ks Hw Hp Hn; [congruence|contradiction| |].
    - destruct Hw as (Hks & _ & e & L & -> & Hne & Ha & Hr & _). destruct (exists_last Hne) as (A & [a w] & ->).
      exists [Z.of_nat (e + length A)], a, w. split; [|split; [apply lin_stands; auto; lia|]].
      + cbn [last]. rewrite lin_length, app_length. cbn [length]. replace (Z.of_nat (e + (length A + 1)) - 1) with (Z.of_nat (e + length A)) by lia. reflexivity.
      + intros x Hx. destruct (lin_dom _ _ _ _ _ Ha Hx) as [y Hy]. apply in_app_or in Hy as [Hy|[Hy|[]]]; [|injection Hy; lia].
        apply asc_app in Ha as (_ & _ & Ha). specialize (Ha _ (a, w) Hy ltac:(simpl; auto)). cbn [fst] in Ha. lia.
    - pose proof Hw as (ks' & -> & _ & (b0 & Hb0) & Hk). pose proof (find_desc (occupied kids) bytes bytes_asc) as Hf. unfold last_is. cbn [last].
      destruct (find (occupied kids) (rev bytes)) as [b|].
      + destruct Hf as (F1 & F2 & F3). apply in_bytes in F1. apply occ_iff in F2.
        destruct (kid_last kids ks' b Hw Hp F1 F2) as (q & k & v & K1 & K2 & K3 & K4).
        { apply IH; auto. apply Hk. }
        exists q, k, v. split; [exact K1|]. split; [exact K2|]. intros x Hx. apply K4; auto. destruct (dom_rad _ _ _ Hw Hx) as (D1 & D2 & _).
        destruct (Z.le_gt_cases (kbyte (S ks') x) b); auto. specialize (F3 _ (proj2 (in_bytes _) D1) ltac:(lia)). apply occ_false in F3. contradiction.
      + exfalso. destruct (Hk b0) as [_ Ho]. assert (Hr : 0 <= b0 < 256) by (destruct (Z_le_dec 0 b0), (Z_lt_dec b0 256); try lia; elim Hb0; apply Ho; lia).
        specialize (Hf b0 (proj2 (in_bytes _) Hr)). apply occ_false in Hf. contradiction.
  Qed.

  Lemma slot_cell_empty e L s : 0 <= s < Z.of_nat e -> slot_cell (lin e L) s = None.
  Proof.
    intros H. unfold slot_cell, lin. rewrite nth_error_app1 by (rewrite repeat_length; lia).
    destruct (nth_error (repeat (0, @None V) e) (Z.to_nat s)) eqn:E; auto. apply nth_error_In, repeat_spec in E. subst. reflexivity.
  Qed.

  Lemma prv_ok n : forall ks k p, wf ks n -> plain n -> n <> JNil -> 0 <= k < pw ks -> slot n ks k = (p, Some p) ->
    match prv n p with
    | Some (q, l) => l = q /\ exists k' v, stands ks n q k' v /\ k' < k /\ forall x, dom_in ks n x -> x < k -> x <= k'
    | None => forall x, dom_in ks n x -> k <= x
    end.
  Proof.
    induction n as [|v|ty sl|kids IH]; intros ks k p Hw Hp Hn Hk Es; [congruence|contradiction| |].
    - destruct Hw as (Hks & _ & e & L & -> & Hne & Ha & Hr & _). cbn [slot] in Es. rewrite Z.mod_small in Es by lia.
      destruct (asc_split L k Ha) as (A & B & -> & HA & HB). rewrite (scan_lin k e A B) in Es by (auto; lia). injection Es as <- Es.
      set (s := Z.of_nat e + Z.of_nat (length A) - 1) in *.
      destruct (Z.leb_spec 0 s) as [Hs|Hs]; cbn [andb] in Es; [|discriminate]. destruct (Z.eqb_spec (slot_key (lin e (A ++ B)) s) k) as [Ek|]; [clear Es|discriminate].
      cbn [prv]. assert (Es' : s = Z.of_nat e + Z.of_nat (length A) - 1) by reflexivity. clearbody s.
      assert (Hmin : forall A', (A = A' \/ exists x, A = A' ++ [x]) -> A' = [] -> forall x, dom_in ks (JLin ty (lin e (A ++ B))) x -> k <= x).
      { intros A' HA' -> x Hx. destruct (lin_dom _ _ _ _ _ Ha Hx) as [y Hy]. apply in_app_or in Hy as [Hy|Hy]; [|specialize (HB _ Hy); cbn [fst] in HB; lia].
        destruct HA' as [-> |[[a w] ->]]; [destruct Hy|]. destruct Hy as [Hy|[]]. injection Hy as -> ->.
        destruct (slot_at (lin e (([] ++ [(x, y)]) ++ B)) _ _ _ s (lin_mid e [] x y B)) as [K1 _]; [rewrite lin_pre; cbn [length app] in Es' |- *; lia|].
        cbn [app] in Ek, K1. rewrite K1 in Ek. cbn [fst] in Ek. lia. }
      destruct A as [|x0 A0] eqn:EA.
      + (* the empty cell of key 0 *)
        assert (Hall := Hmin [] (or_introl eq_refl) eq_refl). destruct (Z.eqb_spec s 0); [exact Hall|].
        rewrite slot_cell_empty; [exact Hall|]. cbn [length] in *. lia.
      + rewrite <- EA in *. assert (HneA : A <> []) by (rewrite EA; discriminate). destruct (exists_last HneA) as (A' & [a w] & EA').
        clear EA x0 A0 HneA. rewrite EA' in *.
        assert (Es2 : s = Z.of_nat (e + length A')) by (rewrite Es', app_length; cbn [length]; lia). clear Es'. subst s.
        destruct (slot_at _ _ _ _ (Z.of_nat (e + length A')) (lin_mid e A' a w B)) as [K1 _]; [now rewrite lin_pre|].
        rewrite K1 in Ek. cbn [fst] in Ek. subst a. clear K1.
        destruct A' as [|x0 A0] eqn:EA0.
        * assert (Hall := Hmin [] (or_intror (ex_intro _ (k, w) eq_refl)) eq_refl).
          destruct (Z.eqb_spec (Z.of_nat (e + length (@nil (Z * V)))) 0); [exact Hall|].
          rewrite slot_cell_empty; [exact Hall|]. cbn [length] in *. lia.
        * rewrite <- EA0 in *. assert (HneA : A' <> []) by (rewrite EA0; discriminate). destruct (exists_last HneA) as (A2 & [a2 w2] & EA2).
          clear EA0 x0 A0 HneA. rewrite EA2 in *. clear EA2 EA' Hmin. rewrite <- !app_assoc in *. cbn [app] in *.
          rewrite app_length. cbn [length]. destruct (Z.eqb_spec (Z.of_nat (e + (length A2 + 1))) 0); [lia|].
          replace (Z.of_nat (e + (length A2 + 1)) - 1) with (Z.of_nat (e + length A2)) by lia.
          destruct (lin_found ty ks e A2 a2 w2 ((k, w) :: B) ltac:(lia) Ha Hr) as (_ & _ & _ & F4). rewrite F4.
          split; auto. exists a2, w2. split; [apply lin_stands; auto; lia|].
          pose proof Ha as Ha'. apply asc_app in Ha' as (H1 & H2 & H3). destruct H2 as [H2 H4]. split; [apply H2; simpl; auto|].
          intros x Hx Hlt. destruct (lin_dom _ _ _ _ _ Ha Hx) as [y Hy]. apply in_app_or in Hy as [Hy|[Hy|[Hy|Hy]]].
          -- specialize (H3 _ (a2, w2) Hy ltac:(simpl; auto)). cbn [fst] in H3. lia.
          -- injection Hy; lia.
          -- injection Hy; lia.
          -- specialize (HB _ Hy). cbn [fst] in HB. lia.
    - pose proof Hw as (ks' & -> & _ & _ & Hkk). set (b := kbyte (S ks') k) in *. rewrite slot_rad in Es. fold b in Es.
      assert (Hb : 0 <= b < 256) by apply kbyte_range. destruct (Hkk b) as [Hwb _]. pose proof (Hp b) as Hpb.
      assert (Hsub : exists q0, p = b :: q0 /\
        match (match q0 with [] => None | _ => prv (kids b) q0 end) with
        | Some (q', l) => l = q' /\ exists k' v, stands (S ks') (JRad kids) (b :: q') k' v /\ k' < k /\ forall x, dom_in (S ks') (JRad kids) x -> x < k -> x <= k'
        | None => forall x, dom_in (S ks') (JRad kids) x -> kbyte (S ks') x = b -> k <= x
        end).
      { assert (Hnn : kids b <> JNil) by (intros E; rewrite E in Es; discriminate).
        assert (Hz' : ks' <> 0%nat) by (apply (wf_plain_nz ks' (kids b)); auto).
        assert (Hnv : forall v, kids b <> JVal v) by (intros v E; rewrite E in Hpb; contradiction).
        destruct (slot (kids b) ks' k) as [q0 r0] eqn:Es0.
        assert (Ep : p = b :: q0 /\ r0 = Some q0).
        { destruct (kids b) eqn:Ek; [congruence|elim (Hnv v); auto| |]; injection Es as <- Es; destruct r0; inversion Es; auto. }
        destruct Ep as [-> ->]. clear Es. exists q0. split; auto.
        pose proof (slot_path (kids b) ks' k Hnn Hnv) as Hp0. rewrite Es0 in Hp0. cbn [fst] in Hp0. destruct q0 as [|s q0]; [congruence|].
        rewrite (slot_mod _ ks' _ (k mod pw ks')) in Es0 by (auto; symmetry; apply Z.mod_mod; pose proof (pw_pos ks'); lia).
        specialize (IH b ks' (k mod pw ks') (s :: q0) Hwb Hpb Hnn (mod_pw_range ks' k) Es0).
        destruct (prv (kids b) (s :: q0)) as [[q' l]|].
        - destruct IH as (-> & k' & v & S1 & S2 & S3). split; auto. exists (b * pw ks' + k'), v. split; [apply stands_rad; auto|].
          destruct S1 as [S1 _]. rewrite (key_join ks' k Hk). fold b. split; [lia|]. intros x Hx Hlt.
          destruct (dom_rad _ _ _ Hw Hx) as (D1 & D2 & D3). destruct Hx as [Hx _]. rewrite (key_join ks' x Hx) in Hlt |- *.
          pose proof (mod_pw_range ks' x). pose proof (mod_pw_range ks' k).
          destruct (Z.lt_trichotomy (kbyte (S ks') x) b) as [Hlb|[Eb|Hlb]]; [nia| |nia].
          rewrite Eb in *. assert (x mod pw ks' <= k'); [|lia]. apply S3; auto. lia.
        - intros x Hx Eb. destruct (dom_rad _ _ _ Hw Hx) as (D1 & D2 & D3). destruct Hx as [Hx _]. rewrite Eb in D3. specialize (IH _ D3).
          rewrite (key_join ks' x Hx), (key_join ks' k Hk). fold b. rewrite Eb. lia. }
      destruct Hsub as (q0 & -> & Hsub). cbn [prv]. destruct (match q0 with [] => None | _ => prv (kids b) q0 end) as [[q' l]|].
      { destruct Hsub as [-> Hsub]. split; auto. }
      pose proof (find_desc (fun x => (x <? b) && occupied kids x) bytes bytes_asc) as Hf.
      destruct (find _ (rev bytes)) as [b'|].
      + destruct Hf as (F1 & F2 & F3). apply in_bytes in F1. apply andb_true_iff in F2 as [F2 F4]. apply Z.ltb_lt in F2. apply occ_iff in F4.
        destruct (kid_last kids ks' b' Hw Hp F1 F4) as (q & k' & v & K1 & K2 & K3 & K4).
        { apply last_ok; auto. apply Hkk. }
        match goal with |- match ?t with _ => _ end => assert (E1 : t = Some (q, q)) by exact K1; rewrite E1; clear E1 end.
        split; auto. exists k', v. split; [exact K2|]. destruct K2 as [K2 _]. split; [apply (key_lt ks'); auto; left; fold b; lia|].
        intros x Hx Hlt. apply K4; auto. destruct (dom_rad _ _ _ Hw Hx) as (D1 & D2 & _). pose proof Hx as [Hxr _]. pose proof Hlt as Hlt0.
        apply (key_lt ks') in Hlt as [Hlt|[Hlt _]]; auto; fold b in Hlt.
        * destruct (Z.le_gt_cases (kbyte (S ks') x) b'); auto. specialize (F3 _ (proj2 (in_bytes _) D1) ltac:(lia)). apply andb_false_iff in F3 as [F3|F3]; [lia|].
          apply occ_false in F3. contradiction.
        * exfalso. specialize (Hsub x Hx Hlt). lia.
      + intros x Hx. destruct (dom_rad _ _ _ Hw Hx) as (D1 & D2 & _). specialize (Hf _ (proj2 (in_bytes _) D1)). pose proof Hx as [Hxr _].
        destruct (Z.lt_trichotomy (kbyte (S ks') x) b) as [Hlb|[Eb|Hlb]].
        * apply andb_false_iff in Hf as [Hf|Hf]; [lia|]. apply occ_false in Hf. contradiction.
        * apply Hsub; auto.
        * assert (k < x); [|lia]. apply (key_lt ks'); auto.
  Qed.
End JudyFacts.
