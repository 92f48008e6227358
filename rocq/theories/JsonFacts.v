(** Facts about JSON texts: numbers, tokens, the parser. *)
From Coq Require Import String Sorted.
From Verif Require Import Base ReplayModel JsonModel StoreModel JsonSpec Utf8Facts.

(** ** Numbers *)
Definition dig (c : Z) : Prop := 48 <= c <= 57.

Lemma digits2_digits f : forall f' x acc, f <> O -> f' <> O -> 0 <= x < 100 ^ Z.of_nat f -> 0 <= x < 10 ^ Z.of_nat f' ->
  digits2 f x acc = digits f' x acc.
Proof.
  induction f as [|f IH]; intros f' x acc Hf Hf' H H'.
  - congruence.
  - cbn [digits2]. clear Hf. rewrite Nat2Z.inj_succ, Z.pow_succ_r in H by lia.
    destruct f' as [|f']; [congruence|]. clear Hf'. rewrite Nat2Z.inj_succ, Z.pow_succ_r in H' by lia. cbn [digits].
    destruct (Z.leb_spec 100 x) as [L | L].
    + replace (x <? 10) with false by lia.
      destruct f' as [|f']; [cbn in H'; lia|]. rewrite Nat2Z.inj_succ, Z.pow_succ_r in H' by lia. cbn [digits].
      assert (10 <= x / 10) by (apply Z.div_le_lower_bound; lia).
      replace (x / 10 <? 10) with false by lia.
      assert (E : x / 100 = x / 10 / 10) by (rewrite Z.div_div by lia; reflexivity).
      assert (E1 : x mod 100 / 10 = x / 10 mod 10).
      { pose proof (Z.div_mod x 100 ltac:(lia)). pose proof (Z.div_mod (x / 10) 10 ltac:(lia)).
        pose proof (Z.div_mod x 10 ltac:(lia)). pose proof (Z.mod_pos_bound x 100 ltac:(lia)).
        pose proof (Z.mod_pos_bound x 10 ltac:(lia)). pose proof (Z.mod_pos_bound (x / 10) 10 ltac:(lia)).
        symmetry. apply Z.div_unique with (x mod 10); lia. }
      assert (E2 : x mod 100 mod 10 = x mod 10).
      { pose proof (Z.div_mod x 100 ltac:(lia)).
        rewrite (Z.div_mod x 100) at 2 by lia. replace (100 * (x / 100) + x mod 100) with (x mod 100 + (x / 100 * 10) * 10) by lia.
        rewrite Z_mod_plus_full. reflexivity. }
      assert (1 <= x / 100) by (apply Z.div_le_lower_bound; lia).
      assert (x / 100 < 100 ^ Z.of_nat f) by (apply Z.div_lt_upper_bound; lia).
      rewrite E1, E2, E. apply IH.
      * intros ->. cbn in *. lia.
      * intros ->. cbn in *. lia.
      * split; [apply Z.div_pos; [apply Z.div_pos|]; lia|]. rewrite <- E. apply Z.div_lt_upper_bound; lia.
      * split; [apply Z.div_pos; [apply Z.div_pos|]; lia|]. rewrite <- E. apply Z.div_lt_upper_bound; lia.
    + destruct (Z.leb_spec 10 x) as [L' | L'].
      * replace (x <? 10) with false by lia.
        destruct f' as [|f']; [cbn in H'; lia|]. cbn [digits].
        assert (x / 10 < 10) by (apply Z.div_lt_upper_bound; lia). replace (x / 10 <? 10) with true by lia. reflexivity.
      * replace (x <? 10) with true by lia. reflexivity.
Qed.

Lemma value_app d acc v : fold_left (fun v c => v * 10 + (c - 48)) (d ++ acc) v =
  fold_left (fun v c => v * 10 + (c - 48)) acc (fold_left (fun v c => v * 10 + (c - 48)) d v).
Proof. apply fold_left_app. Qed.

(** The digits of a number: its value, its length, its first digit. *)
Lemma digits_ok f : forall x acc, 0 <= x < 10 ^ Z.of_nat f -> (f <> O) -> exists d,
  digits f x acc = d ++ acc /\ value d = x /\ Forall dig d /\
  (x = 0 -> d = [48]) /\
  (0 < x -> exists c t, d = c :: t /\ 49 <= c <= 57 /\ 10 ^ (Z.of_nat (length t)) <= x < 10 ^ (Z.of_nat (length t) + 1)).
Proof.
  induction f as [|f IH]; intros x acc H Hf; [congruence|]. clear Hf.
  rewrite Nat2Z.inj_succ, Z.pow_succ_r in H by lia. cbn [digits].
  destruct (Z.ltb_spec x 10) as [L | L].
  - exists [48 + x]. repeat split.
    + unfold value. cbn [fold_left]. lia.
    + constructor; [unfold dig; lia | constructor].
    + intros ->. reflexivity.
    + intros P. exists (48 + x), []. cbn [length]. change (10 ^ Z.of_nat 0) with 1. change (10 ^ (Z.of_nat 0 + 1)) with 10. repeat split; lia.
  - assert (1 <= x / 10) by (apply Z.div_le_lower_bound; lia).
    assert (x / 10 < 10 ^ Z.of_nat f) by (apply Z.div_lt_upper_bound; lia).
    assert (f <> O) by (intros ->; cbn in *; lia).
    destruct (IH (x / 10) (48 + x mod 10 :: acc)) as (d & E & V & D & _ & F); [lia | assumption|].
    pose proof (Z.mod_pos_bound x 10 ltac:(lia)). pose proof (Z.div_mod x 10 ltac:(lia)) as DM.
    exists (d ++ [48 + x mod 10]). rewrite E, <- app_assoc. repeat split.
    + unfold value in *. rewrite value_app, V. cbn [fold_left]. lia.
    + apply Forall_app. split; [exact D | constructor; [unfold dig; lia | constructor]].
    + lia.
    + intros P. destruct (F ltac:(lia)) as (c & t & -> & Hc & B1 & B2).
      exists c, (t ++ [48 + x mod 10]). repeat split; try lia.
      * rewrite app_length. cbn [length]. rewrite Nat2Z.inj_add. rewrite Z.pow_add_r by lia.
        change (10 ^ Z.of_nat 1) with 10. nia.
      * rewrite app_length. cbn [length]. rewrite Nat2Z.inj_add.
        replace (Z.of_nat (length t) + Z.of_nat 1 + 1) with ((Z.of_nat (length t) + 1) + 1) by lia.
        rewrite Z.pow_add_r by lia. change (10 ^ 1) with 10. nia.
Qed.

Lemma count_ok f : forall x n, 0 < x < 10000 ^ Z.of_nat f -> 0 <= n ->
  exists k, count_digits f x n = n + k /\ 0 <= k /\ 10 ^ k <= x < 10 ^ (k + 1).
Proof.
  induction f as [|f IH]; intros x n H Hn.
  - cbn in H. lia.
  - rewrite Nat2Z.inj_succ, Z.pow_succ_r in H by lia. cbn [count_digits].
    destruct (Z.ltb_spec x 10); [exists 0; cbn; lia|].
    destruct (Z.ltb_spec x 100); [exists 1; cbn; lia|].
    destruct (Z.ltb_spec x 1000); [exists 2; cbn; lia|].
    destruct (Z.ltb_spec x 10000); [exists 3; cbn; lia|].
    assert (1 <= x / 10000) by (apply Z.div_le_lower_bound; lia).
    destruct (IH (x / 10000) (n + 4)) as (k & E & K & B1 & B2);
      [split; [lia | apply Z.div_lt_upper_bound; lia] | lia |].
    pose proof (Z.mod_pos_bound x 10000 ltac:(lia)). pose proof (Z.div_mod x 10000 ltac:(lia)) as DM.
    exists (k + 4). rewrite E. split; [lia|]. split; [lia|].
    replace (k + 4 + 1) with ((k + 1) + 4) by lia. rewrite !(Z.pow_add_r 10 _ 4) by lia.
    change (10 ^ 4) with 10000. nia.
Qed.

Lemma pow10_unique a b x : 0 <= a -> 0 <= b -> 10 ^ a <= x < 10 ^ (a + 1) -> 10 ^ b <= x < 10 ^ (b + 1) -> a = b.
Proof.
  intros Ha Hb H1 H2. destruct (Z.lt_trichotomy a b) as [L | [E | L]]; [exfalso | exact E | exfalso].
  - pose proof (Z.pow_le_mono_r 10 (a + 1) b ltac:(lia) ltac:(lia)). lia.
  - pose proof (Z.pow_le_mono_r 10 (b + 1) a ltac:(lia) ltac:(lia)). lia.
Qed.

Lemma pow20 x : x < 2 ^ 64 -> x < 10 ^ Z.of_nat 20 /\ x < 100 ^ Z.of_nat 20 /\ x < 10000 ^ Z.of_nat 20.
Proof.
  intros H. assert (E : 2 ^ 64 <= 10 ^ Z.of_nat 20) by (vm_compute; congruence).
  assert (E1 : 10 ^ Z.of_nat 20 <= 100 ^ Z.of_nat 20) by (vm_compute; congruence).
  assert (E2 : 100 ^ Z.of_nat 20 <= 10000 ^ Z.of_nat 20) by (vm_compute; congruence). lia.
Qed.

(** The serializer writes a number as [%ld] does. *)
Lemma dump_integer_show x : - 2 ^ 64 < x < 2 ^ 64 -> dump_integer x = DOk (show_d x).
Proof.
  intros H. unfold dump_integer, show_d. destruct (Z.eqb_spec x 0) as [-> | N]; [reflexivity|].
  unfold dump_abs. set (a := Z.abs x). assert (Ha : 0 < a < 2 ^ 64) by lia.
  destruct (pow20 a ltac:(lia)) as (P1 & P2 & P3).
  rewrite (digits2_digits 20 20 a []) by lia.
  destruct (digits_ok 20 a [] ltac:(lia) ltac:(lia)) as (d & E & _ & _ & _ & F).
  destruct (F ltac:(lia)) as (c & t & -> & _ & B).
  destruct (count_ok 20 a 1 ltac:(lia) ltac:(lia)) as (k & Ec & K & B').
  assert (k = Z.of_nat (length t)) by (apply (pow10_unique k (Z.of_nat (length t)) a); lia).
  assert (Hk : k < 20).
  { destruct (Z.ltb_spec k 20); [assumption | exfalso].
    pose proof (Z.pow_le_mono_r 10 20 k ltac:(lia) ltac:(lia)). change (Z.of_nat 20) with 20 in P1. lia. }
  rewrite E, app_nil_r in *. rewrite Ec. cbn [length].
  replace (Z.of_nat (S (length t)) =? 1 + k) with true by lia.
  replace (1 + k + (if x <? 0 then 1 else 0) <? 63) with true by (destruct (x <? 0); lia).
  cbn [andb]. destruct (Z.ltb_spec x 0) as [L | L].
  - replace (- x) with a by lia. rewrite E. reflexivity.
  - replace x with a by lia. rewrite E. reflexivity.
Qed.

(** ** Tokens *)
Definition terminal (t : token) : bool := match t with TEnd | TErr | TFuel => true | _ => false end.

Lemma in_range_len rs : forall acc l b r, in_range rs acc l = SAdd b r -> (length r <= length l)%nat.
Proof.
  induction rs as [|(lo, hi) rs IH]; cbn [in_range]; intros acc l b r H.
  - injection H as <- <-. lia.
  - destruct l as [|c l]; [discriminate|]. destruct (_ && _); [|discriminate]. apply IH in H. cbn [length]. lia.
Qed.

Lemma in_range_end rs : forall acc l r, in_range rs acc l <> SEnd r.
Proof.
  induction rs as [|(lo, hi) rs IH]; cbn [in_range]; intros acc l r; [discriminate|].
  destruct l as [|c l]; [discriminate|]. destruct (_ && _); [apply IH | discriminate].
Qed.

Lemma codepoint_len l c r : get_codepoint l = Some (c, r) -> (length r < length l)%nat.
Proof.
  unfold get_codepoint. destruct l as [|a [|b [|e [|d t]]]]; try discriminate.
  destruct (unhex a), (unhex b), (unhex e), (unhex d); try discriminate.
  intros H. injection H as _ <-. cbn [length]. lia.
Qed.

Lemma scan_u_len l : match scan_u l with SAdd _ r => (length r < length l)%nat | SEnd _ => False | SBad => True end.
Proof.
  unfold scan_u. destruct (get_codepoint l) as [(c1, l1)|] eqn:E1; [|exact I].
  pose proof (codepoint_len _ _ _ E1) as L1.
  destruct (_ && _).
  - destruct l1 as [|x1 [|x2 l1]]; try exact I. destruct (_ && _); [|exact I].
    destruct (get_codepoint l1) as [(c2, l2)|] eqn:E2; [|exact I].
    pose proof (codepoint_len _ _ _ E2). destruct (_ && _); [|exact I]. cbn [length] in L1. lia.
  - destruct (_ && _); [exact I | exact L1].
Qed.

Lemma scan_char_len l : match scan_char l with
                        | SAdd _ r | SEnd r => (length r < length l)%nat
                        | SBad => True
                        end.
Proof.
  assert (R : forall rs acc l, match in_range rs acc l with
     | SAdd _ r | SEnd r => (length r < S (length l))%nat | SBad => True end).
  { intros rs acc k. destruct (in_range rs acc k) eqn:E; [exfalso; apply (in_range_end rs acc k rest E) | | exact I].
    apply in_range_len in E. lia. }
  destruct l as [|c l]; [exact I|]. cbn [scan_char length].
  destruct (c =? 34); [lia|]. destruct (c =? 92).
  - destruct l as [|e l]; [exact I|]. cbn [length].
    pose proof (scan_u_len l) as U.
    repeat match goal with |- context [if ?c then _ else _] => destruct c; [lia|] end.
    destruct (e =? 117); [|exact I]. destruct (scan_u l); try lia; contradiction.
  - destruct (c <=? 31); [exact I|]. destruct (c <=? 127); [lia|].
    repeat match goal with |- context [if ?c then _ else _] => destruct c; [apply R|] end. exact I.
Qed.

Lemma scan_string_len f : forall acc l t r, scan_string f acc l = (t, r) -> (length r <= length l)%nat.
Proof.
  induction f as [|f IH]; cbn [scan_string]; intros acc l t r H.
  - injection H as _ <-. lia.
  - pose proof (scan_char_len l). destruct (scan_char l).
    + injection H as _ <-. lia.
    + apply IH in H. lia.
    + injection H as _ <-. lia.
Qed.

Lemma scan_num_len l : forall s neg fl acc t r, scan_num s neg fl acc l = (t, r) -> (length r <= length l)%nat.
Proof.
  induction l as [|c l IH]; cbn [scan_num]; intros s neg fl acc t r H.
  - destruct (num_next s (-1)); injection H as _ <-; cbn [length]; lia.
  - destruct (num_next s c); [apply IH in H; cbn [length]; lia | injection H as _ <-; cbn [length]; lia ..].
Qed.

Lemma scan_literal_len x : forall tok l t r, scan_literal x tok l = (t, r) -> (length r <= length l)%nat.
Proof.
  induction x as [|a x IH]; cbn [scan_literal]; intros tok l t r H.
  - injection H as _ <-. lia.
  - destruct l as [|c l]; [injection H as _ <-; cbn [length]; lia|].
    destruct (c =? a); [apply IH in H | injection H as _ <-]; cbn [length]; lia.
Qed.

Lemma skip_space_len l : (length (skip_space l) <= length l)%nat.
Proof. induction l as [|c l IH]; cbn [skip_space]; [lia|]. destruct (is_space c); cbn [length] in *; lia. Qed.

Lemma scan_len l t r : scan l = (t, r) -> terminal t = false -> (length r < length l)%nat.
Proof.
  unfold scan. pose proof (skip_space_len l) as S. destruct (skip_space l) as [|c k].
  - intros H T. injection H as <- <-. discriminate.
  - cbn [length] in S. intros H T.
    repeat match type of H with
      | (if ?c then _ else _) = _ => destruct c
      end;
    first [ injection H as <- <-; first [discriminate | lia]
          | apply scan_literal_len in H; lia | apply scan_string_len in H; lia | apply scan_num_len in H; lia ].
Qed.

(** Enough fuel: as many turns as there are bytes, and one. *)
Definition lexx (l : bytes) : list token := lex (S (length l)) l.

Lemma lex_fuel f : forall f' l, (length l < f)%nat -> (length l < f')%nat -> lex f l = lex f' l.
Proof.
  induction f as [|f IH]; intros f' l H H'; [lia|]. destruct f' as [|f']; [lia|]. cbn [lex].
  destruct (scan l) as (t, r) eqn:E. pose proof (scan_len l t r E) as L.
  destruct t; try reflexivity; rewrite (IH f' r) by (specialize (L eq_refl); lia); reflexivity.
Qed.

Lemma lexx_step l t r : scan l = (t, r) -> terminal t = false -> lexx l = t :: lexx r.
Proof.
  intros E T. unfold lexx at 1. cbn [lex]. rewrite E. pose proof (scan_len l t r E T).
  rewrite (lex_fuel (length l) (S (length r)) r) by lia. destruct t; try discriminate; reflexivity.
Qed.

(** A number must not be followed by what could continue it. *)
Definition stop (r : bytes) : Prop :=
  match r with [] => True | c :: _ => ~ dig c /\ c <> 46 /\ c <> 101 /\ c <> 69 end.

Lemma scan_num_digits d : forall r neg acc, Forall dig d -> stop r ->
  scan_num NAny1 neg false acc (d ++ r) = (number neg false (rev acc ++ d), r).
Proof.
  induction d as [|c d IH]; intros r neg acc D Sr.
  - rewrite app_nil_r. cbn [app]. destruct r as [|c r]; [reflexivity|]. cbn [scan_num num_next]. cbn [stop] in Sr.
    destruct Sr as (S1 & S2 & S3 & S4). unfold dig in S1. unfold is_digit. ifs. reflexivity.
  - inversion D; subst. unfold dig in H1. cbn [app scan_num num_next]. unfold is_digit.
    replace ((48 <=? c) && (c <=? 57)) with true by lia. cbn [floats]. rewrite IH by assumption.
    cbn [rev]. rewrite <- app_assoc. reflexivity.
Qed.

(** The token of a number. *)
Definition num_tok (x : Z) : token := if x <? 0 then TInt x else TUns x.

Lemma scan_show x r : - 2 ^ 63 <= x < 2 ^ 64 -> stop r -> scan (show_d x ++ r) = (num_tok x, r).
Proof.
  intros H Sr. unfold show_d, num_tok.
  destruct (Z.ltb_spec x 0) as [L | L].
  - destruct (pow20 (- x) ltac:(lia)) as (P1 & _ & _).
    destruct (digits_ok 20 (- x) [] ltac:(lia) ltac:(lia)) as (d & E & V & D & _ & F).
    destruct (F ltac:(lia)) as (c & t & -> & Hc & _). rewrite E, app_nil_r. cbn [app].
    unfold scan. cbn [skip_space is_space Z.eqb orb Pos.eqb].
    assert (Ez : scan_num NMinus true false [] (c :: t ++ r) = (TInt x, r)); [|exact Ez].
    apply Forall_inv_tail in D. cbn [scan_num num_next]. unfold is_digit.
    replace (c =? 48) with false by lia. replace ((48 <=? c) && (c <=? 57)) with true by lia. cbn [floats].
    rewrite scan_num_digits by assumption. unfold number. cbn [rev app]. rewrite V.
    replace (- x <=? 2 ^ 63) with true by lia. f_equal. f_equal. lia.
  - destruct (pow20 x ltac:(lia)) as (P1 & _ & _).
    destruct (digits_ok 20 x [] ltac:(lia) ltac:(lia)) as (d & E & V & D & Z0 & F). rewrite E, app_nil_r.
    destruct (Z.eq_dec x 0) as [-> | N].
    + rewrite (Z0 eq_refl). unfold scan. cbn [app skip_space is_space Z.eqb orb Pos.eqb].
      assert (Ez : scan_num NZero false false [48] r = (TUns 0, r)); [|exact Ez].
      destruct r as [|c r]; [reflexivity|]. cbn [scan_num num_next]. cbn [stop] in Sr.
      destruct Sr as (S1 & S2 & S3 & S4). ifs. reflexivity.
    + destruct (F ltac:(lia)) as (c & t & -> & Hc & _). cbn [app]. apply Forall_inv_tail in D.
      assert (Ez : scan (c :: t ++ r) = scan_num NAny1 false false [c] (t ++ r)).
      { unfold scan. cbn [skip_space]. unfold is_space, is_digit. ifs. reflexivity. }
      rewrite Ez, scan_num_digits by assumption. unfold number. cbn [rev app]. rewrite V.
      unfold M64. replace (x <? 2 ^ 64) with true by lia. reflexivity.
Qed.

(** ** Values *)
Section JsonInd.
  Variable P : json -> Prop.
  Hypothesis Hnull : P JNull.
  Hypothesis Hbool : forall b, P (JBool b).
  Hypothesis Hint : forall z, P (JInt z).
  Hypothesis Huns : forall z, P (JUns z).
  Hypothesis Hfloat : forall z, P (JFloat z).
  Hypothesis Hstr : forall s, P (JStr s).
  Hypothesis Harr : forall l, Forall P l -> P (JArr l).
  Hypothesis Hobj : forall m, Forall (fun kv => P (snd kv)) m -> P (JObj m).
  Fixpoint json_rec' (j : json) : P j :=
    match j with
    | JNull => Hnull
    | JBool b => Hbool b
    | JInt z => Hint z
    | JUns z => Huns z
    | JFloat z => Hfloat z
    | JStr s => Hstr s
    | JArr l => Harr l ((fix go (l : list json) : Forall P l :=
                           match l with
                           | [] => Forall_nil P
                           | x :: t => Forall_cons x (json_rec' x) (go t)
                           end) l)
    | JObj m => Hobj m ((fix go (m : list (bytes * json)) : Forall (fun kv => P (snd kv)) m :=
                           match m with
                           | [] => Forall_nil _
                           | kv :: t => Forall_cons kv (json_rec' (snd kv)) (go t)
                           end) m)
    end.
End JsonInd.

(** [good_json] but for the order of keys. *)
Inductive raw_ok : json -> Prop :=
| r_null : raw_ok JNull
| r_bool b : raw_ok (JBool b)
| r_int z : - 2 ^ 63 <= z < 2 ^ 63 -> raw_ok (JInt z)
| r_uns z : 0 <= z < 2 ^ 64 -> raw_ok (JUns z)
| r_str s : utf8 s -> raw_ok (JStr s)
| r_arr l : Forall raw_ok l -> raw_ok (JArr l)
| r_obj m : Forall (fun kv => utf8 (fst kv)) m -> Forall (fun kv => raw_ok (snd kv)) m -> raw_ok (JObj m).

Lemma good_raw j : good_json j -> raw_ok j.
Proof.
  induction j as [| | | | | |l IH|m IH] using json_rec'; intros G; inversion G; subst; constructor; auto.
  - apply Forall_forall. intros x Hx. rewrite Forall_forall in *. auto.
  - apply Forall_forall. intros x Hx. rewrite Forall_forall in *. auto.
Qed.

(** The inner loops of [dump] and [toks] by name. *)
Fixpoint delems (l : list json) : dres :=
  match l with
  | [] => DOk []
  | x :: t => dbind (dump x) (fun a => match t with
                                       | [] => DOk (a ++ [93])
                                       | _ => dapp (a ++ [44]) (delems t)
                                       end)
  end.
Fixpoint dmembers (m : list (bytes * json)) : dres :=
  match m with
  | [] => DOk []
  | (k, x) :: t =>
      dbind (dump_str k) (fun a => dbind (dump x) (fun b => match t with
                                          | [] => DOk (a ++ 58 :: b ++ [125])
                                          | _ => dapp (a ++ 58 :: b ++ [44]) (dmembers t)
                                          end))
  end.
Lemma dump_arr l : dump (JArr l) = match l with [] => DOk (bs "[]") | _ => dapp [91] (delems l) end.
Proof. reflexivity. Qed.
Lemma dump_obj m : dump (JObj m) = match m with [] => DOk (bs "{}") | _ => dapp [123] (dmembers m) end.
Proof. reflexivity. Qed.

Fixpoint toks (j : json) : list token :=
  match j with
  | JNull => [TNull]
  | JBool true => [TTrue]
  | JBool false => [TFalse]
  | JInt z | JUns z => [num_tok z]
  | JFloat _ => []
  | JStr s => [TStr s]
  | JArr l => TBeginArr :: (fix go (l : list json) : list token :=
                match l with
                | [] => [TEndArr]
                | x :: t => toks x ++ match t with [] => [TEndArr] | _ => TComma :: go t end
                end) l
  | JObj m => TBeginObj :: (fix go (m : list (bytes * json)) : list token :=
                match m with
                | [] => [TEndObj]
                | (k, x) :: t => TStr k :: TColon :: toks x ++ match t with [] => [TEndObj] | _ => TComma :: go t end
                end) m
  end.
Fixpoint telems (l : list json) : list token :=
  match l with
  | [] => [TEndArr]
  | x :: t => toks x ++ match t with [] => [TEndArr] | _ => TComma :: telems t end
  end.
Fixpoint tmembers (m : list (bytes * json)) : list token :=
  match m with
  | [] => [TEndObj]
  | (k, x) :: t => TStr k :: TColon :: toks x ++ match t with [] => [TEndObj] | _ => TComma :: tmembers t end
  end.
Lemma toks_arr l : toks (JArr l) = TBeginArr :: telems l.
Proof. reflexivity. Qed.
Lemma toks_obj m : toks (JObj m) = TBeginObj :: tmembers m.
Proof. reflexivity. Qed.

Definition printable (t : bytes) : Prop := Forall (fun b => 32 <= b) t.

Lemma printable_b t : forallb (fun b => 32 <=? b) t = true -> printable t.
Proof. intros H. apply Forall_forall. intros x Hx. rewrite forallb_forall in H. specialize (H x Hx). lia. Qed.

(** A text that is scanned as the given tokens whatever follows it. *)
Definition lexes (t : bytes) (ts : list token) : Prop := forall r, stop r -> lexx (t ++ r) = ts ++ lexx r.

Lemma scan_str k r : utf8 k -> scan (34 :: esc k ++ 34 :: r) = (TStr k, r).
Proof.
  intros U.
  change (scan_string (S (length (esc k ++ 34 :: r))) [] (esc k ++ 34 :: r) = (TStr k, r)).
  apply scan_string_esc; [exact U|]. rewrite app_length. lia.
Qed.

Lemma dump_str_ok k : utf8 k -> dump_str k = DOk (34 :: esc k ++ [34]).
Proof. intros U. unfold dump_str. rewrite dump_escaped_utf8 by exact U. reflexivity. Qed.

Lemma lexx_str k r : utf8 k -> lexx (34 :: esc k ++ 34 :: r) = TStr k :: lexx r.
Proof. intros U. apply lexx_step; [apply scan_str; exact U | reflexivity]. Qed.

Lemma lexx_char c t r : scan (c :: r) = (t, r) -> terminal t = false -> lexx (c :: r) = t :: lexx r.
Proof. apply lexx_step. Qed.

Lemma show_printable z : - 2 ^ 64 < z < 2 ^ 64 -> printable (show_d z).
Proof.
  intros H. unfold show_d.
  assert (A : forall a, 0 <= a < 2 ^ 64 -> printable (digits 20 a [])).
  { intros a Ha. destruct (pow20 a ltac:(lia)) as (P1 & _ & _).
    destruct (digits_ok 20 a [] ltac:(lia) ltac:(lia)) as (d & -> & _ & D & _). rewrite app_nil_r.
    eapply Forall_impl; [|exact D]. unfold dig. intros; lia. }
  destruct (Z.ltb_spec z 0); [constructor; [lia|]|]; apply A; lia.
Qed.

Lemma lexes_str k : utf8 k -> lexes (34 :: esc k ++ [34]) [TStr k].
Proof. intros U r _. cbn [app]. rewrite <- app_assoc. apply lexx_str. exact U. Qed.

Lemma printable_str k : utf8 k -> printable (34 :: esc k ++ [34]).
Proof. intros U. constructor; [lia|]. apply Forall_app. split; [apply esc_printable; exact U | repeat constructor; lia]. Qed.

Lemma stop44 r : stop (44 :: r).
Proof. cbn [stop]. unfold dig. lia. Qed.
Lemma stop93 r : stop (93 :: r).
Proof. cbn [stop]. unfold dig. lia. Qed.
Lemma stop125 r : stop (125 :: r).
Proof. cbn [stop]. unfold dig. lia. Qed.

(** The text of a value and its tokens. *)
Lemma dump_lexes j : raw_ok j -> exists t, dump j = DOk t /\ printable t /\ lexes t (toks j).
Proof.
  induction j as [|b|z|z|z|s|l IH|m IH] using json_rec'; intros G; inversion G; subst.
  - exists (bs "null"). split; [reflexivity|]. split; [apply printable_b; reflexivity|]. intros r _.
    apply lexx_step; reflexivity.
  - destruct b; [exists (bs "true") | exists (bs "false")]; (split; [reflexivity|]; split; [apply printable_b; reflexivity|]);
      intros r _; apply lexx_step; reflexivity.
  - exists (show_d z). split; [apply dump_integer_show; lia|]. split; [apply show_printable; lia|].
    intros r Sr. apply lexx_step; [apply scan_show; [lia | exact Sr] | unfold num_tok; destruct (z <? 0); reflexivity].
  - exists (show_d z). split; [apply dump_integer_show; lia|]. split; [apply show_printable; lia|].
    intros r Sr. apply lexx_step; [apply scan_show; [lia | exact Sr] | unfold num_tok; destruct (z <? 0); reflexivity].
  - exists (34 :: esc s ++ [34]). split; [apply dump_str_ok; assumption|].
    split; [apply printable_str; assumption | apply lexes_str; assumption].
  - rewrite dump_arr, toks_arr.
    assert (A : l <> [] -> exists t, delems l = DOk t /\ printable t /\ lexes t (telems l)).
    { clear G. induction l as [|x l IHl]; [congruence|]. intros _.
      inversion IH as [|? ? IHx IHr]; subst. inversion H0 as [|? ? Gx Gr]; subst.
      destruct (IHx Gx) as (a & Ea & Pa & La). cbn [delems telems]. rewrite Ea. cbn [dbind].
      destruct l as [|y l].
      - exists (a ++ [93]). split; [reflexivity|]. split; [apply Forall_app; split; [exact Pa | apply printable_b; reflexivity]|].
        intros r _. rewrite <- !app_assoc, (La ([93] ++ r) (stop93 r)). f_equal; try (apply lexx_step; reflexivity).
      - destruct (IHl IHr Gr ltac:(congruence)) as (b & Eb & Pb & Lb).
        rewrite Eb. cbn [dapp]. exists ((a ++ [44]) ++ b). split; [reflexivity|].
        split; [apply Forall_app; split; [apply Forall_app; split; [exact Pa | apply printable_b; reflexivity] | exact Pb]|].
        intros r Sr. rewrite <- !app_assoc, (La ([44] ++ b ++ r) (stop44 (b ++ r))). f_equal. cbn [app].
        rewrite <- (Lb r Sr). apply lexx_step; reflexivity. }
    destruct l as [|x l].
    + exists (bs "[]"). split; [reflexivity|]. split; [apply printable_b; reflexivity|]. intros r _. cbn [telems app bs].
      rewrite (lexx_step _ TBeginArr (93 :: r)) by reflexivity. f_equal; try (apply lexx_step; reflexivity).
    + destruct (A ltac:(congruence)) as (t & -> & Pt & Lt). exists ([91] ++ t). split; [reflexivity|].
      split; [constructor; [lia | exact Pt]|]. intros r Sr. cbn [app]. rewrite <- (Lt r Sr). apply lexx_step; reflexivity.
  - rewrite dump_obj, toks_obj.
    assert (A : m <> [] -> exists t, dmembers m = DOk t /\ printable t /\ lexes t (tmembers m)).
    { clear G. induction m as [|(k, x) m IHm]; [congruence|]. intros _.
      inversion IH as [|? ? IHx IHr]; subst. inversion H0 as [|? ? Uk Ur]; subst. inversion H1 as [|? ? Gx Gr]; subst.
      cbn [fst snd] in *. destruct (IHx Gx) as (a & Ea & Pa & La). cbn [dmembers tmembers].
      rewrite dump_str_ok, Ea by assumption. cbn [dbind]. pose proof (printable_str k Uk) as Pk.
      destruct m as [|y m].
      - eexists. split; [reflexivity|]. split.
        + apply Forall_app. split; [exact Pk|]. constructor; [lia|]. apply Forall_app. split; [exact Pa | apply printable_b; reflexivity].
        + intros r _. rewrite <- app_assoc. cbn [app]. rewrite <- app_assoc. cbn [app]. rewrite lexx_str by exact Uk. f_equal.
          rewrite (lexx_step _ TColon (a ++ 125 :: r)).
          2: { rewrite <- app_assoc. reflexivity. }
          2: reflexivity.
          f_equal. rewrite <- app_assoc, (La (125 :: r) (stop125 r)). f_equal; try (apply lexx_step; reflexivity).
      - destruct (IHm IHr Ur Gr ltac:(congruence)) as (b & Eb & Pb & Lb). rewrite Eb. cbn [dapp].
        eexists. split; [reflexivity|]. split.
        + apply Forall_app. split; [|exact Pb]. apply Forall_app. split; [exact Pk|]. constructor; [lia|].
          apply Forall_app. split; [exact Pa | apply printable_b; reflexivity].
        + intros r Sr. rewrite <- !app_assoc. cbn [app]. rewrite <- app_assoc. cbn [app]. rewrite lexx_str by exact Uk. f_equal.
          rewrite (lexx_step _ TColon (a ++ 44 :: b ++ r)).
          2: { rewrite <- app_assoc. reflexivity. }
          2: reflexivity.
          f_equal. rewrite <- app_assoc, (La (44 :: b ++ r) (stop44 _)). f_equal. cbn [app].
          rewrite <- (Lb r Sr). apply lexx_step; reflexivity. }
    destruct m as [|x m].
    + exists (bs "{}"). split; [reflexivity|]. split; [apply printable_b; reflexivity|]. intros r _. cbn [tmembers app bs].
      rewrite (lexx_step _ TBeginObj (125 :: r)) by reflexivity. f_equal; try (apply lexx_step; reflexivity).
    + destruct (A ltac:(congruence)) as (t & -> & Pt & Lt). exists ([123] ++ t). split; [reflexivity|].
      split; [constructor; [lia | exact Pt]|]. intros r Sr. cbn [app]. rewrite <- (Lt r Sr). apply lexx_step; reflexivity.
Qed.
