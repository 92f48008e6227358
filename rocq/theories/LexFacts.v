(** Facts about the scanner: it takes the tokens of LexSpec.v and no others. *)
From Verif Require Import Base JsonModel LexSpec JsonFacts.

(** ** Characters *)
Definition scalar (c : Z) : Prop := 0 <= c <= 1114111 /\ ~ 55296 <= c <= 57343.

Lemma utf8_of_char c : scalar c -> char8 (utf8_of c) c.
Proof.
  intros [H S]. unfold utf8_of.
  destruct (Z.ltb_spec c 128); [apply c8_1; lia|].
  destruct (Z.leb_spec c 2047); [apply c8_2; Z.div_mod_to_equations; lia|].
  destruct (Z.leb_spec c 65535); [apply c8_3; Z.div_mod_to_equations; lia|].
  apply c8_4; Z.div_mod_to_equations; lia.
Qed.

Lemma char_scalar u c : char8 u c -> scalar c.
Proof. unfold scalar. intros H. inversion H; subst; lia. Qed.

Lemma char_utf8_of u c : char8 u c -> u = utf8_of c.
Proof.
  intros H. unfold utf8_of. inversion H as [a Ha|x y n Hx Hy E L|x y z n Hx Hy Hz E L S|x y z v n Hx Hy Hz Hv E L]; clear H; subst u; try subst a.
  - destruct (Z.ltb_spec c 128); [reflexivity|lia].
  - destruct (Z.ltb_spec c 128); [lia|]. destruct (Z.leb_spec c 2047); [|lia]. f_equal; [|f_equal]; Z.div_mod_to_equations; lia.
  - destruct (Z.ltb_spec c 128); [lia|]. destruct (Z.leb_spec c 2047); [lia|]. destruct (Z.leb_spec c 65535); [|lia].
    f_equal; [|f_equal; [|f_equal]]; Z.div_mod_to_equations; lia.
  - destruct (Z.ltb_spec c 128); [lia|]. destruct (Z.leb_spec c 2047); [lia|]. destruct (Z.leb_spec c 65535); [lia|].
    f_equal; [|f_equal; [|f_equal; [|f_equal]]]; Z.div_mod_to_equations; lia.
Qed.

Lemma unhex_ok c v : unhex c = Some v <-> hex1 c v.
Proof.
  unfold unhex, hex1. destruct (Z.leb_spec 48 c), (Z.leb_spec c 57), (Z.leb_spec 65 c), (Z.leb_spec c 70), (Z.leb_spec 97 c), (Z.leb_spec c 102); cbn [andb];
  (split; [intros H'; try discriminate H'; injection H' as <-; lia|intros [[A ->]|[[A ->]|[A ->]]]; try lia; f_equal; lia]).
Qed.

Lemma codepoint_ok l c r : get_codepoint l = Some (c, r) <-> exists t, l = t ++ r /\ hex4 t c.
Proof.
  split.
  - destruct l as [|x0 [|x1 [|x2 [|x3 l]]]]; try discriminate. cbn [get_codepoint].
    destruct (unhex x0) as [a|] eqn:E0; [|discriminate]. destruct (unhex x1) as [b|] eqn:E1; [|discriminate].
    destruct (unhex x2) as [d|] eqn:E2; [|discriminate]. destruct (unhex x3) as [e|] eqn:E3; [|discriminate].
    intros H. injection H as <- <-. exists [x0; x1; x2; x3]. split; [reflexivity|].
    replace (a * 4096 + b * 256 + d * 16 + e) with (((a * 16 + b) * 16 + d) * 16 + e) by lia.
    constructor; apply unhex_ok; assumption.
  - intros (t & -> & H). inversion H as [x0 x1 x2 x3 a b d e H0 H1 H2 H3]; subst. cbn [app get_codepoint].
    apply unhex_ok in H0, H1, H2, H3. rewrite H0, H1, H2, H3. f_equal. f_equal. lia.
Qed.

Lemma hex4_range t c : hex4 t c -> 0 <= c < 65536.
Proof. intros H. inversion H as [x0 x1 x2 x3 a b d e H0 H1 H2 H3]; subst. unfold hex1 in *. lia. Qed.

(** What [in_range] takes. *)
Lemma in_range_inv rs : forall acc l u r, in_range rs acc l = SAdd u r ->
  exists t, u = acc ++ t /\ l = t ++ r /\ Forall2 (fun p c => fst p <= c <= snd p) rs t.
Proof.
  induction rs as [|[lo hi] rs IH]; intros acc l u r H; cbn [in_range] in H.
  - injection H as <- <-. exists []. rewrite app_nil_r. auto.
  - destruct l as [|c l]; [discriminate H|]. destruct ((lo <=? c) && (c <=? hi)) eqn:E; [|discriminate H].
    destruct (IH _ _ _ _ H) as (t & -> & -> & F). exists (c :: t). rewrite <- app_assoc. split; [reflexivity|]. split; [reflexivity|].
    constructor; [|exact F]. cbn [fst snd]. lia.
Qed.
Lemma in_range_go rs : forall acc t r, Forall2 (fun p c => fst p <= c <= snd p) rs t -> in_range rs acc (t ++ r) = SAdd (acc ++ t) r.
Proof.
  induction rs as [|[lo hi] rs IH]; intros acc t r F; inversion F as [|p c rs' t' B F']; subst.
  - rewrite app_nil_r. reflexivity.
  - cbn [app in_range]. cbn [fst snd] in B. replace ((lo <=? c) && (c <=? hi)) with true by lia. rewrite IH by exact F'. rewrite <- app_assoc. reflexivity.
Qed.

Lemma c8_2' a b : 194 <= a <= 223 -> 128 <= b <= 191 -> char8 [a; b] ((a - 192) * 64 + (b - 128)).
Proof. intros A B. replace [a; b] with [192 + (a - 192); 128 + (b - 128)] by (repeat f_equal; lia). apply c8_2; lia. Qed.
Lemma c8_3' a b c : 224 <= a <= 239 -> 128 <= b <= 191 -> 128 <= c <= 191 -> (a = 224 -> 160 <= b) -> (a = 237 -> b <= 159) ->
  char8 [a; b; c] (((a - 224) * 64 + (b - 128)) * 64 + (c - 128)).
Proof. intros A B C D E. replace [a; b; c] with [224 + (a - 224); 128 + (b - 128); 128 + (c - 128)] by (repeat f_equal; lia). apply c8_3; lia. Qed.
Lemma c8_4' a b c d : 240 <= a <= 244 -> 128 <= b <= 191 -> 128 <= c <= 191 -> 128 <= d <= 191 -> (a = 240 -> 144 <= b) -> (a = 244 -> b <= 143) ->
  char8 [a; b; c; d] ((((a - 240) * 64 + (b - 128)) * 64 + (c - 128)) * 64 + (d - 128)).
Proof. intros A B C D E F. replace [a; b; c; d] with [240 + (a - 240); 128 + (b - 128); 128 + (c - 128); 128 + (d - 128)] by (repeat f_equal; lia). apply c8_4; lia. Qed.

Lemma plain_piece u r c : char8 u c -> 32 <= c -> c <> 34 -> c <> 92 -> exists t c', u ++ r = t ++ r /\ piece t c' /\ char8 u c'.
Proof. intros H. exists u, c. split; [reflexivity|]. split; [apply p_plain|]; assumption. Qed.

Lemma scan_u_ok l u r : scan_u l = SAdd u r <-> exists t c, 92 :: 117 :: l = t ++ r /\ char8 u c /\
  ((exists x, t = 92 :: 117 :: x /\ hex4 x c /\ ~ 55296 <= c <= 57343) \/
   exists x h y k, t = 92 :: 117 :: x ++ 92 :: 117 :: y /\ hex4 x h /\ hex4 y k /\ 55296 <= h <= 56319 /\ 56320 <= k <= 57343 /\
     c = 65536 + (h - 55296) * 1024 + (k - 56320)).
Proof.
  unfold scan_u. split.
  - destruct (get_codepoint l) as [[c1 l1]|] eqn:G; [|discriminate]. apply codepoint_ok in G. destruct G as (x & -> & X). assert (R := hex4_range _ _ X).
    destruct ((55296 <=? c1) && (c1 <=? 56319)) eqn:B.
    + destruct l1 as [|a [|b l1]]; try discriminate. destruct ((a =? 92) && (b =? 117)) eqn:AB; [|discriminate].
      destruct (get_codepoint l1) as [[c2 l2]|] eqn:G; [|discriminate]. apply codepoint_ok in G. destruct G as (y & -> & Y).
      destruct ((56320 <=? c2) && (c2 <=? 57343)) eqn:C; [|discriminate]. intros H. injection H as <- <-.
      assert (a = 92) by lia. assert (b = 117) by lia. subst a b.
      exists (92 :: 117 :: x ++ 92 :: 117 :: y), (65536 + (c1 - 55296) * 1024 + (c2 - 56320)).
      split; [cbn [app]; rewrite <- app_assoc; reflexivity|].
      split; [replace (c1 * 1024 + c2 - 56613888) with (65536 + (c1 - 55296) * 1024 + (c2 - 56320)) by lia; apply utf8_of_char; unfold scalar; lia|].
      right. exists x, c1, y, c2. repeat split; try assumption; lia.
    + destruct ((56320 <=? c1) && (c1 <=? 57343)) eqn:C; [discriminate|]. intros H. injection H as <- <-.
      exists (92 :: 117 :: x), c1. split; [reflexivity|]. split; [apply utf8_of_char; unfold scalar; lia|]. left. exists x. repeat split; [exact X|lia].
  - intros (t & c & E & U & [(x & -> & X & N)|(x & h & y & k & -> & X & Y & H & K & ->)]).
    + cbn [app] in E. injection E as ->. assert (G : get_codepoint (x ++ r) = Some (c, r)) by (apply codepoint_ok; eauto). rewrite G.
      replace ((55296 <=? c) && (c <=? 56319)) with false by lia. replace ((56320 <=? c) && (c <=? 57343)) with false by lia.
      apply char_utf8_of in U. subst u. reflexivity.
    + cbn [app] in E. injection E as ->. rewrite <- app_assoc. cbn [app].
      assert (G : get_codepoint (x ++ 92 :: 117 :: y ++ r) = Some (h, 92 :: 117 :: y ++ r)) by (apply codepoint_ok; eauto). rewrite G.
      replace ((55296 <=? h) && (h <=? 56319)) with true by lia. cbn [Z.eqb Pos.eqb andb].
      assert (G2 : get_codepoint (y ++ r) = Some (k, r)) by (apply codepoint_ok; eauto). rewrite G2.
      replace ((56320 <=? k) && (k <=? 57343)) with true by lia. apply char_utf8_of in U. subst u. replace (h * 1024 + k - 56613888) with (65536 + (h - 55296) * 1024 + (k - 56320)) by lia. reflexivity.
Qed.

Ltac f2 F := repeat match type of F with Forall2 _ _ _ => let c := fresh "c" in let B := fresh "B" in let F' := fresh "F" in
  inversion F as [|? c ? ? B F']; subst; clear F; rename F' into F; cbn [fst snd] in B end; inversion F; subst; clear F.

Lemma scan_char_in l u r : scan_char l = SAdd u r -> exists t c, l = t ++ r /\ piece t c /\ char8 u c.
Proof.
  unfold scan_char. destruct l as [|c l]; [discriminate|].
  destruct (Z.eqb_spec c 34) as [->|N34]; [discriminate|].
  destruct (Z.eqb_spec c 92) as [->|N92].
  - destruct l as [|e l]; [discriminate|].
    assert (S : forall v, In (e, v) [(34, 34); (92, 92); (47, 47); (98, 8); (102, 12); (110, 10); (114, 13); (116, 9)] -> SAdd [v] l = SAdd u r ->
      exists t c, 92 :: e :: l = t ++ r /\ piece t c /\ char8 u c).
    { intros v I H. injection H as <- <-. exists [92; e], v. split; [reflexivity|]. split; [apply p_short; exact I|].
      apply c8_1. cbn [In] in I. repeat (destruct I as [I|I]; [injection I as <- <-; lia|]). destruct I. }
    destruct (Z.eqb_spec e 34) as [->|]; [apply S; cbn; tauto|]. destruct (Z.eqb_spec e 92) as [->|]; [apply S; cbn; tauto|].
    destruct (Z.eqb_spec e 47) as [->|]; [apply S; cbn; tauto|]. destruct (Z.eqb_spec e 98) as [->|]; [apply S; cbn; tauto|].
    destruct (Z.eqb_spec e 102) as [->|]; [apply S; cbn; tauto|]. destruct (Z.eqb_spec e 110) as [->|]; [apply S; cbn; tauto|].
    destruct (Z.eqb_spec e 114) as [->|]; [apply S; cbn; tauto|]. destruct (Z.eqb_spec e 116) as [->|]; [apply S; cbn; tauto|].
    destruct (Z.eqb_spec e 117) as [->|]; [|discriminate]. intros H. apply scan_u_ok in H.
    destruct H as (t & c & E & U & [(x & -> & X & N)|(x & h & y & k & -> & X & Y & H & K & ->)]).
    + exists (92 :: 117 :: x), c. split; [exact E|]. split; [apply p_hex; assumption|exact U].
    + eexists _, _. split; [exact E|]. split; [exact (p_pair x h y k X Y H K)|exact U].
  - destruct (Z.leb_spec c 31); [discriminate|].
    destruct (Z.leb_spec c 127); [intros E; injection E as <- <-; apply (plain_piece [c] l c); [apply c8_1; lia|lia..]|].
    destruct ((194 <=? c) && (c <=? 223)) eqn:B1.
    { intros E. apply in_range_inv in E. destruct E as (t & -> & -> & F). f2 F. cbn [app]. eapply (plain_piece [c; c0]); [apply c8_2'; lia|lia..]. }
    destruct (Z.eqb_spec c 224) as [->|].
    { intros E. apply in_range_inv in E. destruct E as (t & -> & -> & F). f2 F. cbn [app]. eapply (plain_piece [224; c; c0]); [apply c8_3'; lia|lia..]. }
    destruct ((225 <=? c) && (c <=? 236) || (c =? 238) || (c =? 239)) eqn:B2.
    { intros E. apply in_range_inv in E. destruct E as (t & -> & -> & F). f2 F. cbn [app]. eapply (plain_piece [c; c0; c1]); [apply c8_3'; lia|lia..]. }
    destruct (Z.eqb_spec c 237) as [->|].
    { intros E. apply in_range_inv in E. destruct E as (t & -> & -> & F). f2 F. cbn [app]. eapply (plain_piece [237; c; c0]); [apply c8_3'; lia|lia..]. }
    destruct (Z.eqb_spec c 240) as [->|].
    { intros E. apply in_range_inv in E. destruct E as (t & -> & -> & F). f2 F. cbn [app]. eapply (plain_piece [240; c; c0; c1]); [apply c8_4'; lia|lia..]. }
    destruct ((241 <=? c) && (c <=? 243)) eqn:B3.
    { intros E. apply in_range_inv in E. destruct E as (t & -> & -> & F). f2 F. cbn [app]. eapply (plain_piece [c; c0; c1; c2]); [apply c8_4'; lia|lia..]. }
    destruct (Z.eqb_spec c 244) as [->|]; [|discriminate].
    intros E. apply in_range_inv in E. destruct E as (t & -> & -> & F). f2 F. cbn [app]. eapply (plain_piece [244; c; c0; c1]); [apply c8_4'; lia|lia..].
Qed.

Lemma scan_char_plain t c r : char8 t c -> 32 <= c -> c <> 34 -> c <> 92 -> scan_char (t ++ r) = SAdd t r.
Proof.
  intros H L N34 N92. inversion H as [a Ha E1 E2|x y n Hx Hy E L2|x y z n Hx Hy Hz E L2 S|x y z v n Hx Hy Hz Hv E L2]; clear H; [subst a t|subst..]; cbn [app]; unfold scan_char.
  - replace (c =? 34) with false by lia. replace (c =? 92) with false by lia. replace (c <=? 31) with false by lia. replace (c <=? 127) with true by lia. reflexivity.
  - replace (192 + x =? 34) with false by lia. replace (192 + x =? 92) with false by lia. replace (192 + x <=? 31) with false by lia. replace (192 + x <=? 127) with false by lia.
    replace ((194 <=? 192 + x) && (192 + x <=? 223)) with true by lia. apply (in_range_go _ [192 + x] [128 + y]). repeat constructor; cbn [fst snd]; lia.
  - set (a := 224 + x) in *. replace (a =? 34) with false by lia. replace (a =? 92) with false by lia. replace (a <=? 31) with false by lia. replace (a <=? 127) with false by lia.
    replace ((194 <=? a) && (a <=? 223)) with false by lia.
    destruct (Z.eqb_spec a 224); [apply (in_range_go _ [a] [128 + y; 128 + z]); repeat constructor; cbn [fst snd]; lia|].
    destruct ((225 <=? a) && (a <=? 236) || (a =? 238) || (a =? 239)) eqn:B; [apply (in_range_go _ [a] [128 + y; 128 + z]); repeat constructor; cbn [fst snd]; lia|].
    replace (a =? 237) with true by lia. apply (in_range_go _ [a] [128 + y; 128 + z]); repeat constructor; cbn [fst snd]; lia.
  - set (a := 240 + x) in *. replace (a =? 34) with false by lia. replace (a =? 92) with false by lia. replace (a <=? 31) with false by lia. replace (a <=? 127) with false by lia.
    replace ((194 <=? a) && (a <=? 223)) with false by lia. replace (a =? 224) with false by lia.
    replace ((225 <=? a) && (a <=? 236) || (a =? 238) || (a =? 239)) with false by lia. replace (a =? 237) with false by lia.
    destruct (Z.eqb_spec a 240); [apply (in_range_go _ [a] [128 + y; 128 + z; 128 + v]); repeat constructor; cbn [fst snd]; lia|].
    destruct ((241 <=? a) && (a <=? 243)) eqn:B; [apply (in_range_go _ [a] [128 + y; 128 + z; 128 + v]); repeat constructor; cbn [fst snd]; lia|].
    replace (a =? 244) with true by lia. apply (in_range_go _ [a] [128 + y; 128 + z; 128 + v]); repeat constructor; cbn [fst snd]; lia.
Qed.

Lemma scan_char_out t c u r : piece t c -> char8 u c -> scan_char (t ++ r) = SAdd u r.
Proof.
  intros P U. inversion P as [t' c' T L A B|e c' I|x c' X N|x h y k X Y H K]; subst.
  - rewrite (scan_char_plain t c r T L A B). rewrite (char_utf8_of _ _ T), (char_utf8_of _ _ U). reflexivity.
  - apply char_utf8_of in U. subst u. cbn [In] in I. repeat (destruct I as [I|I]; [injection I as <- <-; reflexivity|]). destruct I.
  - cbn [app]. change (scan_char (92 :: 117 :: x ++ r)) with (scan_u (x ++ r)). apply scan_u_ok. exists (92 :: 117 :: x), c. split; [reflexivity|]. split; [exact U|]. left. eauto.
  - change ((92 :: 117 :: x ++ 92 :: 117 :: y) ++ r) with (92 :: 117 :: (x ++ 92 :: 117 :: y) ++ r).
    change (scan_char (92 :: 117 :: (x ++ 92 :: 117 :: y) ++ r)) with (scan_u ((x ++ 92 :: 117 :: y) ++ r)). apply scan_u_ok. eexists (92 :: 117 :: x ++ 92 :: 117 :: y), _. split; [reflexivity|]. split; [exact U|]. right. eexists x, h, y, k. repeat split; try assumption; lia.
Qed.

Lemma scan_char_end l r : scan_char l = SEnd r <-> l = 34 :: r.
Proof.
  split; [|intros ->; reflexivity].
  unfold scan_char. destruct l as [|c l]; [discriminate|]. destruct (Z.eqb_spec c 34) as [->|]; [intros E; injection E as ->; reflexivity|].
  intros E. exfalso. assert (I := fun rs acc l r => in_range_end rs acc l r).
  destruct (c =? 92).
  - destruct l as [|e l]; [discriminate E|].
    repeat match type of E with (if ?b then _ else _) = _ => destruct b; [first [discriminate E|idtac]|] end; try discriminate E.
    assert (L := scan_u_len l). rewrite E in L. exact L.
  - repeat match type of E with (if ?b then _ else _) = _ => destruct b; [first [discriminate E|exact (I _ _ _ _ E)]|] end. discriminate E.
Qed.

(** ** Strings *)
Lemma piece_nonempty t c : piece t c -> t <> [].
Proof. intros P E. subst t. inversion P as [t' c' T|?|?|?]; subst. inversion T. Qed.

Lemma scan_string_out t s : spelled t s -> forall fuel acc r, (length t < fuel)%nat -> scan_string fuel acc (t ++ 34 :: r) = (TStr (acc ++ s), r).
Proof.
  induction 1 as [|t c u ts us P U S IH]; intros fuel acc r L; (destruct fuel as [|fuel]; [lia|]); cbn [scan_string].
  - cbn. rewrite app_nil_r. reflexivity.
  - rewrite <- app_assoc. rewrite (scan_char_out t c u _ P U). rewrite IH.
    + rewrite app_assoc. reflexivity.
    + rewrite app_length in L. destruct t; [destruct (piece_nonempty _ _ P eq_refl)|]. cbn [length] in L. lia.
Qed.

Lemma scan_string_in fuel : forall acc l t r, scan_string fuel acc l = (t, r) -> (length l < fuel)%nat ->
  (exists x s, t = TStr (acc ++ s) /\ l = x ++ 34 :: r /\ spelled x s) \/ t = TErr.
Proof.
  induction fuel as [|fuel IH]; intros acc l t r H L; [lia|]. cbn [scan_string] in H.
  assert (N := scan_char_len l). destruct (scan_char l) as [r'|u r'|] eqn:E.
  - injection H as <- <-. apply scan_char_end in E. subst l. left. exists [], []. rewrite app_nil_r. repeat split. constructor.
  - apply scan_char_in in E. destruct E as (p & c & -> & P & U).
    assert (L2 : (length r' < fuel)%nat) by lia.
    destruct (IH _ _ _ _ H L2) as [(x & s & -> & -> & S)| ->]; [left|right; reflexivity].
    exists (p ++ x), (u ++ s). rewrite <- !app_assoc. repeat split. econstructor; eassumption.
  - injection H as <- <-. right. reflexivity.
Qed.

(** ** Numbers: the automaton against the grammar *)
Fixpoint nrun (s : nst) (x : bytes) : option nst :=
  match x with
  | [] => Some s
  | c :: x => match num_next s c with NGo s' => nrun s' x | _ => None end
  end.
Definition naccept (s : nst) : bool := match s with NZero | NAny1 | NDec2 | NAny2 => true | _ => false end.

Lemma nrun_app x : forall s y, nrun s (x ++ y) = match nrun s x with Some s' => nrun s' y | None => None end.
Proof. induction x as [|c x IH]; intros s y; cbn [app nrun]; [reflexivity|]. destruct (num_next s c); [apply IH|reflexivity..]. Qed.

(** The texts that lead to a state. *)
Definition nreach (s : nst) (x : bytes) : Prop :=
  match s with
  | NMinus => x = []
  | NZero => x = [48]
  | NAny1 => exists a d, x = a :: d /\ 49 <= a <= 57 /\ digits d
  | NDec1 => exists i, int_part i /\ x = i ++ [46]
  | NDec2 => exists i d, int_part i /\ d <> [] /\ digits d /\ x = i ++ 46 :: d
  | NExp => exists i f e, int_part i /\ frac_part f /\ (e = 101 \/ e = 69) /\ x = i ++ f ++ [e]
  | NSign => exists i f e g, int_part i /\ frac_part f /\ (e = 101 \/ e = 69) /\ (g = 43 \/ g = 45) /\ x = i ++ f ++ [e; g]
  | NAny2 => exists i f e g d, int_part i /\ frac_part f /\ (e = 101 \/ e = 69) /\ (g = [] \/ g = [43] \/ g = [45]) /\ d <> [] /\ digits d /\
      x = i ++ f ++ e :: g ++ d
  end.

Lemma is_digit_ok c : is_digit c = true <-> 48 <= c <= 57.
Proof. unfold is_digit. lia. Qed.

Lemma digits_snoc d c : digits d -> 48 <= c <= 57 -> digits (d ++ [c]).
Proof. intros D C. apply Forall_app. split; [exact D|repeat constructor; lia]. Qed.

Lemma nreach_step s x c s' : nreach s x -> num_next s c = NGo s' -> nreach s' (x ++ [c]).
Proof.
  intros R N. destruct s; cbn [nreach num_next] in R, N.
  - subst x. destruct (Z.eqb_spec c 48) as [->|]; [injection N as <-; reflexivity|]. destruct (is_digit c) eqn:D; [|discriminate N]. injection N as <-.
    apply is_digit_ok in D. exists c, []. repeat split; [lia..|constructor].
  - subst x. destruct (Z.eqb_spec c 46) as [->|]; [injection N as <-; exists [48]; split; [constructor|reflexivity]|].
    destruct ((c =? 101) || (c =? 69)) eqn:E; [|discriminate N]. injection N as <-. exists [48], [], c. repeat split; [constructor..|lia].
  - destruct R as (a & d & -> & A & D). destruct (is_digit c) eqn:C.
    { injection N as <-. apply is_digit_ok in C. exists a, (d ++ [c]). repeat split; [lia..|apply digits_snoc; assumption]. }
    destruct (Z.eqb_spec c 46) as [->|]; [injection N as <-; exists (a :: d); split; [constructor; assumption|reflexivity]|].
    destruct ((c =? 101) || (c =? 69)) eqn:E; [|discriminate N]. injection N as <-. exists (a :: d), [], c. repeat split; [constructor; assumption|constructor|lia].
  - destruct R as (i & I & ->). destruct (is_digit c) eqn:C; [|discriminate N]. injection N as <-. apply is_digit_ok in C.
    exists i, [c]. rewrite <- app_assoc. repeat split; [exact I|discriminate|apply (digits_snoc [] c); [constructor|exact C]].
  - destruct R as (i & d & I & NE & D & ->). destruct (is_digit c) eqn:C.
    { injection N as <-. apply is_digit_ok in C. exists i, (d ++ [c]). rewrite <- app_assoc. repeat split; [exact I|destruct d; discriminate|apply digits_snoc; assumption]. }
    destruct ((c =? 101) || (c =? 69)) eqn:E; [|discriminate N]. injection N as <-. exists i, (46 :: d), c. rewrite <- app_assoc. repeat split; [exact I|constructor; assumption|lia].
  - destruct R as (i & f & e & I & F & E & ->). destruct ((c =? 43) || (c =? 45)) eqn:G.
    { injection N as <-. exists i, f, e, c. rewrite <- !app_assoc. repeat split; [assumption..|lia]. }
    destruct (is_digit c) eqn:C; [|discriminate N]. injection N as <-. apply is_digit_ok in C. exists i, f, e, [], [c]. rewrite <- !app_assoc.
    repeat split; [assumption..|left; reflexivity|discriminate|apply (digits_snoc [] c); [constructor|exact C]].
  - destruct R as (i & f & e & g & I & F & E & G & ->). destruct (is_digit c) eqn:C; [|discriminate N]. injection N as <-. apply is_digit_ok in C.
    exists i, f, e, [g], [c]. rewrite <- !app_assoc. repeat split; [assumption..|right; destruct G as [->| ->]; [left|right]; reflexivity|discriminate|apply (digits_snoc [] c); [constructor|exact C]].
  - destruct R as (i & f & e & g & d & I & F & E & G & NE & D & ->). destruct (is_digit c) eqn:C; [|discriminate N]. injection N as <-. apply is_digit_ok in C.
    exists i, f, e, g, (d ++ [c]). rewrite <- !app_assoc. cbn [app]. rewrite <- app_assoc. repeat split; [assumption..|destruct d; discriminate|apply digits_snoc; assumption].
Qed.

Lemma nrun_reach x : forall s s', nrun NMinus x = Some s' -> s = s' -> nreach s x.
Proof.
  induction x as [|c x IH] using rev_ind; intros s s' R ->.
  - injection R as <-. reflexivity.
  - rewrite nrun_app in R. destruct (nrun NMinus x) as [s|] eqn:E; [|discriminate R]. cbn [nrun] in R.
    destruct (num_next s c) as [s1| |] eqn:N; [|discriminate R..]. injection R as <-. apply (nreach_step s); [exact (IH s s eq_refl eq_refl)|exact N].
Qed.

Lemma nrun_digits s d : (forall c, 48 <= c <= 57 -> num_next s c = NGo s) -> digits d -> nrun s d = Some s.
Proof. intros S D. induction D as [|c d C D IH]; cbn [nrun]; [reflexivity|]. rewrite S by exact C. exact IH. Qed.

Lemma dig_go c : 48 <= c <= 57 -> is_digit c = true.
Proof. apply is_digit_ok. Qed.

Lemma nrun_int i : int_part i -> nrun NMinus i = Some (match i with [48] => NZero | _ => NAny1 end).
Proof.
  intros I. destruct I as [|a d A D]; [reflexivity|]. cbn [nrun num_next]. replace (a =? 48) with false by lia. rewrite dig_go by lia.
  rewrite (nrun_digits NAny1 d) by (try exact D; intros c C; cbn [num_next]; rewrite dig_go by lia; reflexivity).
  destruct a as [|p|p]; try reflexivity. do 6 (destruct p as [p|p|]; try reflexivity). all: try lia. 
Qed.

Lemma nrun_some s d s1 s2 : d <> [] -> digits d -> (forall c, 48 <= c <= 57 -> num_next s c = NGo s1) -> (forall c, 48 <= c <= 57 -> num_next s1 c = NGo s1) -> s2 = s1 ->
  nrun s d = Some s2.
Proof. intros N D A B ->. destruct D as [|c d C D]; [destruct (N eq_refl)|]. cbn [nrun]. rewrite A by exact C. apply nrun_digits; assumption. Qed.

Lemma nrun_frac s f : s = NZero \/ s = NAny1 -> frac_part f -> nrun s f = Some (match f with [] => s | _ => NDec2 end).
Proof.
  intros S F. destruct F as [|d N D]; [reflexivity|]. cbn [nrun].
  assert (num_next s 46 = NGo NDec1) as -> by (destruct S as [->| ->]; reflexivity).
  apply (nrun_some NDec1 d NDec2); [exact N|exact D| | |reflexivity]; intros c C; cbn [num_next]; rewrite dig_go by lia; reflexivity.
Qed.

Lemma nrun_exp s e : s = NZero \/ s = NAny1 \/ s = NDec2 -> exp_part e -> nrun s e = Some (match e with [] => s | _ => NAny2 end).
Proof.
  intros S E. destruct E as [|e g d E G N D]; [reflexivity|]. cbn [nrun].
  assert (num_next s e = NGo NExp) as ->.
  { destruct E as [->| ->]; destruct S as [->|[->| ->]]; reflexivity. }
  destruct G as [->|[->| ->]]; cbn [app nrun].
  - apply (nrun_some NExp d NAny2); [exact N|exact D|intros c C; cbn [num_next]..|reflexivity].
    + replace ((c =? 43) || (c =? 45)) with false by lia. rewrite dig_go by lia. reflexivity.
    + rewrite dig_go by lia. reflexivity.
  - change (num_next NExp 43) with (NGo NSign). apply (nrun_some NSign d NAny2); [exact N|exact D| | |reflexivity]; intros c C; cbn [num_next]; rewrite dig_go by lia; reflexivity.
  - change (num_next NExp 45) with (NGo NSign). apply (nrun_some NSign d NAny2); [exact N|exact D| | |reflexivity]; intros c C; cbn [num_next]; rewrite dig_go by lia; reflexivity.
Qed.

Definition plain_state (s : nst) : bool := match s with NZero | NAny1 => true | _ => false end.

Lemma int_state i : int_part i -> exists s, nrun NMinus i = Some s /\ plain_state s = true.
Proof. intros I. rewrite (nrun_int i I). eexists. split; [reflexivity|]. destruct i as [|[|p|p] [|? ?]]; try reflexivity; repeat (destruct p as [p|p|]; try reflexivity). Qed.

Lemma nrun_parts i f e : int_part i -> frac_part f -> exp_part e ->
  exists s, nrun NMinus (i ++ f ++ e) = Some s /\ naccept s = true /\ (plain_state s = true <-> f = [] /\ e = []).
Proof.
  intros I F E. destruct (int_state i I) as (s & R & P). rewrite nrun_app, R, nrun_app.
  assert (S : s = NZero \/ s = NAny1) by (destruct s; try discriminate P; auto).
  rewrite (nrun_frac s f S F). rewrite nrun_exp; [|destruct f; tauto|exact E]. eexists. split; [reflexivity|].
  destruct e as [|? ?]; [destruct f as [|? ?]|]; cbn; (split; [try reflexivity|split; [intros Q; try discriminate Q; auto|intros [Q1 Q2]; try discriminate Q1; try discriminate Q2; auto]]).
  destruct S as [->| ->]; reflexivity.
Qed.

Lemma nrun_grammar x s : nrun NMinus x = Some s -> naccept s = true -> exists i f e, x = i ++ f ++ e /\ int_part i /\ frac_part f /\ exp_part e.
Proof.
  intros R A. assert (Q := nrun_reach x s s R eq_refl). destruct s; try discriminate A; cbn [nreach] in Q.
  - subst x. exists [48], [], []. repeat split; constructor.
  - destruct Q as (a & d & -> & B & D). exists (a :: d), [], []. rewrite app_nil_r. repeat split; constructor; assumption.
  - destruct Q as (i & d & I & N & D & ->). exists i, (46 :: d), []. rewrite app_nil_r. repeat split; [exact I|constructor; assumption|constructor].
  - destruct Q as (i & f & e & g & d & I & F & E & G & N & D & ->). exists i, f, (e :: g ++ d). repeat split; [exact I|exact F|constructor; assumption].
Qed.

Lemma counts_value d n : counts d n <-> value d = n.
Proof.
  split.
  - induction 1 as [|d n a C IH]; [reflexivity|]. unfold value in *. rewrite fold_left_app, IH. cbn [fold_left]. lia.
  - intros <-. induction d as [|a d IH] using rev_ind; [constructor|]. replace (value (d ++ [a])) with (10 * value d + (a - 48)); [constructor; exact IH|].
    unfold value. rewrite fold_left_app. cbn [fold_left]. lia.
Qed.

(** From every state the end of a number can be reached. *)
Lemma ncomplete s : exists more s', nrun s more = Some s' /\ naccept s' = true.
Proof.
  destruct s; [exists [48], NZero|exists [], NZero|exists [], NAny1|exists [48], NDec2|exists [], NDec2|exists [48], NAny2|exists [48], NAny2|exists [], NAny2]; split; reflexivity.
Qed.

Definition isf (s : nst) : bool := match s with NMinus | NZero | NAny1 => false | _ => true end.

Lemma floats_isf s c s' : num_next s c = NGo s' -> floats s' (isf s) = isf s'.
Proof.
  intros H. destruct s; cbn [num_next] in H;
  repeat match type of H with (if ?b then _ else _) = _ => destruct b end; try discriminate H; injection H as <-; reflexivity.
Qed.
Lemma done_accept s c : num_next s c = NDone -> naccept s = true.
Proof.
  intros H. destruct s; cbn [num_next] in H; repeat match type of H with (if ?b then _ else _) = _ => destruct b end; try discriminate H; reflexivity.
Qed.
Lemma accept_done s c : naccept s = true -> (forall s', num_next s c <> NGo s') -> num_next s c = NDone.
Proof.
  intros A N. destruct (num_next s c) as [s'| |] eqn:E; [destruct (N s' eq_refl)|reflexivity|].
  destruct s; try discriminate A; cbn [num_next] in E; repeat match type of E with (if ?b then _ else _) = _ => destruct b end; discriminate E.
Qed.
Lemma end_done s : num_next s (-1) = if naccept s then NDone else NErr.
Proof. destruct s; reflexivity. Qed.

Definition nstop (s : nst) (r : bytes) : Prop := match r with [] => True | c :: _ => num_next s c = NDone end.

Lemma number_terminal neg f x : number neg f x <> TErr.
Proof. unfold number. destruct f; [discriminate|]. destruct neg; [destruct (_ <=? _); discriminate|destruct (_ <? _); discriminate]. Qed.

Lemma scan_num_in l : forall s neg acc t r, scan_num s neg (isf s) acc l = (t, r) ->
  t = TErr \/ exists x s', l = x ++ r /\ nrun s x = Some s' /\ naccept s' = true /\ nstop s' r /\ t = number neg (isf s') (rev acc ++ x).
Proof.
  induction l as [|c l IH]; intros s neg acc t r H; cbn [scan_num] in H.
  - rewrite end_done in H. destruct (naccept s) eqn:A; injection H as <- <-; [right|left; reflexivity].
    exists [], s. rewrite (app_nil_r (rev acc)). repeat split. exact A.
  - destruct (num_next s c) as [s1| |] eqn:N.
    + rewrite (floats_isf s c s1 N) in H. destruct (IH _ _ _ _ _ H) as [->|(x & s' & -> & R & A & S & ->)]; [left; reflexivity|right].
      exists (c :: x), s'. cbn [nrun rev]. rewrite N, <- app_assoc. repeat split; assumption.
    + injection H as <- <-. right. exists [], s. rewrite (app_nil_r (rev acc)). repeat split; [exact (done_accept s c N)|exact N].
    + injection H as <- <-. left. reflexivity.
Qed.

Lemma scan_num_out x : forall s neg acc r s', nrun s x = Some s' -> naccept s' = true -> nstop s' r ->
  scan_num s neg (isf s) acc (x ++ r) = (number neg (isf s') (rev acc ++ x), r).
Proof.
  induction x as [|c x IH]; intros s neg acc r s' R A S; cbn [nrun app] in *.
  - injection R as ->. rewrite app_nil_r. destruct r as [|c r]; cbn [scan_num].
    + rewrite end_done, A. reflexivity.
    + cbn [nstop] in S. rewrite S. reflexivity.
  - cbn [scan_num]. destruct (num_next s c) as [s1| |] eqn:N; [|discriminate R..]. rewrite (floats_isf s c s1 N). rewrite (IH _ _ _ _ _ R A S).
    cbn [rev]. rewrite <- app_assoc. reflexivity.
Qed.

Definition sgn (neg : bool) : bytes := if neg then [45] else [].

Lemma isf_plain s : naccept s = true -> isf s = negb (plain_state s).
Proof. destruct s; intros H; try discriminate H; reflexivity. Qed.

Lemma number_spec neg x s : nrun NMinus x = Some s -> naccept s = true -> number_text (sgn neg ++ x) (number neg (isf s) x).
Proof.
  intros R A. destruct (nrun_grammar x s R A) as (i & f & e & -> & I & F & E).
  destruct (nrun_parts i f e I F E) as (s1 & R1 & _ & P). rewrite R in R1. injection R1 as <-. rewrite (isf_plain s A). unfold number.
  destruct (plain_state s) eqn:Q; cbn [negb].
  - destruct (proj1 P eq_refl) as [-> ->]. rewrite app_nil_r. destruct neg; cbn [sgn app]; rewrite ?app_nil_r.
    + destruct (Z.leb_spec (value i) (2 ^ 63)); [apply nt_int|eapply nt_low]; try apply counts_value; try reflexivity; assumption.
    + unfold M64. destruct (Z.ltb_spec (value i) (2 ^ 64)); [apply nt_uns|eapply nt_big]; try apply counts_value; try reflexivity; assumption.
  - assert (G : forall m, m = [] \/ m = [45] -> number_text (m ++ i ++ f ++ e) (TFloat (m ++ i ++ f ++ e))).
    { intros m M. apply (nt_real m i f e); [exact M|assumption..| |reflexivity].
      destruct f as [|]; [|left; discriminate]. destruct e as [|]; [|right; discriminate]. assert (H : false = true) by (apply P; auto). discriminate H. }
    destruct neg; [apply (G [45])|apply (G [])]; auto.
Qed.

Lemma number_inv y t : number_text y t -> exists neg x s, y = sgn neg ++ x /\ nrun NMinus x = Some s /\ naccept s = true /\ t = number neg (isf s) x.
Proof.
  assert (W : forall i, int_part i -> exists s, nrun NMinus i = Some s /\ naccept s = true /\ isf s = false).
  { intros i I. destruct (nrun_parts i [] [] I fp_none ep_none) as (s & R & A & P). cbn [app] in R. rewrite app_nil_r in R. exists s. split; [exact R|]. split; [exact A|].
    rewrite (isf_plain s A). rewrite (proj2 P (conj eq_refl eq_refl)). reflexivity. }
  intros H. destruct H as [i n I C L|i n I C L|i n I C L|i n I C L|m i f e x M I F E N ->];
  try (apply counts_value in C; subst n; destruct (W i I) as (s & R & A & P)).
  - exists false, i, s. repeat split; [exact R|exact A|]. rewrite P. unfold number, M64. replace (value i <? 2 ^ 64) with true by lia. reflexivity.
  - exists true, i, s. repeat split; [exact R|exact A|]. rewrite P. unfold number. replace (value i <=? 2 ^ 63) with true by lia. reflexivity.
  - exists false, i, s. repeat split; [exact R|exact A|]. rewrite P. unfold number, M64. replace (value i <? 2 ^ 64) with false by lia. reflexivity.
  - exists true, i, s. repeat split; [exact R|exact A|]. rewrite P. unfold number. replace (value i <=? 2 ^ 63) with false by lia. reflexivity.
  - destruct (nrun_parts i f e I F E) as (s & R & A & P). assert (Q : plain_state s = false).
    { destruct (plain_state s) eqn:Q; [|reflexivity]. destruct (proj1 P eq_refl) as [-> ->]. destruct N as [N|N]; destruct (N eq_refl). }
    exists (match m with [] => false | _ => true end), (i ++ f ++ e), s. rewrite (isf_plain s A), Q. cbn [negb number]. destruct M as [->| ->]; repeat split; assumption.
Qed.

Lemma nrun_first x s c : nrun NMinus (c :: x) = Some s -> 48 <= c <= 57.
Proof.
  cbn [nrun num_next]. destruct (Z.eqb_spec c 48) as [->|]; [lia|]. destruct (is_digit c) eqn:D; [|discriminate]. intros _. apply is_digit_ok, D.
Qed.
Lemma accepted_cons x s : nrun NMinus x = Some s -> naccept s = true -> exists c x', x = c :: x' /\ 48 <= c <= 57.
Proof. intros R A. destruct x as [|c x]; [injection R as <-; discriminate A|]. exists c, x. split; [reflexivity|exact (nrun_first x s c R)]. Qed.

Lemma sgn_inj neg neg' x x' s s' z : nrun NMinus x = Some s -> naccept s = true -> nrun NMinus x' = Some s' -> naccept s' = true ->
  sgn neg' ++ x' = (sgn neg ++ x) ++ z -> neg' = neg /\ x' = x ++ z.
Proof.
  intros R A R' A' E. destruct (accepted_cons x s R A) as (c & y & -> & C). destruct (accepted_cons x' s' R' A') as (c' & y' & -> & C').
  destruct neg, neg'; cbn [sgn app] in *; injection E as E1 E2; try lia; split; try reflexivity; congruence.
Qed.

Lemma longest_ok neg x s r : nrun NMinus x = Some s -> naccept s = true -> (longest (sgn neg ++ x) r <-> nstop s r).
Proof.
  intros R A. unfold longest. split.
  - intros H. destruct r as [|c r]; [exact I|]. cbn [nstop]. apply accept_done; [exact A|]. intros s1 N.
    destruct (ncomplete s1) as (more & s2 & R2 & A2). apply (H c r more (number neg (isf s2) (x ++ c :: more)) eq_refl).
    rewrite <- app_assoc. apply number_spec; [|exact A2]. rewrite nrun_app, R. cbn [nrun]. rewrite N. exact R2.
  - intros S c r' more t -> H. cbn [nstop] in S. apply number_inv in H. destruct H as (neg' & x' & s' & E & R' & A' & _).
    destruct (sgn_inj neg neg' x x' s s' (c :: more) R A R' A' (eq_sym E)) as [_ ->]. rewrite nrun_app, R in R'. cbn [nrun] in R'. rewrite S in R'. discriminate R'.
Qed.

(** ** Tokens *)
Lemma is_space_ok c : is_space c = true <-> In c [32; 9; 10; 13].
Proof. unfold is_space. cbn [In]. lia. Qed.

Lemma skip_space_in l : exists ws, l = ws ++ skip_space l /\ spaces ws /\ match skip_space l with c :: _ => ~ In c [32; 9; 10; 13] | [] => True end.
Proof.
  induction l as [|c l (ws & E & S & N)]; [exists []; repeat split; constructor|]. cbn [skip_space]. destruct (is_space c) eqn:Q.
  - exists (c :: ws). cbn [app]. rewrite <- E. repeat split; [constructor; [apply is_space_ok, Q|exact S]|exact N].
  - exists []. repeat split; [constructor|]. rewrite <- is_space_ok. congruence.
Qed.
Lemma skip_spaces ws l : spaces ws -> skip_space (ws ++ l) = skip_space l.
Proof. intros S. induction S as [|c ws C S IH]; [reflexivity|]. cbn [app skip_space]. apply is_space_ok in C. rewrite C. exact IH. Qed.

Lemma scan_spaces ws l : spaces ws -> scan (ws ++ l) = scan l.
Proof. intros S. unfold scan. rewrite skip_spaces by exact S. reflexivity. Qed.

Lemma scan_skip l : scan l = scan (skip_space l).
Proof. destruct (skip_space_in l) as (ws & E & S & _). rewrite E at 1. apply scan_spaces, S. Qed.

Lemma skip_first c l : ~ In c [32; 9; 10; 13] -> skip_space (c :: l) = c :: l.
Proof. intros N. cbn [skip_space]. destruct (is_space c) eqn:E; [destruct (N (proj1 (is_space_ok c) E))|reflexivity]. Qed.

Lemma scan_digit c l : 48 <= c <= 57 -> scan (c :: l) = scan_num NMinus false (isf NMinus) [] (c :: l).
Proof.
  intros C. assert (c = 48 \/ c = 49 \/ c = 50 \/ c = 51 \/ c = 52 \/ c = 53 \/ c = 54 \/ c = 55 \/ c = 56 \/ c = 57) as H by lia.
  repeat (destruct H as [->|H]; [reflexivity|]). subst c. reflexivity.
Qed.
Lemma scan_minus l : scan (45 :: l) = scan_num NMinus true (isf NMinus) [] l.
Proof. reflexivity. Qed.

Lemma scan_literal_in x : forall tok l t r, scan_literal x tok l = (t, r) -> t = TErr \/ (t = tok /\ l = x ++ r).
Proof.
  induction x as [|a x IH]; intros tok l t r H; cbn [scan_literal] in H; [injection H as <- <-; right; split; reflexivity|].
  destruct l as [|c l]; [injection H as <- <-; left; reflexivity|]. destruct (Z.eqb_spec c a) as [->|]; [|injection H as <- <-; left; reflexivity].
  destruct (IH _ _ _ _ H) as [->|[-> ->]]; [left; reflexivity|right; split; reflexivity].
Qed.

Lemma not_number_longest c x r : c <> 45 -> ~ 48 <= c <= 57 -> longest (c :: x) r.
Proof.
  intros M D c1 r' more t -> H. apply number_inv in H. destruct H as (neg & y & s & E & R & A & _). destruct (accepted_cons y s R A) as (a & y' & -> & B).
  destruct neg; cbn [sgn app] in E; injection E as E1 E2; lia.
Qed.

(** What [scan] gives at a byte that is not white space. *)
Lemma scan_in c l t r : ~ In c [32; 9; 10; 13] -> scan (c :: l) = (t, r) ->
  (exists x, c :: l = x ++ r /\ token_text x t /\ longest x r) \/ t = TErr \/ (t = TEnd /\ c = 0 /\ l = r).
Proof.
  intros N H. assert (D : 48 <= c <= 57 \/ ~ 48 <= c <= 57) by lia. destruct D as [D|D].
  { rewrite scan_digit in H by exact D. apply scan_num_in in H. destruct H as [->|(x & s & E & R & A & S & ->)]; [right; left; reflexivity|left].
    exists x. split; [exact E|]. cbn [rev app]. split; [apply tt_num; exact (number_spec false x s R A)|exact (proj2 (longest_ok false x s r R A) S)]. }
  assert (M : c = 45 \/ c <> 45) by lia. destruct M as [->|M].
  { rewrite scan_minus in H. apply scan_num_in in H. destruct H as [->|(x & s & -> & R & A & S & ->)]; [right; left; reflexivity|left].
    exists (45 :: x). split; [reflexivity|]. cbn [rev app]. split; [apply tt_num; exact (number_spec true x s R A)|exact (proj2 (longest_ok true x s r R A) S)]. }
  unfold scan in H. rewrite skip_first in H by exact N.
  assert (P : forall c' t', c = c' -> In (c', t') [(91, TBeginArr); (93, TEndArr); (123, TBeginObj); (125, TEndObj); (58, TColon); (44, TComma)] -> (t', l) = (t, r) ->
    exists x, c :: l = x ++ r /\ token_text x t /\ longest x r).
  { intros c' t' <- I E. injection E as <- <-. exists [c]. split; [reflexivity|]. split; [apply tt_mark, I|apply not_number_longest; assumption]. }
  destruct (Z.eqb_spec c 91) as [E|]; [left; eapply P; [exact E|cbn; tauto|exact H]|]. destruct (Z.eqb_spec c 93) as [E|]; [left; eapply P; [exact E|cbn; tauto|exact H]|].
  destruct (Z.eqb_spec c 123) as [E|]; [left; eapply P; [exact E|cbn; tauto|exact H]|]. destruct (Z.eqb_spec c 125) as [E|]; [left; eapply P; [exact E|cbn; tauto|exact H]|].
  destruct (Z.eqb_spec c 58) as [E|]; [left; eapply P; [exact E|cbn; tauto|exact H]|]. destruct (Z.eqb_spec c 44) as [E|]; [left; eapply P; [exact E|cbn; tauto|exact H]|].
  clear P.
  destruct (Z.eqb_spec c 116) as [->|].
  { apply scan_literal_in in H. destruct H as [->|[-> ->]]; [right; left; reflexivity|left]. exists [116; 114; 117; 101]. split; [reflexivity|]. split; [constructor|apply not_number_longest; lia]. }
  destruct (Z.eqb_spec c 102) as [->|].
  { apply scan_literal_in in H. destruct H as [->|[-> ->]]; [right; left; reflexivity|left]. exists [102; 97; 108; 115; 101]. split; [reflexivity|]. split; [constructor|apply not_number_longest; lia]. }
  destruct (Z.eqb_spec c 110) as [->|].
  { apply scan_literal_in in H. destruct H as [->|[-> ->]]; [right; left; reflexivity|left]. exists [110; 117; 108; 108]. split; [reflexivity|]. split; [constructor|apply not_number_longest; lia]. }
  destruct (Z.eqb_spec c 34) as [->|].
  { apply scan_string_in in H; [|lia]. destruct H as [(x & s & -> & -> & S)| ->]; [left|right; left; reflexivity].
    exists (34 :: x ++ [34]). split; [cbn [app]; rewrite <- app_assoc; reflexivity|]. split; [apply tt_str; exact S|apply not_number_longest; lia]. }
  destruct (Z.eqb_spec c 45); [lia|]. destruct (Z.eqb_spec c 48); [lia|]. destruct (is_digit c) eqn:Q; [apply is_digit_ok in Q; lia|].
  destruct (Z.eqb_spec c 0) as [->|]; injection H as <- <-; right; [right; auto|left; reflexivity].
Qed.

Lemma scan_out x t r : token_text x t -> longest x r -> scan (x ++ r) = (t, r).
Proof.
  intros T L. destruct T as [c t I| | | |x s S|x t N]; [|reflexivity..| |].
  - cbn [In] in I. repeat (destruct I as [I|I]; [injection I as <- <-; reflexivity|]). destruct I.
  - cbn [app]. rewrite <- app_assoc. cbn [app].
    change (scan (34 :: x ++ 34 :: r)) with (scan_string (Datatypes.S (length (x ++ 34 :: r))) [] (x ++ 34 :: r)).
    apply (scan_string_out x s S). rewrite app_length. lia.
  - apply number_inv in N. destruct N as (neg & y & s & -> & R & A & ->). apply (longest_ok neg y s r R A) in L.
    destruct neg; cbn [sgn app].
    + rewrite scan_minus. exact (scan_num_out y NMinus true [] r s R A L).
    + destruct (accepted_cons y s R A) as (c & y' & -> & C). cbn [app]. rewrite scan_digit by exact C. exact (scan_num_out (c :: y') NMinus false [] r s R A L).
Qed.

Lemma token_first x t : token_text x t -> exists c y, x = c :: y /\ ~ In c [32; 9; 10; 13] /\ c <> 0.
Proof.
  intros T. destruct T as [c t I| | | |x s S|x t N].
  - exists c, []. split; [reflexivity|]. cbn [In] in *. repeat (destruct I as [I|I]; [injection I as <- _; lia|]). destruct I.
  - eexists _, _. split; [reflexivity|]. cbn [In]. lia.
  - eexists _, _. split; [reflexivity|]. cbn [In]. lia.
  - eexists _, _. split; [reflexivity|]. cbn [In]. lia.
  - eexists _, _. split; [reflexivity|]. cbn [In]. lia.
  - apply number_inv in N. destruct N as (neg & y & s & -> & R & A & _). destruct (accepted_cons y s R A) as (c & y' & -> & C).
    destruct neg; eexists _, _; (split; [reflexivity|cbn [In]; lia]).
Qed.

Lemma token_proper x t : token_text x t -> proper t.
Proof.
  intros T. unfold proper. destruct T as [c t I| | | |x s S|x t N]; try (repeat split; discriminate).
  - cbn [In] in I. repeat (destruct I as [I|I]; [injection I as _ <-; repeat split; discriminate|]). destruct I.
  - destruct N; repeat split; discriminate.
Qed.

Theorem scan_tokens l t r : (scan l = (t, r) /\ proper t) <-> exists ws x, l = ws ++ x ++ r /\ spaces ws /\ token_text x t /\ longest x r.
Proof.
  split.
  - intros [H (P1 & P2 & P3)]. destruct (skip_space_in l) as (ws & E & S & N). rewrite scan_skip in H. destruct (skip_space l) as [|c k].
    + injection H as <- <-. destruct (P1 eq_refl).
    + destruct (scan_in c k t r N H) as [(x & E2 & T & L)|[->|[-> _]]]; [|destruct (P2 eq_refl)|destruct (P1 eq_refl)].
      exists ws, x. rewrite E, E2. auto.
  - intros (ws & x & -> & S & T & L). split; [|exact (token_proper x t T)]. rewrite scan_spaces by exact S. exact (scan_out x t r T L).
Qed.

Theorem scan_end l r : scan l = (TEnd, r) <-> (spaces l /\ r = []) \/ exists ws, l = ws ++ 0 :: r /\ spaces ws.
Proof.
  split.
  - intros H. destruct (skip_space_in l) as (ws & E & S & N). rewrite scan_skip in H. destruct (skip_space l) as [|c k].
    + injection H as <-. left. rewrite app_nil_r in E. subst l. auto.
    + destruct (scan_in c k TEnd r N H) as [(x & E2 & T & L)|[Q|(_ & -> & ->)]]; [destruct (token_proper x _ T) as [P _]; destruct (P eq_refl)|discriminate Q|].
      right. exists ws. auto.
  - intros [[S ->]|(ws & -> & S)].
    + rewrite <- (app_nil_r l). rewrite scan_spaces by exact S. reflexivity.
    + rewrite scan_spaces by exact S. reflexivity.
Qed.

Theorem scan_fuel l r : scan l <> (TFuel, r).
Proof.
  intros H. rewrite scan_skip in H. destruct (skip_space_in l) as (ws & _ & _ & N). destruct (skip_space l) as [|c k]; [discriminate H|].
  destruct (scan_in c k TFuel r N H) as [(x & _ & T & _)|[Q|(Q & _)]]; [|discriminate Q..]. destruct (token_proper x _ T) as (_ & _ & P). destruct (P eq_refl).
Qed.
