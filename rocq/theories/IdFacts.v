(** Proofs about the device a resource name stands for. *)
From Coq Require Import String Ascii.
From Verif Require Import Base BaseFacts NamingModel NamingFacts RegistryModel CatalogModel CatalogFacts CatalogIds IdSpec.
Local Open Scope string_scope.
Local Open Scope Z_scope.

Lemma is_digit_iff c : is_digit c = true <-> digit c.
Proof. unfold is_digit, digit, code. lia. Qed.

Lemma is_space_iff c : is_space c = true <-> blank c.
Proof. unfold is_space, blank, code. cbn [In]. lia. Qed.

Lemma every_nil P : every P "".
Proof. intros c []. Qed.

Lemma every_cons P c s : every P (String c s) <-> P c /\ every P s.
Proof.
  unfold every. cbn [list_ascii_of_string In]. split; [intros H; split; intros; apply H; auto|].
  intros [H1 H2] x [<-|H]; auto.
Qed.

Lemma app_nil s : s ++ "" = s.
Proof. induction s as [|a s IH]; cbn; [reflexivity|now rewrite IH]. Qed.

Lemma app_assoc_s a b c : (a ++ b) ++ c = a ++ b ++ c.
Proof. induction a as [|x a IH]; cbn; [reflexivity|now rewrite IH]. Qed.

Lemma skip_split s : exists ws, s = ws ++ skip_space s /\ every blank ws.
Proof.
  induction s as [|c s IH]; cbn [skip_space]; [exists ""; split; [reflexivity|apply every_nil]|].
  destruct (is_space c) eqn:E; [|exists ""; split; [reflexivity|apply every_nil]].
  destruct IH as (ws & E1 & H). exists (String c ws). split; [cbn; now rewrite <- E1|]. apply every_cons. split; [now apply is_space_iff|exact H].
Qed.

Lemma skip_blanks ws s : every blank ws -> skip_space (ws ++ s) = skip_space s.
Proof.
  induction ws as [|c ws IH]; intros H; [reflexivity|]. apply every_cons in H as [H1 H2]. cbn [append skip_space].
  apply is_space_iff in H1. rewrite H1. auto.
Qed.

Lemma dec_split s : forall acc, exists ds rest, s = ds ++ rest /\ every digit ds /\ (forall c t, rest = String c t -> ~ digit c) /\
  dec_val acc s = acc * 10 ^ Z.of_nat (String.length ds) + value ds.
Proof.
  induction s as [|c s IH]; intros acc; cbn [dec_val].
  - exists "", "". split; [reflexivity|]. split; [apply every_nil|]. split; [discriminate|]. cbn [String.length value]. lia.
  - destruct (is_digit c) eqn:E.
    + destruct (IH (10 * acc + digit_val c)) as (ds & rest & E1 & H1 & H2 & E2). exists (String c ds), rest.
      split; [cbn; now rewrite <- E1|]. split; [apply every_cons; split; [now apply is_digit_iff|exact H1]|]. split; [exact H2|].
      rewrite E2. cbn [String.length value]. unfold digit_val, code. rewrite Nat2Z.inj_succ, Z.pow_succ_r by lia. lia.
    + exists "", (String c s). split; [reflexivity|]. split; [apply every_nil|]. split.
      * intros c' t' H. injection H as <- <-. intros H. apply is_digit_iff in H. congruence.
      * cbn [String.length value]. lia.
Qed.

Lemma dec_of ds : forall acc rest, every digit ds -> (forall c t, rest = String c t -> ~ digit c) ->
  dec_val acc (ds ++ rest) = acc * 10 ^ Z.of_nat (String.length ds) + value ds.
Proof.
  induction ds as [|c ds IH]; intros acc rest H Hr; cbn [append dec_val].
  - destruct rest as [|c t]; cbn [dec_val String.length value]; [lia|]. destruct (is_digit c) eqn:E; [|lia].
    apply is_digit_iff in E. elim (Hr c t eq_refl E).
  - apply every_cons in H as [H1 H2]. apply is_digit_iff in H1. rewrite H1, IH by assumption. cbn [String.length value]. unfold digit_val, code.
    rewrite Nat2Z.inj_succ, Z.pow_succ_r by lia. lia.
Qed.

Lemma stoi_of ws sg k ds rest :
  every blank ws -> In (sg, k) [("", 1); ("+", 1); ("-", -1)] -> ds <> "" -> every digit ds -> (forall c t, rest = String c t -> ~ digit c) ->
  stoi (ws ++ sg ++ ds ++ rest) = if (- 2 ^ 31 <=? k * value ds) && (k * value ds <=? INT_MAX) then Some (k * value ds) else None.
Proof.
  intros Hw Hk Hn Hd Hr. unfold stoi. rewrite skip_blanks by exact Hw.
  pose proof (dec_of ds 0 rest Hd Hr) as ED. destruct ds as [|c ds]; [congruence|]. pose proof Hd as Hd'. apply every_cons in Hd' as [Hc _].
  apply is_digit_iff in Hc. destruct (digit_not_sign c Hc) as [N1 N2].
  destruct Hk as [Hk|[Hk|[Hk|[]]]]; injection Hk as <- <-; cbn [append skip_space] in *.
  - rewrite (digit_not_space c Hc), N1, N2, Hc, ED. replace (0 * _ + value (String c ds)) with (1 * value (String c ds)) by lia. reflexivity.
  - change (is_space "+") with false. cbn [Ascii.eqb Bool.eqb]. cbv beta iota zeta. cbn [append].
    rewrite Hc, ED. replace (0 * _ + value (String c ds)) with (1 * value (String c ds)) by lia. reflexivity.
  - change (is_space "-") with false. cbn [Ascii.eqb Bool.eqb]. cbv beta iota zeta. cbn [append].
    rewrite Hc, ED. replace (- (0 * _ + value (String c ds))) with (-1 * value (String c ds)) by lia. reflexivity.
Qed.

Lemma stoi_some s v : stoi s = Some v -> reads s v /\ - 2 ^ 31 <= v < 2 ^ 31.
Proof.
  intros H. destruct (skip_split s) as (ws & Es & Hw). unfold stoi in H. set (s1 := skip_space s) in *.
  set (p := match s1 with String c t => if Ascii.eqb c "-" then (true, t) else if Ascii.eqb c "+" then (false, t) else (false, s1) | EmptyString => (false, s1) end) in H.
  assert (P : exists sg k, In (sg, k) [("", 1); ("+", 1); ("-", -1)] /\ s1 = sg ++ snd p /\ forall z, (if fst p then - z else z) = k * z).
  { unfold p. destruct s1 as [|c t].
    - exists "", 1. cbn [In fst snd append]. split; [auto|]. split; [reflexivity|]. intros; lia.
    - destruct (Ascii.eqb_spec c "-") as [->|N]; [exists "-", (-1); cbn [In fst snd append]; split; [auto|split; [reflexivity|intros; lia]]|].
      destruct (Ascii.eqb_spec c "+") as [->|N']; [exists "+", 1; cbn [In fst snd append]; split; [auto|split; [reflexivity|intros; lia]]|].
      exists "", 1. cbn [In fst snd append]; split; [auto|split; [reflexivity|intros; lia]]. }
  destruct P as (sg & k & Hk & E1 & Hz). destruct p as [neg s2]. cbn [fst snd] in *.
  destruct s2 as [|c t]; [discriminate|]. destruct (is_digit c) eqn:Ec; [|discriminate].
  rewrite Hz in H. destruct (dec_split (String c t) 0) as (ds & rest & E2 & Hd & Hr & E3). rewrite E3 in H.
  replace (0 * _ + value ds) with (value ds) in H by lia.
  destruct ((- 2 ^ 31 <=? k * value ds) && (k * value ds <=? INT_MAX)) eqn:B; [|discriminate]. injection H as <-.
  assert (Hn : ds <> "").
  { intros ->. cbn in E2. apply (Hr c t); [now rewrite E2|]. now apply is_digit_iff. }
  split; [|unfold INT_MAX in B; lia]. rewrite Es, E1, E2. now constructor.
Qed.

Lemma stoi_none s v : stoi s = None -> reads s v -> ~ (- 2 ^ 31 <= v < 2 ^ 31).
Proof.
  intros H HR HB. destruct HR as [ws sg k ds rest Hw Hk Hn Hd Hr]. rewrite (stoi_of ws sg k ds rest Hw Hk Hn Hd Hr) in H.
  replace ((- 2 ^ 31 <=? k * value ds) && (k * value ds <=? INT_MAX)) with true in H by (unfold INT_MAX; lia). discriminate.
Qed.

Lemma stoi_is s r : stoi s = r <-> int_of s r.
Proof.
  split.
  - intros H. destruct r as [v|]; [now apply stoi_some|]. intros v. now apply stoi_none.
  - intros H. destruct r as [v|]; cbn [int_of] in H.
    + destruct H as [HR HB]. destruct HR as [ws sg k ds rest Hw Hk Hn Hd Hr]. rewrite (stoi_of ws sg k ds rest Hw Hk Hn Hd Hr).
      replace ((- 2 ^ 31 <=? k * value ds) && (k * value ds <=? INT_MAX)) with true by (unfold INT_MAX; lia). reflexivity.
    + destruct (stoi s) as [v|] eqn:E; [|reflexivity]. apply stoi_some in E as [HR HB]. elim (H v HR HB).
Qed.

(** ** The pattern *)
Lemma list_inj s t : list_ascii_of_string s = list_ascii_of_string t -> s = t.
Proof. intros H. now rewrite <- (string_of_list_ascii_of_string s), H, string_of_list_ascii_of_string. Qed.

Lemma span_split l : exists a r, l = (a ++ r)%list /\ span_digits l = (a, r) /\ Forall (fun c => is_digit c = true) a /\ (forall c t, r = c :: t -> is_digit c = false).
Proof.
  induction l as [|c l IH]; cbn [span_digits]; [exists [], []; repeat split; auto; discriminate|].
  destruct (is_digit c) eqn:E.
  - destruct IH as (a & r & E1 & E2 & H1 & H2). rewrite E2. exists (c :: a), r. split; [cbn; now rewrite <- E1|]. auto.
  - exists [], (c :: l). repeat split; auto. intros c' t H. now injection H as <- <-.
Qed.

Lemma regex_some x d : regex_id x = Some d -> numbered x d.
Proof.
  unfold regex_id. destruct (span_split (rev (list_ascii_of_string x))) as (a & r & E1 & E2 & H1 & _). rewrite E2.
  destruct a as [|c ds]; [discriminate|]. destruct r as [|p r]; [discriminate|].
  assert (Hp : forall b, (if Ascii.eqb p ":" then b else None) = Some d -> p = ":"%char) by (intros b; destruct (Ascii.eqb_spec p ":"); [auto|discriminate]).
  intros H. assert (p = ":"%char /\ exists r', r = ":"%char :: r' /\
      (if forallb (fun a => negb (Ascii.eqb a "010" || Ascii.eqb a "013")) r' then Some (string_of_list_ascii (rev (c :: ds))) else None) = Some d) as (-> & r' & -> & H').
  { destruct p as [[] [] [] [] [] [] [] []]; try discriminate. destruct r as [|q r]; [discriminate|].
    destruct q as [[] [] [] [] [] [] [] []]; try discriminate. eauto. }
  clear H. destruct (forallb _ r') eqn:F; [|discriminate]. injection H' as <-.
  exists (string_of_list_ascii (rev r')). assert (EX : list_ascii_of_string x = (rev r' ++ ":" :: ":" :: rev (c :: ds))%list%char).
  { rewrite <- (rev_involutive (list_ascii_of_string x)), E1, rev_app_distr. cbn [rev]. rewrite <- !app_assoc. reflexivity. }
  split; [|split; [|split]].
  - apply list_inj. rewrite EX, !list_of_app, !list_ascii_of_string_of_list_ascii. reflexivity.
  - intros E. apply (f_equal list_ascii_of_string) in E. rewrite list_ascii_of_string_of_list_ascii in E. now apply app_eq_nil in E as [_ E].
  - intros b Hb. rewrite list_ascii_of_string_of_list_ascii in Hb. change (In b (rev (c :: ds))) in Hb. apply in_rev in Hb. rewrite Forall_forall in H1. now apply is_digit_iff, H1.
  - intros b Hb. rewrite list_ascii_of_string_of_list_ascii in Hb. apply in_rev in Hb. rewrite forallb_forall in F. specialize (F b Hb).
    apply negb_true_iff, orb_false_iff in F as [F1 F2]. apply Ascii.eqb_neq in F1, F2. unfold not_break, code.
    split; intros E; [apply F1|apply F2]; rewrite <- (ascii_nat_embedding b); [replace (nat_of_ascii b) with 10%nat by lia|replace (nat_of_ascii b) with 13%nat by lia]; reflexivity.
Qed.

Lemma regex_of x d : numbered x d -> regex_id x = Some d.
Proof.
  intros (a & -> & Hn & Hd & Ha). unfold regex_id. rewrite !list_of_app, !rev_app_distr, <- app_assoc.
  rewrite span_digits_app by (apply Forall_rev, Forall_forall; intros c Hc; now apply is_digit_iff, Hd).
  change (rev (list_ascii_of_string "::")) with [":"; ":"]%char. cbn [app]. rewrite span_digits_none by reflexivity.
  rewrite app_nil_r. destruct (rev (list_ascii_of_string d)) as [|c ds] eqn:E.
  - exfalso. apply Hn. apply (f_equal (@rev ascii)) in E. rewrite rev_involutive in E. now destruct d.
  - replace (forallb _ _) with true.
    + now rewrite <- E, rev_involutive, string_of_list_ascii_of_string.
    + symmetry. apply forallb_forall. intros b Hb. apply in_rev in Hb. destruct (Ha b Hb) as [N1 N2]. apply negb_true_iff, orb_false_iff.
      split; apply Ascii.eqb_neq; intros ->; [now apply N1|now apply N2].
Qed.

(** ** The first two colons *)
Lemma index_colons x : match index 0 "::" x with
  | Some k => exists a b, x = a ++ "::" ++ b /\ ~ has_colons (a ++ ":") /\ k = String.length a
  | None => ~ has_colons x end.
Proof.
  induction x as [|c x IH]; [intros (a & b & E); destruct a; discriminate|]. cbn [index].
  destruct (prefix "::" (String c x)) eqn:P.
  - cbn [prefix] in P. destruct (ascii_dec ":" c) as [<-|]; [|discriminate]. destruct x as [|c' x]; [discriminate|].
    cbn [prefix] in P. destruct (ascii_dec ":" c') as [<-|]; [|discriminate]. exists "", x. split; [reflexivity|]. split; [|reflexivity].
    intros (a & b & E). destruct a as [|a1 [|a2 a]]; discriminate E.
  - destruct (index 0 "::" x) as [k|].
    + destruct IH as (a & b & E & H & ->). exists (String c a), b. split; [cbn; now rewrite E|]. split; [|reflexivity].
      intros (a' & b' & E'). destruct a' as [|c' a'].
      * cbn in E'. injection E' as -> E'. subst x. destruct a as [|q a]; [discriminate P|].
        cbn in E'. injection E' as -> E'. destruct a; discriminate P.
      * cbn in E'. injection E' as -> E'. apply H. now exists a', b'.
    + intros (a & b & E). destruct a as [|c' a].
      * cbn in E. injection E as -> ->. destruct b; discriminate P.
      * cbn in E. injection E as -> ->. apply IH. now exists a, b.
Qed.

Lemma colons_first a b a' b' : a ++ "::" ++ b = a' ++ "::" ++ b' -> ~ has_colons (a ++ ":") -> ~ has_colons (a' ++ ":") -> a = a' /\ b = b'.
Proof.
  revert a'. induction a as [|c a IH]; intros [|c' a'] E H H'.
  - cbn in E. injection E as ->. auto.
  - exfalso. cbn in E. injection E as <- E. apply H'. destruct a' as [|q a']; cbn in E.
    + exists "", "". reflexivity.
    + injection E as <- E. exists "", (a' ++ ":"). reflexivity.
  - exfalso. cbn in E. injection E as -> E. apply H. destruct a as [|q a]; cbn in E.
    + exists "", "". reflexivity.
    + injection E as -> E. exists "", (a ++ ":"). reflexivity.
  - cbn in E. injection E as -> E. destruct (IH a' E) as [-> ->]; auto.
    + intros (p & q & F). apply H. exists (String c' p), q. cbn. now rewrite F.
    + intros (p & q & F). apply H'. exists (String c' p), q. cbn. now rewrite F.
Qed.

Lemma substring_app a b : substring (String.length a) (String.length b) (a ++ b) = b.
Proof. induction a as [|c a IH]; cbn; [now apply substring_all|exact IH]. Qed.

Lemma length_app_s a b : String.length (a ++ b) = (String.length a + String.length b)%nat.
Proof. induction a as [|c a IH]; cbn; [reflexivity|now rewrite IH]. Qed.

Lemma device_id_is cuda cur x r : device_id cuda cur x = r <-> stands cur cuda x r.
Proof.
  unfold device_id. destruct cuda.
  - pose proof (index_colons x) as H. destruct (index 0 "::" x) as [k|].
    + destruct H as (a & b & -> & Ha & ->).
      replace (substring _ _ _) with b.
      2:{ symmetry. rewrite <- (app_assoc_s a "::" b). replace (String.length a + 2)%nat with (String.length (a ++ "::")) by (rewrite length_app_s; reflexivity).
          rewrite (length_app_s (a ++ "::") b). replace (_ + _ - _)%nat with (String.length b) by lia. apply substring_app. }
      rewrite stoi_is. split; [intros H; now constructor|]. intros H. inversion H as [a' b' r' Hc Hi E1 E2 E3|x' Hc E1 E2 E3| |]; subst.
      * destruct (colons_first a' b' a b) as [-> ->]; auto.
      * elim Hc. now exists a, b.
    + split; [intros <-; now constructor|]. intros Hs. inversion Hs as [a' b' r' Hc Hi E1 E2 E3|x' Hc E1 E2 E3| |]; subst; auto.
      elim H. now exists a', b'.
  - destruct (regex_id x) as [d|] eqn:E.
    + apply regex_some in E as Hd. rewrite stoi_is. split; [intros H; now apply st_number with d|]. intros H.
      inversion H as [| |x' d' r' Hn Hi E1 E2|x' Hn E1 E2]; subst.
      * apply regex_of in Hn. assert (d' = d) by congruence. now subst.
      * elim (Hn d Hd).
    + split.
      * intros <-. apply st_no_number. intros d Hd. apply regex_of in Hd. congruence.
      * intros H. inversion H as [| |x' d' r' Hn Hi E1 E2|x' Hn E1 E2]; subst; auto. apply regex_of in Hn. congruence.
Qed.
