(** Facts about the drawing of allocations. *)
From Coq Require Import String Ascii HexString DecimalString.
From Verif Require JsonModel JsonSpec JsonFacts ParseFacts StoreFacts.
From Verif Require Import Base BaseFacts MapModel MapSpec MapFacts JudyModel AllocMapThms MapMain PrintModel PrintSpec PrintFacts PlotModel PlotSpec.

Local Notation "a ^^ b" := (String.append a b) (at level 60, right associativity).

(** ** The pattern *)

Definition stops (p : ascii -> bool) (s : string) : Prop := match s with EmptyString => True | String c _ => p c = false end.

Lemma span_inv p s : forall a r, span p s = (a, r) -> s = (a ^^ r)%string /\ all p a.
Proof.
  induction s as [|c s IH]; intros a r; cbn [span]; [intros [= <- <-]; split; [reflexivity|exact I]|].
  destruct (p c) eqn:E; [|intros [= <- <-]; split; [reflexivity|exact I]].
  destruct (span p s) as [a' r'] eqn:Es. intros [= <- <-]. destruct (IH a' r' eq_refl) as [-> H]. split; [reflexivity|]. split; auto.
Qed.
Lemma span_app p a r : all p a -> stops p r -> span p (a ^^ r)%string = (a, r).
Proof.
  intros Ha Hr. induction a as [|c a IH].
  - cbn [append]. destruct r as [|c r]; [reflexivity|]. cbn [span stops] in *. now rewrite Hr.
  - destruct Ha as [Hc Ha]. cbn [append span]. now rewrite Hc, (IH Ha).
Qed.
Lemma many1_inv p s a r : many1 p s = Some (a, r) -> s = (a ^^ r)%string /\ some p a.
Proof.
  unfold many1. destruct (span p s) as [[|c x] y] eqn:E; [discriminate|]. intros [= <- <-].
  apply span_inv in E as [-> H]. split; [reflexivity|]. split; [discriminate|exact H].
Qed.
Lemma many1_app p a r : some p a -> stops p r -> many1 p (a ^^ r)%string = Some (a, r).
Proof. intros [Hn Ha] Hr. unfold many1. rewrite (span_app p a r Ha Hr). destruct a; [congruence|reflexivity]. Qed.
Lemma strip_app t s : strip t (t ^^ s)%string = Some s.
Proof. induction t as [|c t IH]; [destruct s; reflexivity|]. cbn [append strip]. now rewrite Ascii.eqb_refl. Qed.
Lemma strip_inv t : forall s r, strip t s = Some r -> s = (t ^^ r)%string.
Proof.
  induction t as [|c t IH]; intros s r H; [destruct s; injection H as <-; reflexivity|]. destruct s as [|d s]; [discriminate|].
  cbn [strip] in H. destruct (Ascii.eqb_spec c d) as [->|]; [|discriminate]. cbn [append]. now rewrite (IH s r H).
Qed.

Lemma word_not_space c : is_word c = true -> is_space c = false.
Proof. unfold is_word, is_space, is_digit. lia. Qed.
Lemma space_not_word c : is_space c = true -> is_word c = false.
Proof. unfold is_word, is_space, is_digit. lia. Qed.
Lemma stops_some p q a r : (forall c, p c = true -> q c = false) -> some p a -> stops q (a ^^ r)%string.
Proof. intros H [Hn Ha]. destruct a as [|c a]; [congruence|]. cbn. apply H, Ha. Qed.

Definition matched_line (l a b : string) : Prop :=
  exists s0 c n s1 s2 s3 s4 rest,
    l = (s0 ^^ "size:" ^^ String c EmptyString ^^ n ^^ "," ^^ s1 ^^ "range:" ^^ s2 ^^ a ^^ s3 ^^ "--" ^^ s4 ^^ b ^^ "," ^^ rest)%string /\
    all is_space s0 /\ is_space c = true /\ some is_digit n /\ some is_space s1 /\ some is_space s2 /\ some is_word a /\
    some is_space s3 /\ some is_space s4 /\ some is_word b /\ rest <> EmptyString.

Lemma match_line_sound l a b : match_line l = Some (a, b) -> matched_line l a b.
Proof.
  unfold match_line, matched_line. destruct (span is_space l) as [s0 l1] eqn:E0. cbn [snd]. apply span_inv in E0 as [-> H0].
  destruct (strip "size:" l1) as [l2|] eqn:E; [|discriminate]. apply strip_inv in E as ->.
  destruct l2 as [|c l3]; [discriminate|]. destruct (is_space c) eqn:Hc; [|discriminate].
  destruct (many1 is_digit l3) as [[n l4]|] eqn:E; [|discriminate]. apply many1_inv in E as [-> Hn].
  destruct (strip "," l4) as [l5|] eqn:E; [|discriminate]. apply strip_inv in E as ->.
  destruct (many1 is_space l5) as [[s1 l6]|] eqn:E; [|discriminate]. apply many1_inv in E as [-> H1].
  destruct (strip "range:" l6) as [l7|] eqn:E; [|discriminate]. apply strip_inv in E as ->.
  destruct (many1 is_space l7) as [[s2 l8]|] eqn:E; [|discriminate]. apply many1_inv in E as [-> H2].
  destruct (many1 is_word l8) as [[a' l9]|] eqn:E; [|discriminate]. apply many1_inv in E as [-> Ha].
  destruct (many1 is_space l9) as [[s3 m1]|] eqn:E; [|discriminate]. apply many1_inv in E as [-> H3].
  destruct (strip "--" m1) as [m2|] eqn:E; [|discriminate]. apply strip_inv in E as ->.
  destruct (many1 is_space m2) as [[s4 m3]|] eqn:E; [|discriminate]. apply many1_inv in E as [-> H4].
  destruct (many1 is_word m3) as [[b' m4]|] eqn:E; [|discriminate]. apply many1_inv in E as [-> Hb].
  destruct (strip "," m4) as [m5|] eqn:E; [|discriminate]. apply strip_inv in E as ->.
  intros H. assert (Hm : m5 <> EmptyString /\ a' = a /\ b' = b) by (destruct m5; [discriminate|]; injection H as -> ->; auto with *).
  destruct Hm as (Hm & -> & ->). exists s0, c, n, s1, s2, s3, s4, m5. split; [reflexivity|]. auto 12.
Qed.

Lemma match_line_complete l a b : matched_line l a b -> match_line l = Some (a, b).
Proof.
  intros (s0 & c & n & s1 & s2 & s3 & s4 & rest & -> & H0 & Hc & Hn & H1 & H2 & Ha & H3 & H4 & Hb & Hr). unfold match_line.
  rewrite (span_app is_space s0) by (exact H0 || reflexivity). cbn [snd]. rewrite strip_app. cbn [append]. rewrite Hc.
  rewrite (many1_app is_digit n) by (exact Hn || reflexivity).
  match goal with |- context [strip "," (String "," ?x)] => change (strip "," (String "," x)) with (strip "," ("," ^^ x)%string) end.
  rewrite strip_app. rewrite (many1_app is_space s1) by (exact H1 || reflexivity).
  match goal with |- context [strip "range:" ?x] => change (strip "range:" x) with (strip "range:" ("range:" ^^ s2 ^^ a ^^ s3 ^^ "--" ^^ s4 ^^ b ^^ "," ^^ rest)%string) end.
  rewrite strip_app. rewrite (many1_app is_space s2) by (exact H2 || (apply (stops_some is_word); [exact word_not_space|exact Ha])).
  rewrite (many1_app is_word a) by (exact Ha || (apply (stops_some is_space); [exact space_not_word|exact H3])).
  rewrite (many1_app is_space s3) by (exact H3 || reflexivity). rewrite strip_app.
  rewrite (many1_app is_space s4) by (exact H4 || (apply (stops_some is_word); [exact word_not_space|exact Hb])).
  rewrite (many1_app is_word b) by (exact Hb || reflexivity). rewrite strip_app. destruct rest; [congruence|reflexivity].
Qed.
Lemma matched_is l a b : match_line l = Some (a, b) <-> matched_line l a b.
Proof. split; [apply match_line_sound|apply match_line_complete]. Qed.

Lemma space_is c : space c = is_space c.
Proof. destruct c as [[] [] [] [] [] [] [] []]; vm_compute; reflexivity. Qed.
Lemma digit_is c : digit c = is_digit c.
Proof. destruct c as [[] [] [] [] [] [] [] []]; vm_compute; reflexivity. Qed.
Lemma word_is c : word c = is_word c.
Proof. destruct c as [[] [] [] [] [] [] [] []]; vm_compute; reflexivity. Qed.
Lemma all_is p q s : (forall c, p c = q c) -> all p s <-> all q s.
Proof. intros H. induction s as [|c s IH]; cbn [all]; [tauto|]. rewrite H, IH. tauto. Qed.
Lemma some_is p q s : (forall c, p c = q c) -> some p s <-> some q s.
Proof. intros H. unfold some. rewrite (all_is p q s H). tauto. Qed.
Lemma record_matched l a b : record_line l a b <-> matched_line l a b.
Proof.
  unfold record_line, matched_line.
  split; intros (s0 & c & n & s1 & s2 & s3 & s4 & rest & H); exists s0, c, n, s1, s2, s3, s4, rest;
    rewrite ?(all_is space is_space _ space_is), ?(some_is space is_space _ space_is), ?(some_is word is_word _ word_is),
      ?(some_is digit is_digit _ digit_is), ?space_is in *; exact H.
Qed.
Lemma match_line_is l a b : match_line l = Some (a, b) <-> record_line l a b.
Proof. rewrite record_matched. apply matched_is. Qed.

(** ** Numbers *)

Lemma raw_pos : forall p rest,
  (exists u t, Raw.of_pos p rest = String u t /\ Ascii.eqb u "_" = false) /\
  (all is_word rest -> all is_word (Raw.of_pos p rest)) /\
  (forall b, hex_digits (Raw.of_pos p rest) 0 b = hex_digits rest (Zpos p) true).
Proof.
  fix IH 1. intros p rest.
  assert (one : forall c v, hex_value c = Some v -> Ascii.eqb c "_" = false -> is_word c = true ->
    (exists u t, String c rest = String u t /\ Ascii.eqb u "_" = false) /\
    (all is_word rest -> all is_word (String c rest)) /\
    (forall b, hex_digits (String c rest) 0 b = hex_digits rest v true)).
  { intros c v H1 H2 H3. split; [eauto|]. split; [intros H; split; auto|]. intros b. cbn [hex_digits]. now rewrite H2, H1. }
  assert (more : forall p' c v q, (exists u t, Raw.of_pos p' (String c rest) = String u t /\ Ascii.eqb u "_" = false) /\
      (all is_word (String c rest) -> all is_word (Raw.of_pos p' (String c rest))) /\
      (forall b, hex_digits (Raw.of_pos p' (String c rest)) 0 b = hex_digits (String c rest) (Zpos p') true) ->
      hex_value c = Some v -> Ascii.eqb c "_" = false -> is_word c = true -> Zpos q = 16 * Zpos p' + v ->
    (exists u t, Raw.of_pos p' (String c rest) = String u t /\ Ascii.eqb u "_" = false) /\
    (all is_word rest -> all is_word (Raw.of_pos p' (String c rest))) /\
    (forall b, hex_digits (Raw.of_pos p' (String c rest)) 0 b = hex_digits rest (Zpos q) true)).
  { intros p' c v q (I1 & I2 & I3) H1 H2 H3 H4. split; [exact I1|]. split; [intros H; apply I2; split; auto|].
    intros b. rewrite I3. cbn [hex_digits]. now rewrite H2, H1, <- H4. }
  destruct p as [[[[p'|p'|]|[p'|p'|]|]|[[p'|p'|]|[p'|p'|]|]|]|[[[p'|p'|]|[p'|p'|]|]|[[p'|p'|]|[p'|p'|]|]|]|]; cbn [Raw.of_pos];
    first [apply one; reflexivity|eapply more; [apply IH|reflexivity|reflexivity|reflexivity|reflexivity]].
Qed.

Lemma shown_word p : 0 <= p -> some is_word (shown_address p).
Proof.
  intros H. destruct p as [|p|p]; [repeat split; discriminate| |lia]. split; [discriminate|]. cbn [shown_address HexString.of_pos all].
  split; [reflexivity|]. split; [reflexivity|]. apply (raw_pos p ""%string). exact I.
Qed.
Lemma shown_int p : 0 <= p -> int16 (shown_address p) = Some p.
Proof.
  intros H. destruct p as [|p|p]; [reflexivity| |lia]. cbn [shown_address HexString.of_pos int16 Ascii.eqb Bool.eqb andb orb].
  destruct (raw_pos p ""%string) as ((u & t & E & Hu) & _ & Hd). specialize (Hd false). rewrite E in Hd |- *. rewrite Hu. exact Hd.
Qed.
Lemma shown_zero p : 0 <= p -> exists t, shown_address p = String "0" t.
Proof. intros H. destruct p as [|p|p]; [eexists; reflexivity|eexists; reflexivity|lia]. Qed.

Lemma uint_all u : all is_digit (NilEmpty.string_of_uint u).
Proof. induction u; cbn [NilEmpty.string_of_uint all]; [exact I|..]; split; (reflexivity || assumption). Qed.
Lemma decimal_digits n : some is_digit (decimal n).
Proof.
  unfold decimal, NilZero.string_of_uint. destruct (N.to_uint (Z.to_N n)) as [|u|u|u|u|u|u|u|u|u|u]; (split; [discriminate|]); try apply (uint_all _).
  split; [reflexivity|exact I].
Qed.

(** ** Lines *)

Definition unbroken (s : string) : Prop := all (fun c => negb (is_break c)) s.

Lemma lines_ne s : exists l ls, lines s = l :: ls.
Proof. destruct s as [|c s]; cbn [lines]; [eauto|]. destruct (is_break c); [eauto|]. destruct (lines s); eauto. Qed.
Lemma lines_app a b : lines (a ^^ newline ^^ b)%string = (lines a ++ lines b)%list.
Proof.
  induction a as [|c a IH]; [reflexivity|]. cbn [append lines]. destruct (is_break c).
  - cbn [List.app]. f_equal. exact IH.
  - change (lines (a ^^ newline ^^ b)%string) with (lines (a ^^ newline ^^ b)%string) in IH. cbn [append newline] in IH |- *.
    rewrite IH. destruct (lines_ne a) as (l & ls & ->). reflexivity.
Qed.
Lemma lines_pre a b : unbroken a -> lines (a ^^ b)%string = ((a ^^ hd "" (lines b))%string :: tl (lines b))%list.
Proof.
  induction a as [|c a IH]; intros H.
  - cbn [append]. destruct (lines_ne b) as (l & ls & ->). reflexivity.
  - destruct H as [Hc Ha]. cbn [append lines]. apply negb_true_iff in Hc. rewrite Hc, (IH Ha). reflexivity.
Qed.
Lemma all_app p a b : all p a -> all p b -> all p (a ^^ b)%string.
Proof. intros Ha Hb. induction a as [|c a IH]; [exact Hb|]. destruct Ha as [H1 H2]. cbn [append all]. split; auto. Qed.
Lemma all_mono (p q : ascii -> bool) s : (forall c, p c = true -> q c = true) -> all p s -> all q s.
Proof. intros H. induction s as [|c s IH]; [auto|]. intros [H1 H2]. split; auto. Qed.
Lemma word_unbroken s : all is_word s -> unbroken s.
Proof. apply all_mono. intros c. unfold is_word, is_digit, is_break. lia. Qed.

Lemma import_app l1 l2 r1 r2 : import_lines l1 = Ok tt r1 -> import_lines l2 = Ok tt r2 -> import_lines (l1 ++ l2)%list = Ok tt (r1 ++ r2)%list.
Proof.
  revert r1. induction l1 as [|l l1 IH]; intros r1 H1 H2; cbn [import_lines List.app] in *; [injection H1 as <-; exact H2|].
  destruct (match_line l) as [[a b]|]; [|auto]. destruct (int16 a), (int16 b); try discriminate.
  destruct (import_lines l1) as [[] t| | | |]; cbn [bind] in H1; try discriminate. injection H1 as <-. rewrite (IH t eq_refl H2). reflexivity.
Qed.
Lemma import_none ls : (forall l a b, In l ls -> ~ record_line l a b) -> import_lines ls = Ok tt [].
Proof.
  induction ls as [|l ls IH]; intros H; [reflexivity|]. cbn [import_lines]. destruct (match_line l) as [[a b]|] eqn:E.
  - elim (H l a b (or_introl eq_refl)). now apply match_line_is.
  - apply IH. intros l' a b Hi. apply H. now right.
Qed.

Section Text.
  Context (names : Z -> string) (trace : option (arec -> string)).

  Definition range_of (r : arec) : Z * Z := (r_ptr r, r_ptr r + r_size r).
  Definition before_name (r : arec) : string :=
    ("  size: " ^^ decimal (r_size r) ^^ ", range: " ^^ shown_address (r_ptr r) ^^ " -- " ^^ shown_address (r_ptr r + r_size r) ^^ ", name: ")%string.

  Lemma line_split r : line_of names trace r = ((before_name r ^^ after_range names trace r) ^^ newline)%string.
  Proof. unfold line_of, before_name, after_range. rewrite !app_str_assoc. reflexivity. Qed.

  Lemma before_unbroken r : 0 <= r_ptr r -> 0 <= r_size r -> unbroken (before_name r).
  Proof.
    intros H1 H2. unfold before_name, unbroken.
    assert (D : all (fun c => negb (is_break c)) (decimal (r_size r))).
    { eapply all_mono; [|apply decimal_digits]. intros c. unfold is_digit, is_break. cbn beta. lia. }
    assert (A : all (fun c => negb (is_break c)) (shown_address (r_ptr r))) by (apply word_unbroken, shown_word; lia).
    assert (B : all (fun c => negb (is_break c)) (shown_address (r_ptr r + r_size r))) by (apply word_unbroken, shown_word; lia).
    repeat (apply all_app); try assumption; cbn; repeat split.
  Qed.

  Lemma record_matches r u : 0 <= r_ptr r -> 0 <= r_size r ->
    match_line (before_name r ^^ u)%string = Some (shown_address (r_ptr r), shown_address (r_ptr r + r_size r)).
  Proof.
    intros H1 H2. apply matched_is. unfold matched_line, before_name. exists "  "%string, " "%char, (decimal (r_size r)), " "%string, " "%string, " "%string, " "%string, (" name: " ^^ u)%string.
    split; [rewrite !app_str_assoc; reflexivity|]. split; [repeat split|]. split; [reflexivity|]. split; [apply decimal_digits|].
    assert (S : some is_space " "%string) by (split; [discriminate|repeat split]).
    split; [exact S|]. split; [exact S|]. split; [apply shown_word; lia|]. split; [exact S|]. split; [exact S|]. split; [apply shown_word; lia|discriminate].
  Qed.

  Lemma import_record r : 0 <= r_ptr r -> 0 <= r_size r -> harmless (after_range names trace r) ->
    import_lines (lines (before_name r ^^ after_range names trace r)%string) = Ok tt [range_of r].
  Proof.
    intros H1 H2 H. rewrite lines_pre by (apply before_unbroken; assumption). cbn [import_lines].
    rewrite record_matches by assumption. rewrite !shown_int by lia. rewrite (import_none _ H). reflexivity.
  Qed.

  Definition fine (r : arec) : Prop := 0 <= r_ptr r /\ 0 <= r_size r /\ harmless (after_range names trace r).

  Lemma import_records L x rx : (forall r, In r L -> fine r) -> import_lines (lines x) = Ok tt rx ->
    import_lines (lines (joined (map (line_of names trace) L) ^^ x)%string) = Ok tt (map range_of L ++ rx)%list.
  Proof.
    induction L as [|r L IH]; intros H Hx; [exact Hx|]. cbn [map joined]. rewrite line_split, !app_str_assoc.
    rewrite <- (app_str_assoc (before_name r)). rewrite lines_app. destruct (H r (or_introl eq_refl)) as (H1 & H2 & H3).
    apply (import_app _ _ [range_of r]); [apply import_record; assumption|]. apply IH; [intros; apply H; now right|exact Hx].
  Qed.

  Lemma no_match_zero t : match_line (String "0" t) = None.
  Proof. reflexivity. Qed.

  Lemma import_paragraph k L x rx : 0 <= k -> (forall r, In r L -> fine r) -> import_lines (lines x) = Ok tt rx ->
    import_lines (lines (paragraph names trace k L ^^ x)%string) = Ok tt (map range_of L ++ rx)%list.
  Proof.
    intros Hk H Hx. unfold paragraph. destruct L as [|r L]; [exact Hx|]. set (l := r :: L) in *. clearbody l.
    rewrite !app_str_assoc. rewrite <- (app_str_assoc (shown_address k)), lines_app.
    apply (import_app _ _ []).
    - rewrite <- (app_str_nil (shown_address k ^^ " {")). rewrite lines_pre.
      + cbn [lines hd tl import_lines]. rewrite app_str_nil. destruct (shown_zero k Hk) as [t ->]. cbn [append]. rewrite no_match_zero. reflexivity.
      + apply all_app; [apply word_unbroken, shown_word, Hk|cbn; repeat split].
    - apply import_records; [exact H|]. change ("}" ^^ newline ^^ x)%string with ("}" ^^ newline ^^ x)%string. rewrite lines_app.
      apply (import_app _ _ []); [reflexivity|exact Hx].
  Qed.

  Lemma import_printout pred g ks x rx : (forall k, In k ks -> 0 <= k) -> (forall k r, In (k, r) g -> pred r = true -> fine r) ->
    import_lines (lines x) = Ok tt rx ->
    import_lines (lines (printout names trace pred g ks ^^ x)%string) =
      Ok tt (map range_of (flat_map (fun k => filter pred (records_at k g)) ks) ++ rx)%list.
  Proof.
    intros Hk H Hx. unfold printout. induction ks as [|k ks IH]; [exact Hx|]. cbn [map joined flat_map]. rewrite app_str_assoc, map_app, <- app_assoc.
    apply import_paragraph; [apply Hk; now left| |apply IH; intros; apply Hk; now right].
    intros r Hi. apply filter_In in Hi as [Hi Hp]. apply records_at_In in Hi. eapply H; eassumption.
  Qed.

  Lemma no_match_title t : match_line ("Allocations for " ^^ t)%string = None.
  Proof. reflexivity. Qed.

  Lemma import_text name s g ks : (forall k, In k ks -> 0 <= k) -> (forall k r, In (k, r) g -> r_strat r = s -> fine r) ->
    harmless (name ^^ " allocator:")%string ->
    import_from_file ("Allocations for " ^^ name ^^ " allocator:" ^^ newline ^^ printout names trace (fun r => (r_strat r =? s)%Z) g ks ^^ newline)%string =
      Ok tt (map range_of (listed s g ks)).
  Proof.
    intros Hk H Hn. unfold import_from_file. rewrite <- (app_str_assoc name), <- (app_str_assoc "Allocations for "), lines_app.
    change (Ok tt (map range_of (listed s g ks))) with (Ok tt ([] ++ map range_of (listed s g ks))%list : outcome unit (list (Z * Z))).
    apply import_app.
    - rewrite lines_pre by (cbn; repeat split). cbn [import_lines]. rewrite no_match_title. apply import_none. exact Hn.
    - rewrite <- (app_nil_r (map range_of _)). apply import_printout; [exact Hk| |reflexivity].
      intros k r Hi Hs. apply Z.eqb_eq in Hs. eapply H; eassumption.
  Qed.
End Text.

(** ** Rectangles *)

Definition gap_at (l : list (Z * Z)) (x : Z) : Prop := exists a u v b, l = (a ++ u :: v :: b)%list /\ x = snd u /\ fst v = snd u + 1.

Lemma paints_cons u l x : paints (u :: l) x <-> (fst u <= x < snd u) \/ paints l x.
Proof.
  unfold paints. split.
  - intros (a & b & [H|H] & Hx); [left; now subst u|right; eauto].
  - intros [H|(a & b & H & Hx)]; [exists (fst u), (snd u); destruct u; cbn; auto|exists a, b; cbn; auto].
Qed.
Lemma gap_cons u v l x : gap_at (u :: v :: l) x <-> (x = snd u /\ fst v = snd u + 1) \/ gap_at (v :: l) x.
Proof.
  unfold gap_at. split.
  - intros (a & p & q & b & E & H). destruct a as [|y a]; cbn [List.app] in E; injection E.
    + intros _ <- <-. now left.
    + intros E' _. right. exists a, p, q, b. auto.
  - intros [H|(a & p & q & b & E & H)]; [exists [], u, v, l; auto|exists (u :: a), p, q, b; rewrite E; auto].
Qed.
Lemma gap_one u x : ~ gap_at [u] x.
Proof. intros (a & p & q & b & E & _). apply (f_equal (@length _)) in E. rewrite app_length in E. cbn in E. lia. Qed.
Lemma gap_end u v l x : snd u = snd v -> (gap_at (u :: l) x <-> gap_at (v :: l) x).
Proof. intros H. destruct l as [|w l]; [split; intros G; elim (gap_one _ _ G)|]. rewrite !gap_cons, H. reflexivity. Qed.

Lemma coalesce_paints l : forall last x, fst last <= snd last -> (forall u, In u l -> fst u <= snd u) ->
  (paints (coalesce_from last l) x <-> paints (last :: l) x \/ gap_at (last :: l) x).
Proof.
  induction l as [|u l IH]; intros last x Hl H; cbn [coalesce_from].
  - split; [auto|]. intros [G|G]; [exact G|elim (gap_one _ _ G)].
  - assert (Hu : fst u <= snd u) by (apply H; now left). assert (H' : forall w, In w l -> fst w <= snd w) by (intros; apply H; now right).
    rewrite gap_cons. destruct (Z.eqb_spec (fst u) (snd last + 1)) as [E|E].
    + rewrite IH by (cbn; auto; lia). rewrite !paints_cons. cbn [fst snd]. rewrite (gap_end (fst last, snd u) u l x) by reflexivity.
      assert (fst last <= x < snd u <-> fst last <= x < snd last \/ fst u <= x < snd u \/ x = snd last) by lia. tauto.
    + rewrite (paints_cons last (coalesce_from u l)), (paints_cons last (u :: l)), IH by auto. tauto.
Qed.
Lemma coalesce_first l : forall u, first_start (coalesce_from u l) = fst u.
Proof. induction l as [|v l IH]; intros u; cbn [coalesce_from]; [reflexivity|]. destruct (_ =? _); [rewrite IH|]; reflexivity. Qed.
Lemma coalesce_ne l : forall u, coalesce_from u l <> [].
Proof. induction l as [|v l IH]; intros u; cbn [coalesce_from]; [discriminate|]. destruct (_ =? _); [apply IH|discriminate]. Qed.
Lemma coalesce_last l : forall u, last_end (coalesce_from u l) = last_end (u :: l).
Proof.
  unfold last_end. induction l as [|v l IH]; intros u; cbn [coalesce_from]; [reflexivity|]. destruct (_ =? _).
  - rewrite IH. destruct l; reflexivity.
  - change (List.last (u :: coalesce_from v l) (0, 0)) with (match coalesce_from v l with [] => u | _ => List.last (coalesce_from v l) (0, 0) end).
    change (List.last (u :: v :: l) (0, 0)) with (List.last (v :: l) (0, 0)). rewrite <- IH. pose proof (coalesce_ne l v). destruct (coalesce_from v l); [congruence|reflexivity].
Qed.

Lemma scale_ok n : n <= 10000 * 1024 ^ 3 -> exists d u, find_scale ["Bytes"; "kB"; "MB"; "GB"]%string 1 n = Ok tt (d, u) /\ well_scaled n d u.
Proof.
  intros H. cbn [find_scale].
  destruct (Z.leb_spec n (10000 * 1)); [do 2 eexists; split; [reflexivity|]; exists 0%nat; repeat split; try lia|].
  destruct (Z.leb_spec n (10000 * (1 * 1024))).
  { do 2 eexists; split; [reflexivity|]. exists 1%nat. split; [reflexivity|]. split; [lia|]. split; [reflexivity|]. split; [exact H1|].
    intros j Hj. replace j with 0%nat by lia. cbn. lia. }
  destruct (Z.leb_spec n (10000 * (1 * 1024 * 1024))).
  { do 2 eexists; split; [reflexivity|]. exists 2%nat. split; [reflexivity|]. split; [lia|]. split; [reflexivity|]. split; [exact H2|].
    intros j Hj. destruct j as [|[|j]]; [| |lia]; cbn; lia. }
  destruct (Z.leb_spec n (10000 * (1 * 1024 * 1024 * 1024))); [|lia].
  do 2 eexists; split; [reflexivity|]. exists 3%nat. split; [reflexivity|]. split; [lia|]. split; [reflexivity|]. split; [exact H3|].
  intros j Hj. destruct j as [|[|[|j]]]; [| | |lia]; cbn; lia.
Qed.
Lemma scale_far n : 10000 * 1024 ^ 3 < n -> find_scale ["Bytes"; "kB"; "MB"; "GB"]%string 1 n = Throw tt RuntimeError.
Proof.
  intros H. cbn [find_scale]. destruct (Z.leb_spec n (10000 * 1)); [lia|]. destruct (Z.leb_spec n (10000 * (1 * 1024))); [lia|].
  destruct (Z.leb_spec n (10000 * (1 * 1024 * 1024))); [lia|]. destruct (Z.leb_spec n (10000 * (1 * 1024 * 1024 * 1024))); [lia|reflexivity].
Qed.

(** ** The picture *)

Lemma ascending_lt k ks : ascending (k :: ks) -> forall k', In k' ks -> k < k'.
Proof. intros [H _]. exact H. Qed.
Lemma ascending_tl k ks : ascending (k :: ks) -> ascending ks.
Proof. intros [_ H]. exact H. Qed.

Lemma listed_In s g ks r : In r (listed s g ks) <-> exists k, In k ks /\ In (k, r) g /\ r_strat r = s.
Proof.
  unfold listed. rewrite in_flat_map. split.
  - intros (k & Hk & Hi). apply filter_In in Hi as [Hi Hs]. apply records_at_In in Hi. apply Z.eqb_eq in Hs. eauto.
  - intros (k & Hk & Hi & Hs). exists k. split; [exact Hk|]. apply filter_In. split; [now apply records_at_In|now apply Z.eqb_eq].
Qed.
Lemma listed_first s g ks r0 l : ascending ks -> keyed g -> listed s g ks = r0 :: l -> forall r, In r (listed s g ks) -> r_ptr r0 <= r_ptr r.
Proof.
  intros Ha Hk. revert Ha. induction ks as [|k ks IH]; intros Ha E r Hr; [discriminate|]. unfold listed in E, Hr. cbn [flat_map] in E, Hr. fold (listed s g ks) in E, Hr.
  destruct (filter (fun r => r_strat r =? s) (records_at k g)) as [|r1 f] eqn:Ef; cbn [List.app] in E, Hr.
  - apply IH; auto. now apply ascending_tl in Ha.
  - injection E as -> _. assert (K : forall r', In r' (r0 :: f) -> r_ptr r' = k).
    { intros r' Hi. rewrite <- Ef in Hi. apply filter_In in Hi as [Hi _]. apply records_at_In in Hi. now apply Hk. }
    rewrite (K r0 (or_introl eq_refl)). change (r0 :: f ++ listed s g ks) with ((r0 :: f) ++ listed s g ks) in Hr. apply in_app_or in Hr as [Hr|Hr].
    + rewrite (K r Hr). lia.
    + apply listed_In in Hr as (k' & Hk' & Hi & _). rewrite (Hk k' r Hi). pose proof (ascending_lt k ks Ha k' Hk'). lia.
Qed.

Definition moved (f : Z) (x : Z * Z) : Z * Z := (fst x - f, snd x - f).

Lemma moved_paints f L y : paints (map (moved f) (map range_of L)) (y - f) <-> exists r, In r L /\ r_ptr r <= y < r_ptr r + r_size r.
Proof.
  unfold paints. rewrite map_map. split.
  - intros (a & b & Hi & Hx). apply in_map_iff in Hi as (r & E & Hr). injection E as <- <-. exists r. split; [exact Hr|]. lia.
  - intros (r & Hr & Hx). exists (r_ptr r - f), (r_ptr r + r_size r - f). split; [|lia]. apply in_map_iff. exists r. auto.
Qed.
Lemma moved_gap f L y : gap_at (map (moved f) (map range_of L)) (y - f) <-> lone_gap L y.
Proof.
  unfold gap_at, lone_gap. rewrite map_map. split.
  - intros (a & u & v & b & E & Hx & Hv). apply map_eq_app in E as (l1 & l2 & -> & <- & E). apply map_eq_cons in E as (r & l3 & -> & <- & E).
    apply map_eq_cons in E as (r' & l4 & -> & <- & <-). exists l1, r, r', l4. cbn in Hx, Hv. split; [reflexivity|]. lia.
  - intros (l1 & r & r' & l4 & -> & Hy & Hr). exists (map (fun x => moved f (range_of x)) l1), (moved f (range_of r)), (moved f (range_of r')), (map (fun x => moved f (range_of x)) l4).
    rewrite map_app. split; [reflexivity|]. cbn. lia.
Qed.

Lemma last_cons {A} (l : list A) : forall y z, List.last (y :: l) z = List.last l y.
Proof. induction l as [|x l IH]; intros y z; [reflexivity|]. change (List.last (y :: x :: l) z) with (List.last (x :: l) z). now rewrite !IH. Qed.

Lemma ranges_ok t r0 l : import_from_file t = Ok tt (map range_of (r0 :: l)) -> (forall r, In r (r0 :: l) -> 0 <= r_size r) ->
  exists rects, ranges_of t = Ok tt rects /\ first_start rects = 0 /\
    last_end rects = r_ptr (List.last l r0) + r_size (List.last l r0) - r_ptr r0 /\
    forall y, paints rects (y - r_ptr r0) <-> (exists r, In r (r0 :: l) /\ r_ptr r <= y < r_ptr r + r_size r) \/ lone_gap (r0 :: l) y.
Proof.
  intros E H. unfold ranges_of. rewrite E. cbn [bind map]. change (range_of r0 :: map range_of l) with (map range_of (r0 :: l)).
  change (fst (range_of r0)) with (r_ptr r0). change (fun x : Z * Z => (fst x - r_ptr r0, snd x - r_ptr r0)) with (moved (r_ptr r0)).
  eexists. split; [reflexivity|]. split; [rewrite coalesce_first; cbn; lia|]. split.
  - rewrite coalesce_last. unfold last_end.
    assert (G : forall z, List.last (moved (r_ptr r0) (range_of z) :: map (moved (r_ptr r0)) (map range_of l)) (0, 0) = moved (r_ptr r0) (range_of (List.last l z))).
    { clear. induction l as [|y l IH]; intros z; [reflexivity|]. rewrite (last_cons l y z). cbn [map]. exact (IH y). }
    etransitivity; [exact (f_equal snd (G r0))|reflexivity].
  - intros y. rewrite coalesce_paints.
    + transitivity (paints (map (moved (r_ptr r0)) (map range_of (r0 :: l))) (y - r_ptr r0) \/ gap_at (map (moved (r_ptr r0)) (map range_of (r0 :: l))) (y - r_ptr r0)); [reflexivity|].
      rewrite moved_paints, moved_gap. reflexivity.
    + cbn. pose proof (H r0 (or_introl eq_refl)). lia.
    + intros u Hu. rewrite map_map in Hu. apply in_map_iff in Hu as (r & <- & Hr). cbn. pose proof (H r (or_intror Hr)). lia.
Qed.

Lemma plot_one t rects d u : ranges_of t = Ok tt rects ->
  find_scale ["Bytes"; "kB"; "MB"; "GB"]%string 1 (last_end rects - first_start rects) = Ok tt (d, u) -> plot_allocations [t] = Ok tt (mkPicture [rects] d u).
Proof. intros E F. unfold plot_allocations. cbn [ranges_of_all]. rewrite E. cbn [bind]. unfold plot_ranges. cbn [map greatest least fold_left]. rewrite F. reflexivity. Qed.

Lemma plot_one_far t rects : ranges_of t = Ok tt rects -> 10000 * 1024 ^ 3 < last_end rects - first_start rects -> plot_allocations [t] = Throw tt RuntimeError.
Proof. intros E F. unfold plot_allocations. cbn [ranges_of_all]. rewrite E. cbn [bind]. unfold plot_ranges. cbn [map greatest least fold_left]. rewrite (scale_far _ F). reflexivity. Qed.

Section Picture.
  Context (names : Z -> string) (trace : option (arec -> string)).

  Lemma reads_ok g a fuel addr name s :
    ahist JR any_keys (g, a) -> blocks g -> ~ registered g 0 -> (length g < fuel)%nat -> addr <> 0 -> keyed g ->
    (forall k r, In (k, r) g -> r_strat r = s -> harmless (after_range names trace r)) -> harmless (name ^^ " allocator:")%string ->
    (exists k r, In (k, r) g /\ r_strat r = s) ->
    exists a' t ks r0 l, print_records JR names trace fuel addr name s a = Ok a' t /\ addresses g ks /\ listed s g ks = r0 :: l /\
      import_from_file t = Ok tt (map range_of (listed s g ks)) /\ lowest s g (r_ptr r0) /\ forall r, In r (r0 :: l) -> 0 <= r_size r.
  Proof.
    intros Hh Hb H0 Hf Ha Hk Hq Hn (k & r & Hi & Hs).
    destruct (records_text_ok names trace g a fuel addr name s Hh Hb H0 Hf Ha) as (a' & t & E & _ & Ht).
    destruct (Ht k r Hi Hs) as (ks & Hks & ->). destruct Hks as [Hks1 Hks2].
    assert (Hr : In r (listed s g ks)).
    { apply listed_In. exists k. split; [|auto]. apply Hks2. unfold registered. apply in_map_iff. exists (k, r). auto. }
    destruct (listed s g ks) as [|r0 l] eqn:El; [destruct Hr|].
    eexists a', _, ks, r0, l. split; [exact E|]. split; [split; assumption|]. split; [exact El|]. rewrite <- El.
    assert (Hin : forall r', In r' (r0 :: l) -> exists k', In (k', r') g /\ r_strat r' = s).
    { intros r' Hr'. rewrite <- El in Hr'. apply listed_In in Hr' as (k' & _ & H1 & H2). eauto. }
    split; [|split].
    - apply import_text; [| |exact Hn].
      + intros k' Hk'. apply Hks2 in Hk'. unfold registered in Hk'. apply in_map_iff in Hk' as ((k'' & r') & Ek & Hi'). cbn in Ek. subst k''.
        rewrite <- (Hk k' r' Hi'). apply (Hb k' r' Hi').
      + intros k' r' Hi' Hs'. destruct (Hb k' r' Hi') as (B1 & B2 & _). split; [exact B1|]. split; [exact B2|]. eapply Hq; eassumption.
    - split.
      + destruct (Hin r0 (or_introl eq_refl)) as (k0 & H1 & H2). eauto.
      + intros k' r' Hi' Hs'. apply (listed_first s g ks r0 l Hks1 Hk El). apply listed_In. exists k'. split; [|auto]. apply Hks2. unfold registered. apply in_map_iff. exists (k', r'). auto.
    - intros r' Hr'. rewrite El in Hr'. destruct (Hin r' Hr') as (k' & Hi' & _). apply (Hb k' r' Hi').
  Qed.

  Lemma picture_ok g a fuel addr name s :
    ahist JR any_keys (g, a) -> blocks g -> ~ registered g 0 -> (length g < fuel)%nat -> addr <> 0 -> keyed g ->
    (forall k r, In (k, r) g -> r_strat r = s -> harmless (after_range names trace r)) -> harmless (name ^^ " allocator:")%string ->
    (exists k r, In (k, r) g /\ r_strat r = s) -> within s g (10000 * 2 ^ 30) ->
    exists a' t ks first rects denom unit z l, print_records JR names trace fuel addr name s a = Ok a' t /\ addresses g ks /\ lowest s g first /\
      plot_allocations [t] = Ok tt (mkPicture [rects] denom unit) /\
      (forall y, paints rects (y - first) <-> in_use s g y \/ lone_gap (listed s g ks) y) /\
      listed s g ks = (l ++ [z])%list /\ well_scaled (r_ptr z + r_size z - first) denom unit.
  Proof.
    intros Hh Hb H0 Hf Ha Hk Hq Hn Hs Hw.
    destruct (reads_ok g a fuel addr name s Hh Hb H0 Hf Ha Hk Hq Hn Hs) as (a' & t & ks & r0 & l & E & Hks & El & Hi & Hl & Hsz). rewrite El in Hi.
    destruct (ranges_ok t r0 l Hi Hsz) as (rects & Er & F1 & F2 & Hp).
    assert (Hin : forall r', In r' (r0 :: l) -> exists k', In (k', r') g /\ r_strat r' = s).
    { intros r' Hr'. rewrite <- El in Hr'. apply listed_In in Hr' as (k' & _ & H1 & H2). eauto. }
    assert (Hz : In (List.last l r0) (r0 :: l)).
    { destruct l as [|y l]; [now left|]. right. destruct (@exists_last _ (y :: l) ltac:(discriminate)) as (m & z & ->). rewrite last_last. apply in_or_app. right. now left. }
    destruct (scale_ok (last_end rects - first_start rects)) as (d & u & Hd & Hu).
    { rewrite F1, F2. destruct (Hin _ (or_introl eq_refl)) as (k1 & A1 & A2). destruct (Hin _ Hz) as (k2 & B1 & B2). pose proof (Hw k1 r0 k2 _ A1 B1 A2 B2). lia. }
    exists a', t, ks, (r_ptr r0), rects, d, u, (List.last l r0), (removelast (r0 :: l)). split; [exact E|]. split; [exact Hks|]. split; [exact Hl|].
    split; [apply plot_one; assumption|]. split; [|split].
    - intros y. rewrite Hp, <- El. unfold in_use. split; (intros [G|G]; [left|right; exact G]).
      + destruct G as (r & Hr & Hy). apply listed_In in Hr as (k & _ & H1 & H2). eauto.
      + destruct G as (k & r & H1 & H2 & Hy). exists r. split; [|exact Hy]. apply listed_In. exists k. split; [|auto]. apply Hks. unfold registered. apply in_map_iff. exists (k, r). auto.
    - rewrite El. rewrite (app_removelast_last r0) at 1 by discriminate. rewrite last_cons. reflexivity.
    - rewrite F1, F2 in Hu. replace (r_ptr (List.last l r0) + r_size (List.last l r0) - r_ptr r0) with (r_ptr (List.last l r0) + r_size (List.last l r0) - r_ptr r0 - 0) by lia. exact Hu.
  Qed.

  (** An allocator whose last allocation ends too far from its lowest. *)
  Lemma picture_far g a fuel addr name s :
    ahist JR any_keys (g, a) -> blocks g -> ~ registered g 0 -> (length g < fuel)%nat -> addr <> 0 -> keyed g ->
    (forall k r, In (k, r) g -> r_strat r = s -> harmless (after_range names trace r)) -> harmless (name ^^ " allocator:")%string ->
    (exists k r k' r', In (k, r) g /\ In (k', r') g /\ r_strat r = s /\ r_strat r' = s /\ 10000 * 2 ^ 30 < r_ptr r' - r_ptr r) ->
    exists a' t, print_records JR names trace fuel addr name s a = Ok a' t /\ plot_allocations [t] = Throw tt RuntimeError.
  Proof.
    intros Hh Hb H0 Hf Ha Hk Hq Hn (k & r & k' & r' & Hi1 & Hi2 & Hs1 & Hs2 & Hfar).
    destruct (reads_ok g a fuel addr name s Hh Hb H0 Hf Ha Hk Hq Hn ltac:(eauto)) as (a' & t & ks & r0 & l & E & [Hks1 Hks2] & El & Hi & Hl & Hsz). rewrite El in Hi.
    destruct (ranges_ok t r0 l Hi Hsz) as (rects & Er & F1 & F2 & _). exists a', t. split; [exact E|]. apply (plot_one_far t rects Er). rewrite F1, F2.
    assert (H1 : r_ptr r0 <= r_ptr r) by (apply (proj2 Hl k r Hi1 Hs1)).
    assert (Hr' : In r' (listed s g ks)) by (apply listed_In; exists k'; split; [apply Hks2; unfold registered; apply in_map_iff; exists (k', r'); auto|auto]).
    assert (H2 : r_ptr r' <= r_ptr (List.last (listed s g ks) r0)).
    { clear - Hks1 Hk Hr'. revert Hr'. induction ks as [|j ks IH]; intros Hr'; [destruct Hr'|]. unfold listed in *. cbn [flat_map] in *. fold (listed s g ks) in *.
      assert (K : forall x, In x (filter (fun r => r_strat r =? s) (records_at j g)) -> r_ptr x = j).
      { intros x Hx. apply filter_In in Hx as [Hx _]. apply records_at_In in Hx. now apply Hk. }
      destruct (listed s g ks) as [|r1 m] eqn:Em.
      - rewrite app_nil_r in *. rewrite (K r' Hr'). destruct (filter _ _) as [|x f] eqn:Ef; [destruct Hr'|].
        rewrite (app_removelast_last r0 (l := x :: f)) by discriminate. rewrite last_last. rewrite <- Ef. rewrite K; [lia|]. rewrite Ef.
        destruct (@exists_last _ (x :: f) ltac:(discriminate)) as (w & z & ->). rewrite last_last. apply in_or_app. right. now left.
      - assert (L : forall y, List.last (y ++ r1 :: m) r0 = List.last (r1 :: m) r0).
        { intros y. induction y as [|y0 y IHy]; [reflexivity|]. change ((y0 :: y) ++ r1 :: m)%list with (y0 :: (y ++ r1 :: m))%list.
          destruct (y ++ r1 :: m)%list eqn:Ey; [destruct y; discriminate|]. exact IHy. }
        rewrite L. apply in_app_or in Hr' as [Hr'|Hr'].
        + rewrite (K r' Hr'). assert (Hz : In (List.last (r1 :: m) r0) (listed s g ks)).
          { rewrite Em. destruct (@exists_last _ (r1 :: m) ltac:(discriminate)) as (w & z & ->). rewrite last_last. apply in_or_app. right. now left. }
          apply listed_In in Hz as (k' & Hk' & Hi & _). rewrite (Hk k' _ Hi). pose proof (ascending_lt j ks Hks1 k' Hk'). lia.
        + apply IH; [now apply ascending_tl in Hks1|exact Hr']. }
    rewrite El in H2. assert (H3 : List.last (r0 :: l) r0 = List.last l r0) by apply last_cons. rewrite H3 in H2.
    assert (H4 : 0 <= r_size (List.last l r0)).
    { apply Hsz. destruct l as [|y l]; [now left|]. right. destruct (@exists_last _ (y :: l) ltac:(discriminate)) as (m & z & ->). rewrite last_last. apply in_or_app. right. now left. }
    lia.
  Qed.
End Picture.

(** ** The other script *)
Lemma traces_none strtod e : JsonSpec.fits e -> JsonSpec.utf8_ev e ->
  exists t j, JsonModel.dump (JsonModel.to_json e) = JsonModel.DOk t /\ JsonModel.parse strtod t = JsonModel.POk j /\
    JsonModel.from_json j = JsonModel.COk e /\ forall l, traces_begin (j :: l) = Throw tt RuntimeError.
Proof.
  intros F U. pose proof (JsonFacts.good_raw _ (StoreFacts.to_json_good e F U)) as G. destruct (JsonFacts.dump_lexes _ G) as (t & D & P & _).
  exists t, (ParseFacts.canon (JsonModel.to_json e)). split; [exact D|]. split; [apply ParseFacts.parse_dump; assumption|].
  split; [apply StoreFacts.from_to; exact F|]. intros l. reflexivity.
Qed.

(** ** Several files *)
Lemma ranges_first t rs : ranges_of t = Ok tt rs -> first_start rs = 0.
Proof.
  unfold ranges_of. destruct (import_from_file t) as [[] al| | | |]; cbn [bind]; try discriminate.
  destruct al as [|a al]; [discriminate|]. cbn [map coalesce_records]. intros E. injection E as <-. rewrite coalesce_first. cbn [fst]. lia.
Qed.
Definition axis (e : Z) : outcome unit (Z * string) := find_scale ["Bytes"; "kB"; "MB"; "GB"]%string 1 e.
Lemma drawn_alone t rs d u : plot_allocations [t] = Ok tt (mkPicture [rs] d u) -> ranges_of t = Ok tt rs /\ axis (last_end rs) = Ok tt (d, u).
Proof.
  unfold plot_allocations. cbn [ranges_of_all]. destruct (ranges_of t) as [[] r| | | |] eqn:E; cbn [bind]; try discriminate.
  unfold plot_ranges. cbn [map greatest least fold_left]. rewrite (ranges_first t r E), Z.sub_0_r. fold (axis (last_end r)).
  destruct (axis (last_end r)) as [[] [d' u']| | | |] eqn:E'; cbn [bind]; try discriminate. intros H. injection H as -> -> ->. auto.
Qed.
Lemma find_scale_mono l : forall k e e' r r', 0 < k -> e <= e' -> find_scale l k e = Ok tt r -> find_scale l k e' = Ok tt r' -> fst r <= fst r'.
Proof.
  induction l as [|s l IH]; intros k e e' r r' Hk He; cbn [find_scale]; [discriminate|].
  assert (low : forall l k e r, 0 < k -> find_scale l k e = Ok tt r -> k <= fst r).
  { clear. induction l as [|s l IH]; intros k e r Hk; cbn [find_scale]; [discriminate|].
    destruct (e <=? 10000 * k); [intros H; injection H as <-; cbn; lia|]. intros H. apply IH in H; lia. }
  destruct (e <=? 10000 * k) eqn:A, (e' <=? 10000 * k) eqn:B; try lia.
  - intros H H'. injection H as <-. injection H' as <-. lia.
  - intros H H'. injection H as <-. apply low in H'; cbn [fst]; lia.
  - apply IH; lia.
Qed.
Lemma fold_max l : forall x, let m := fold_left Z.max l x in In m (x :: l) /\ forall y, In y (x :: l) -> y <= m.
Proof.
  induction l as [|z l IH]; intros x; cbn [fold_left].
  - split; [now left|]. intros y [<-|[]]. lia.
  - destruct (IH (Z.max x z)) as [H1 H2]. split.
    + destruct H1 as [<-|H1]; [|right; now right]. destruct (Z.max_spec x z) as [[_ ->]|[_ ->]]; [right; now left|now left].
    + intros y [<-|[<-|Hy]]; [| |apply H2; now right]; specialize (H2 (Z.max x z) (or_introl eq_refl)); lia.
Qed.
Lemma fold_zero l : Forall (fun x => x = 0) l -> fold_left Z.min l 0 = 0.
Proof. induction 1 as [|x l -> _ IH]; cbn [fold_left]; auto. Qed.

Lemma several files rss : files <> [] ->
  Forall2 (fun t rs => exists d u, plot_allocations [t] = Ok tt (mkPicture [rs] d u)) files rss ->
  exists t rs d u, In t files /\ plot_allocations [t] = Ok tt (mkPicture [rs] d u) /\
    plot_allocations files = Ok tt (mkPicture rss d u) /\
    forall t' rs' d' u', In t' files -> plot_allocations [t'] = Ok tt (mkPicture [rs'] d' u') -> d' <= d.
Proof.
  intros Hn H.
  assert (R : ranges_of_all files = Ok tt rss).
  { clear Hn. induction H as [|t rs fs rss' (d & u & E) _ IH]; cbn [ranges_of_all]; [reflexivity|].
    apply drawn_alone in E as (-> & _). cbn [bind]. rewrite IH. reflexivity. }
  assert (Z0 : Forall (fun x => x = 0) (map first_start rss)).
  { clear Hn R. induction H as [|t rs fs rss' (d & u & E) _ IH]; cbn [map]; [constructor|]. constructor; [|exact IH].
    apply drawn_alone in E as (E & _). eapply ranges_first; exact E. }
  destruct rss as [|r0 rss']; [inversion H; congruence|].
  assert (L : least (map first_start (r0 :: rss')) = 0).
  { cbn [map least] in *. inversion Z0 as [|? ? Z1 Z2]; subst. rewrite Z1. apply fold_zero. exact Z2. }
  assert (G : In (greatest (map last_end (r0 :: rss'))) (map last_end (r0 :: rss')) /\
              forall y, In y (map last_end (r0 :: rss')) -> y <= greatest (map last_end (r0 :: rss'))).
  { cbn [map greatest]. apply fold_max. }
  destruct G as [G1 G2]. apply in_map_iff in G1 as (rs & G1 & Gi).
  assert (B : exists t, In t files /\ exists d u, plot_allocations [t] = Ok tt (mkPicture [rs] d u)).
  { clear - H Gi. induction H as [|t rs' fs rss'' E _ IH]; [destruct Gi|]. destruct Gi as [<-|Gi]; [exists t; split; [now left|exact E]|].
    destruct (IH Gi) as (t' & A & C). exists t'. split; [now right|exact C]. }
  destruct B as (t & Ht & d & u & E). pose proof (drawn_alone _ _ _ _ E) as (E1 & E2).
  exists t, rs, d, u. split; [exact Ht|]. split; [exact E|]. split.
  - unfold plot_allocations. rewrite R. cbn [bind]. unfold plot_ranges. rewrite L, Z.sub_0_r, <- G1. fold (axis (last_end rs)). rewrite E2. reflexivity.
  - intros t' rs' d' u' Ht' E'. apply drawn_alone in E' as (F1 & F2).
    assert (I : In rs' (r0 :: rss')).
    { clear - H Ht' F1. induction H as [|t rs fs rss'' (d & u & E) _ IH]; [destruct Ht'|]. destruct Ht' as [->|Ht']; [|right; auto].
      apply drawn_alone in E as (E & _). left. congruence. }
    apply (find_scale_mono ["Bytes"; "kB"; "MB"; "GB"]%string 1 (last_end rs') (last_end rs) (d', u') (d, u)); [lia| |exact F2|exact E2].
    rewrite G1. apply G2. apply in_map_iff. eauto.
Qed.

(** ** Numbers *)

Lemma digit16 c v : hex_value c = Some v <-> In (c, v) digits16.
Proof.
  split.
  - destruct c as [[|] [|] [|] [|] [|] [|] [|] [|]]; vm_compute; intros H; try discriminate H; injection H as <-; auto 30.
  - intros H. cbn in H. repeat (destruct H as [H|H]; [injection H as <- <-; reflexivity|]). destruct H.
Qed.
Lemma digit_not_under c v : hex_value c = Some v -> Ascii.eqb c "_" = false.
Proof. destruct (Ascii.eqb c "_") eqn:E; [|reflexivity]. apply Ascii.eqb_eq in E. subst c. discriminate. Qed.

Lemma append_assoc a b c : ((a ^^ b) ^^ c = a ^^ b ^^ c)%string.
Proof. induction a as [|x a IH]; [reflexivity|]. cbn [append]. now rewrite IH. Qed.
Lemma append_nil a : (a ^^ "")%string = a.
Proof. induction a as [|x a IH]; [reflexivity|]. cbn [append]. now rewrite IH. Qed.

Lemma numeral_reads s n : numeral s n -> forall t, hex_digits (s ^^ t)%string 0 false = hex_digits t n true.
Proof.
  induction 1 as [c v H|s n c v _ IH H|s n c v _ IH H]; intros t; apply digit16 in H as H'; pose proof (digit_not_under c v H') as Hu.
  - cbn [append hex_digits]. now rewrite Hu, H'.
  - rewrite append_assoc, IH. cbn [append hex_digits]. now rewrite Hu, H'.
  - rewrite append_assoc, IH. cbn [append hex_digits]. rewrite Ascii.eqb_refl. now rewrite Hu, H'.
Qed.
Lemma reads_numeral s : forall p n m, numeral p n ->
  (hex_digits s n true = Some m -> numeral (p ^^ s)%string m) /\ (hex_digits s n false = Some m -> numeral (p ^^ String "_" s)%string m).
Proof.
  induction s as [|c s IH]; intros p n m Hp; cbn [hex_digits].
  - split; [intros [= <-]; now rewrite append_nil|discriminate].
  - destruct (Ascii.eqb c "_") eqn:Eu.
    + apply Ascii.eqb_eq in Eu. subst c. split; [|discriminate]. apply (IH p n m Hp).
    + destruct (hex_value c) as [v|] eqn:Ev; [|split; discriminate]. apply digit16 in Ev. split; intros H.
      * pose proof (proj1 (IH _ _ m (nu_more p n c v Hp Ev)) H) as X. rewrite append_assoc in X. exact X.
      * pose proof (proj1 (IH _ _ m (nu_under p n c v Hp Ev)) H) as X. rewrite append_assoc in X. exact X.
Qed.
Lemma numeral_is s m : hex_digits s 0 false = Some m <-> numeral s m.
Proof.
  split.
  - destruct s as [|c s]; [discriminate|]. cbn [hex_digits]. destruct (Ascii.eqb c "_"); [discriminate|]. destruct (hex_value c) as [v|] eqn:Ev; [|discriminate].
    apply digit16 in Ev. intros H. exact (proj1 (reads_numeral s _ _ m (nu_one c v Ev)) H).
  - intros H. pose proof (numeral_reads s m H EmptyString) as X. rewrite append_nil in X. exact X.
Qed.
Lemma numeral_digit c s m : numeral (String c s) m -> exists v, hex_value c = Some v.
Proof. intros H. apply numeral_is in H. cbn [hex_digits] in H. destruct (Ascii.eqb c "_"); [discriminate|]. destruct (hex_value c) as [v|]; [now exists v|discriminate]. Qed.
Lemma numeral_second c d s m : numeral (String c (String d s)) m -> d = "_"%char \/ exists v, hex_value d = Some v.
Proof.
  intros H. apply numeral_is in H. cbn [hex_digits] in H. destruct (Ascii.eqb c "_"); [discriminate|]. destruct (hex_value c) as [v|]; [|discriminate].
  destruct (Ascii.eqb d "_") eqn:E; [left; now apply Ascii.eqb_eq|]. destruct (hex_value d) as [u|]; [right; now exists u|discriminate].
Qed.

Lemma number_is s n : int16 s = Some n <-> number s n.
Proof.
  unfold number. split.
  - unfold int16. destruct s as [|z [|x t]]; [intros H; left; now apply numeral_is..|].
    destruct (Ascii.eqb z "0" && (Ascii.eqb x "x" || Ascii.eqb x "X")) eqn:E; [|intros H; left; now apply numeral_is].
    apply andb_prop in E as [Ez Ex]. apply Ascii.eqb_eq in Ez. subst z. destruct t as [|u t]; [discriminate|]. intros H. right.
    assert (X : x = "x"%char \/ x = "X"%char) by (apply orb_prop in Ex as [Ex|Ex]; apply Ascii.eqb_eq in Ex; auto).
    destruct (Ascii.eqb u "_") eqn:Eu; apply numeral_is in H.
    + apply Ascii.eqb_eq in Eu. subst u. destruct X as [-> | ->]; [exists "0x_"%string|exists "0X_"%string]; exists t; auto.
    + destruct X as [-> | ->]; [exists "0x"%string|exists "0X"%string]; exists (String u t); auto.
  - intros [H|(m & t & Hm & -> & H)].
    + unfold int16. destruct s as [|z [|x t]]; [now apply numeral_is..|].
      destruct (Ascii.eqb z "0" && (Ascii.eqb x "x" || Ascii.eqb x "X")) eqn:E; [|now apply numeral_is].
      exfalso. apply andb_prop in E as [_ Ex]. apply numeral_second in H as [-> |(v & Hv)]; [discriminate Ex|].
      apply orb_prop in Ex as [Ex|Ex]; apply Ascii.eqb_eq in Ex; subst x; discriminate Hv.
    + assert (Ht : exists c t', t = String c t' /\ Ascii.eqb c "_" = false).
      { destruct t as [|c t]; [apply numeral_is in H; discriminate|]. exists c, t. split; [reflexivity|]. apply numeral_digit in H as (v & Hv). exact (digit_not_under c v Hv). }
      destruct Ht as (c & t' & -> & Hc). apply numeral_is in H. destruct Hm as [-> |[-> |[-> | ->]]]; cbn [append int16 Ascii.eqb Bool.eqb andb orb]; rewrite ?Hc; exact H.
Qed.

Lemma not_record l : match_line l = None -> forall a b, ~ record_line l a b.
Proof. intros H a b R. apply match_line_is in R. congruence. Qed.

Lemma import_is ls : forall l, import_lines ls = Ok tt l <-> reads ls l.
Proof.
  induction ls as [|x ls IH]; intros l; cbn [import_lines].
  - split; [intros [= <-]; constructor|]. intros H. inversion H. reflexivity.
  - destruct (match_line x) as [[a b]|] eqn:E.
    + apply match_line_is in E as R. split.
      * destruct (int16 a) as [m|] eqn:Ea; [|discriminate]. destruct (int16 b) as [n|] eqn:Eb; [|discriminate].
        destruct (import_lines ls) as [[] t| | | |]; cbn [bind]; try discriminate. intros [= <-].
        apply (re_take x ls t a b m n R); [now apply number_is..|]. now apply IH.
      * intros H. inversion H as [|? ? ? Hn|? ? l' a' b' m n R' Hm Hn Hl]; subst; [elim (Hn a b R)|]. apply match_line_is in R'. rewrite E in R'. injection R' as <- <-.
        apply number_is in Hm, Hn. rewrite Hm, Hn. apply IH in Hl. rewrite Hl. reflexivity.
    + rewrite IH. split; [intros H; apply re_skip; [exact (not_record x E)|exact H]|].
      intros H. inversion H as [|? ? ? Hn Hl|? ? l' a' b' m n R' Hm Hn Hl]; subst; [exact Hl|]. elim (not_record x E _ _ R').
Qed.
Lemma import_bad ls : import_lines ls = Throw tt RuntimeError <->
  exists x a b, In x ls /\ record_line x a b /\ ((forall n, ~ number a n) \/ (forall n, ~ number b n)).
Proof.
  induction ls as [|x ls IH]; cbn [import_lines].
  - split; [discriminate|]. intros (x & a & b & [] & _).
  - destruct (match_line x) as [[a b]|] eqn:E.
    + apply match_line_is in E as R. destruct (int16 a) as [m|] eqn:Ea; [destruct (int16 b) as [n|] eqn:Eb|].
      * transitivity (import_lines ls = Throw tt RuntimeError).
        { destruct (import_lines ls) as [[] t|[] e| | |]; cbn [bind]; split; congruence. }
        rewrite IH. split; intros (y & a' & b' & Hy & R' & H'); [exists y, a', b'; split; [now right|auto]|].
        destruct Hy as [-> |Hy]; [|eauto 8]. exfalso. apply match_line_is in R'. rewrite E in R'. injection R' as <- <-. apply number_is in Ea, Eb. destruct H' as [H'|H']; [exact (H' m Ea)|exact (H' n Eb)].
      * split; [|reflexivity]. intros _. exists x, a, b. split; [now left|]. split; [exact R|]. right. intros n Hn. apply number_is in Hn. congruence.
      * split; [|reflexivity]. intros _. exists x, a, b. split; [now left|]. split; [exact R|]. left. intros n Hn. apply number_is in Hn. congruence.
    + rewrite IH. split; intros (y & a' & b' & Hy & R' & H'); [exists y, a', b'; split; [now right|auto]|].
      destruct Hy as [-> |Hy]; [elim (not_record _ E _ _ R')|eauto 8].
Qed.
Lemma no_file : plot_allocations [] = Throw tt RuntimeError.
Proof. reflexivity. Qed.
