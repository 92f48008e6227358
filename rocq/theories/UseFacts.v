(** Facts about reading the proc file system. *)
From Coq Require Import String Ascii.
From Verif Require Import Base BaseFacts NamingModel CatalogModel CatalogFacts UseModel UseSpec.

Local Notation "a ^^ b" := (String.append a b) (at level 60, right associativity).

Lemma app_assoc_s a b c : ((a ^^ b) ^^ c)%string = (a ^^ b ^^ c)%string.
Proof. induction a as [|x a IH]; cbn; [reflexivity|now rewrite IH]. Qed.

Lemma skip_blank a s : blank a -> skip_space (a ^^ s) = skip_space s.
Proof. induction a as [|c a IH]; [reflexivity|]. intros [Hc Ha]. cbn. rewrite Hc. now apply IH. Qed.

Lemma skip_word c s : is_space c = false -> skip_space (String c s) = String c s.
Proof. intros H. cbn. now rewrite H. Qed.

Lemma drop_app d s : all_digits d -> no_digit s -> drop_digits (d ^^ s) = s.
Proof.
  induction d as [|c d IH]; cbn; [|intros [Hc Hd] Hs; rewrite Hc; auto].
  intros _ Hs. destruct s as [|c s]; [reflexivity|]. cbn in *. now rewrite Hs.
Qed.
Lemma dec_val_app d s : all_digits d -> no_digit s -> forall acc, dec_val acc (d ^^ s) = dec_val acc d.
Proof.
  induction d as [|c d IH]; cbn; [|intros [Hc Hd] Hs acc; rewrite Hc; auto].
  intros _ Hs acc. destruct s as [|c s]; [reflexivity|]. cbn in *. now rewrite Hs.
Qed.

Lemma read_dec a n s : blank a -> 0 <= n < M64 -> no_digit s -> read_u (true, a ^^ dec n ^^ s)%string = ((negb (empty s), s), Some n).
Proof.
  intros Ha Hn Hs. unfold read_u. cbn [negb]. rewrite (skip_blank a _ Ha).
  pose proof (dec_digits n) as HD. pose proof (dec_nonempty n) as HN. pose proof (dec_val_dec n ltac:(lia)) as HV.
  pose proof (drop_app (dec n) s HD Hs) as Dr. pose proof (dec_val_app (dec n) s HD Hs 0) as Va.
  destruct (dec n) as [|c t]; [contradiction|]. destruct HD as [Hc Ht]. destruct (digit_not_sign c Hc) as [S1 S2].
  cbn [String.append] in *. rewrite skip_word by now apply digit_not_space. cbn [empty sign]. rewrite S1, S2, Hc, Dr, Va, HV.
  replace (n <? M64) with true by lia. reflexivity.
Qed.

Lemma usage_ok a1 n1 a2 n2 s page : blank a1 -> 0 <= n1 < M64 -> blank a2 -> a2 <> EmptyString -> 0 <= n2 < M64 -> no_digit s ->
  process_usage (Some (a1 ^^ dec n1 ^^ a2 ^^ dec n2 ^^ s)%string) page = Ok tt (n2 * page mod 2 ^ 64).
Proof.
  intros B1 R1 B2 N2 R2 Hs. unfold process_usage.
  assert (Q : no_digit (a2 ^^ dec n2 ^^ s)%string).
  { destruct a2 as [|c a2]; [contradiction|]. cbn. destruct B2 as [Hc _]. destruct (is_digit c) eqn:E; [|reflexivity]. apply digit_not_space in E. congruence. }
  rewrite (read_dec a1 n1 _ B1 R1 Q). assert (E : empty (a2 ^^ dec n2 ^^ s) = false) by (destruct a2; [contradiction|reflexivity]).
  rewrite E. cbn [negb]. rewrite (read_dec a2 n2 s B2 R2 Hs). reflexivity.
Qed.

Lemma usage_short t page : (t = EmptyString \/ blank t \/ exists a n b, t = (a ^^ dec n ^^ b)%string /\ blank a /\ blank b /\ 0 <= n < M64) ->
  process_usage (Some t) page = UB.
Proof.
  assert (Sk : forall b, blank b -> skip_space b = EmptyString).
  { intros b. induction b as [|c b IH]; [reflexivity|]. intros [Hc Hb]. cbn. rewrite Hc. now apply IH. }
  assert (Bl : forall b, blank b -> process_usage (Some b) page = UB).
  { intros b Hb. unfold process_usage. assert (R : read_u (true, b) = ((false, EmptyString), None)) by (unfold read_u; cbn [negb]; now rewrite (Sk b Hb)). now rewrite R. }
  intros [->|[Hb|(a & n & b & -> & Ha & Hb & Hn)]]; [reflexivity|now apply Bl|].
  unfold process_usage. assert (Q : no_digit b).
  { destruct b as [|c b]; [exact I|]. cbn. destruct Hb as [Hc _]. destruct (is_digit c) eqn:E; [|reflexivity]. apply digit_not_space in E. congruence. }
  rewrite (read_dec a n b Ha Hn Q). unfold read_u. destruct b as [|c b]; [reflexivity|]. cbn [empty negb]. now rewrite (Sk _ Hb).
Qed.

(** Any number, with any sign *)
Definition read_val (g : string) (n : Z) : Z := if n <? M64 then if String.eqb g "-" then w64 (- n) else n else M64 - 1.
Lemma read_any a g n s : blank a -> sign_text g -> 0 <= n -> no_digit s ->
  read_u (true, a ^^ g ^^ dec n ^^ s)%string = (((n <? M64) && negb (empty s), s), Some (read_val g n)).
Proof.
  intros Ha Hg Hn Hs. unfold read_u. cbn [negb]. rewrite (skip_blank a _ Ha).
  pose proof (dec_digits n) as HD. pose proof (dec_nonempty n) as HN. pose proof (dec_val_dec n ltac:(lia)) as HV.
  pose proof (drop_app (dec n) s HD Hs) as Dr. pose proof (dec_val_app (dec n) s HD Hs 0) as Va.
  destruct (dec n) as [|c t]; [contradiction|]. destruct HD as [Hc Ht]. destruct (digit_not_sign c Hc) as [S1 S2].
  cbn [String.append] in *. unfold read_val. destruct Hg as [-> | [-> | ->]]; cbn [String.append].
  - rewrite skip_word by now apply digit_not_space. cbn [empty sign]. rewrite S1, S2, Hc, Dr, Va, HV. destruct (n <? M64); reflexivity.
  - rewrite skip_word by reflexivity. cbn [empty sign]. change (Ascii.eqb "+" "-") with false. change (Ascii.eqb "+" "+") with true.
    cbv iota. rewrite Hc, Dr, Va, HV. destruct (n <? M64); reflexivity.
  - rewrite skip_word by reflexivity. cbn [empty sign]. change (Ascii.eqb "-" "-") with true. cbv iota. rewrite Hc, Dr, Va, HV. destruct (n <? M64); reflexivity.
Qed.

Lemma read_bad a w : blank a -> no_number w -> exists s, read_u (true, a ^^ w)%string = ((false, s), Some 0).
Proof.
  intros Ha H. unfold read_u. cbn [negb]. rewrite (skip_blank a _ Ha). destruct H as [(g & -> & H)|(g & c & t & -> & Hg & Hc & H)].
  - destruct H as [-> | ->]; eexists; reflexivity.
  - destruct Hg as [-> | [-> | ->]]; cbn [String.append].
    + destruct (H eq_refl) as (H1 & H2 & H3). rewrite skip_word by assumption. cbn [empty sign].
      destruct (Ascii.eqb_spec c "-"); [contradiction|]. destruct (Ascii.eqb_spec c "+"); [contradiction|]. rewrite Hc. eexists. reflexivity.
    + rewrite skip_word by reflexivity. cbn [empty sign]. change (Ascii.eqb "+" "-") with false. change (Ascii.eqb "+" "+") with true.
      cbv iota. rewrite Hc. eexists. reflexivity.
    + rewrite skip_word by reflexivity. cbn [empty sign]. change (Ascii.eqb "-" "-") with true. cbv iota. rewrite Hc. eexists. reflexivity.
Qed.

Lemma read_val_ok g n : 0 <= n -> field_value g n (read_val g n).
Proof.
  intros H. unfold field_value, read_val. fold M64. repeat split; try (intros; subst; destruct (Z.ltb_spec n M64); unfold M64 in *; try lia).
  - cbn. unfold w64. apply Z.mod_pos_bound. reflexivity.
  - cbn. unfold w64. apply Z.mod_pos_bound. reflexivity.
  - cbn [String.eqb Ascii.eqb Bool.eqb]. unfold w64, M64. exists (- ((- n) / 2 ^ 64)). pose proof (Z.div_mod (- n) (2 ^ 64) ltac:(discriminate)). lia.
  - destruct (String.eqb_spec g "-"); [contradiction|reflexivity].
Qed.

Lemma usage_any a1 g1 n1 a2 g2 n2 s page : blank a1 -> sign_text g1 -> 0 <= n1 < 2 ^ 64 -> blank a2 -> a2 <> EmptyString -> sign_text g2 -> 0 <= n2 -> no_digit s ->
  exists v, field_value g2 n2 v /\ process_usage (Some (a1 ^^ g1 ^^ dec n1 ^^ a2 ^^ g2 ^^ dec n2 ^^ s)%string) page = Ok tt (v * page mod 2 ^ 64).
Proof.
  intros B1 G1 R1 B2 N2 G2 R2 Hs. exists (read_val g2 n2). split; [now apply read_val_ok|]. unfold process_usage.
  assert (Q : no_digit (a2 ^^ g2 ^^ dec n2 ^^ s)%string).
  { destruct a2 as [|c a2]; [contradiction|]. cbn. destruct B2 as [Hc _]. destruct (is_digit c) eqn:E; [|reflexivity]. apply digit_not_space in E. congruence. }
  rewrite (read_any a1 g1 n1 _ B1 G1 (proj1 R1) Q). assert (E : empty (a2 ^^ g2 ^^ dec n2 ^^ s) = false) by (destruct a2; [contradiction|reflexivity]).
  rewrite E. replace (n1 <? M64) with true by (unfold M64; lia). cbn [negb andb]. rewrite (read_any a2 g2 n2 s B2 G2 R2 Hs). reflexivity.
Qed.

Lemma usage_bad2 a1 g1 n1 a2 w page : blank a1 -> sign_text g1 -> 0 <= n1 < 2 ^ 64 -> blank a2 -> a2 <> EmptyString -> no_number w ->
  process_usage (Some (a1 ^^ g1 ^^ dec n1 ^^ a2 ^^ w)%string) page = Ok tt 0.
Proof.
  intros B1 G1 R1 B2 N2 Hw. unfold process_usage.
  assert (Q : no_digit (a2 ^^ w)%string).
  { destruct a2 as [|c a2]; [contradiction|]. cbn. destruct B2 as [Hc _]. destruct (is_digit c) eqn:E; [|reflexivity]. apply digit_not_space in E. congruence. }
  rewrite (read_any a1 g1 n1 _ B1 G1 (proj1 R1) Q). assert (E : empty (a2 ^^ w) = false) by (destruct a2; [contradiction|reflexivity]).
  rewrite E. replace (n1 <? M64) with true by (unfold M64; lia). cbn [negb andb]. destruct (read_bad a2 w B2 Hw) as (s & ->). reflexivity.
Qed.

Lemma usage_bad1 page :
  (forall a w, blank a -> no_number w -> process_usage (Some (a ^^ w)%string) page = UB) /\
  (forall a g n s, blank a -> sign_text g -> 2 ^ 64 <= n -> no_digit s -> process_usage (Some (a ^^ g ^^ dec n ^^ s)%string) page = UB).
Proof.
  split.
  - intros a w Ha Hw. unfold process_usage. destruct (read_bad a w Ha Hw) as (s & ->). reflexivity.
  - intros a g n s Ha Hg Hn Hs. unfold process_usage. rewrite (read_any a g n s Ha Hg ltac:(lia) Hs). replace (n <? M64) with false by (unfold M64; lia). reflexivity.
Qed.

(** ** Lines *)
Lemma lines_line s t : one_line s -> lines_of (s ^^ newline ^^ t) = s :: lines_of t.
Proof.
  induction s as [|c s IH]; [reflexivity|]. intros [Hc Hs]. cbn [String.append lines_of]. unfold NL at 1.
  destruct (Ascii.eqb_spec c (ascii_of_nat 10)); [contradiction|]. now rewrite (IH Hs).
Qed.
Lemma lines_unlines l t : Forall one_line l -> lines_of (unlines l ^^ t) = l ++ lines_of t.
Proof.
  induction 1 as [|s l Hs Hl IH]; [reflexivity|]. cbn [unlines List.app]. rewrite <- IH, <- (lines_line s _ Hs). f_equal. now rewrite !app_assoc_s.
Qed.

Lemma till_word w b : each (fun c => is_space c = false) w -> (b = EmptyString \/ exists c t, b = String c t /\ is_space c = true) -> till_space (w ^^ b) = (w, b).
Proof.
  induction w as [|c w IH]; cbn.
  - intros _ [-> | (c & t & -> & H)]; [reflexivity|]. cbn. now rewrite H.
  - intros [Hc Hw] Hb. now rewrite Hc, (IH Hw Hb).
Qed.
Lemma skip_split s : exists a, blank a /\ s = (a ^^ skip_space s)%string.
Proof.
  induction s as [|c s IH]; [exists EmptyString; cbn; auto|]. cbn. destruct (is_space c) eqn:E.
  - destruct IH as (a & Ha & Es). exists (String c a). cbn. split; [auto|now f_equal].
  - exists EmptyString. cbn. auto.
Qed.
Lemma till_split s w r : till_space s = (w, r) -> s = (w ^^ r)%string /\ (r = EmptyString \/ exists c t, r = String c t /\ is_space c = true).
Proof.
  revert w r. induction s as [|c s IH]; cbn; intros w r E; [injection E as <- <-; auto|]. destruct (is_space c) eqn:Sc.
  - injection E as <- <-. split; [reflexivity|]. right. eauto.
  - destruct (till_space s) as [w' r'] eqn:T. injection E as <- <-. destruct (IH w' r' eq_refl) as [-> H]. auto.
Qed.

Lemma key_is s : (exists r, till_space (skip_space s) = ("VmHWM:"%string, r)) <-> first_word "VmHWM:" s.
Proof.
  split.
  - intros (r & T). destruct (till_split _ _ _ T) as [E H]. destruct (skip_split s) as (a & Ha & Es). exists a, r. rewrite Es at 1. rewrite E. auto.
  - intros (a & b & -> & Ha & Hb). exists b. rewrite (skip_blank a _ Ha). cbn [String.append]. rewrite skip_word by reflexivity.
    exact (till_word "VmHWM:" b ltac:(cbn; auto 10) Hb).
Qed.

Lemma hwm_skip l m : (forall s, In s l -> ~ first_word "VmHWM:" s) -> hwm_lines (l ++ m) = hwm_lines m.
Proof.
  induction l as [|s l IH]; intros H; [reflexivity|]. cbn [List.app hwm_lines]. destruct (till_space (skip_space s)) as [key r] eqn:T.
  destruct (String.eqb_spec key "VmHWM:") as [->|].
  - exfalso. apply (H s); [now left|]. apply key_is. eauto.
  - apply IH. intros x Hx. apply H. now right.
Qed.

Lemma hwm_ok before a b n rest after : Forall one_line before -> (forall s, In s before -> ~ first_word "VmHWM:" s) ->
  blank a -> blank b -> b <> EmptyString -> 0 <= n < M64 -> no_digit rest -> one_line (a ^^ "VmHWM:" ^^ b ^^ dec n ^^ rest)%string ->
  process_hwm (Some (unlines before ^^ (a ^^ "VmHWM:" ^^ b ^^ dec n ^^ rest) ^^ newline ^^ after)%string) = Ok tt (n * 1024 mod 2 ^ 64).
Proof.
  intros HB HF Ha Hb Nb Hn Hr HL. unfold process_hwm. rewrite (lines_unlines before _ HB), (lines_line _ _ HL), (hwm_skip before _ HF).
  cbn [hwm_lines]. rewrite (skip_blank a _ Ha). cbn [String.append]. rewrite skip_word by reflexivity.
  assert (Hs : exists c t, (b ^^ dec n ^^ rest)%string = String c t /\ is_space c = true).
  { destruct b as [|c b]; [contradiction|]. cbn. destruct Hb as [Hc _]. eauto. }
  pose proof (till_word "VmHWM:" (b ^^ dec n ^^ rest) ltac:(cbn; auto 10) (or_intror Hs)) as T. cbn [String.append] in T. rewrite T. cbn [String.eqb Ascii.eqb Bool.eqb].
  assert (E : empty (b ^^ dec n ^^ rest) = false) by (destruct b; [contradiction|reflexivity]). rewrite E. cbn [negb].
  rewrite (read_dec b n rest Hb Hn Hr). reflexivity.
Qed.

Lemma hwm_none l : Forall one_line l -> (forall s, In s l -> ~ first_word "VmHWM:" s) -> process_hwm (Some (unlines l)) = Ok tt 0.
Proof.
  intros H F. unfold process_hwm. pose proof (lines_unlines l EmptyString H) as L. replace (unlines l ^^ "")%string with (unlines l) in L.
  - rewrite L, (hwm_skip l _ F). reflexivity.
  - clear. induction (unlines l) as [|c s IH]; [reflexivity|]. cbn. now rewrite <- IH.
Qed.
