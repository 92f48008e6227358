(** A part of the text of an object is not a text. *)
From Coq Require Import String.
From Verif Require Import Base ReplayModel JsonModel StoreModel JsonSpec Utf8Facts JsonFacts ParseFacts StoreFacts.

Lemma in_range_mono rs s : forall acc l b r, in_range rs acc l = SAdd b r -> in_range rs acc (l ++ s) = SAdd b (r ++ s).
Proof.
  induction rs as [|(lo, hi) rs IH]; intros acc l b r H; cbn [in_range] in *.
  - injection H as <- <-. reflexivity.
  - destruct l as [|c l]; [discriminate|]. cbn [app]. destruct ((lo <=? c) && (c <=? hi)); [|discriminate]. apply IH. exact H.
Qed.
Lemma codepoint_mono l s c r : get_codepoint l = Some (c, r) -> get_codepoint (l ++ s) = Some (c, r ++ s).
Proof.
  destruct l as [|x [|y [|z [|v t]]]]; cbn [get_codepoint app]; try discriminate.
  destruct (unhex x), (unhex y), (unhex z), (unhex v); try discriminate. intros H. injection H as <- <-. reflexivity.
Qed.
Lemma scan_u_mono l s b r : scan_u l = SAdd b r -> scan_u (l ++ s) = SAdd b (r ++ s).
Proof.
  unfold scan_u. destruct (get_codepoint l) as [(c1, l1)|] eqn:E; [|discriminate]. rewrite (codepoint_mono _ s _ _ E).
  destruct (_ && _).
  - destruct l1 as [|x [|y l1]]; try discriminate. cbn [app]. destruct (_ && _); [|discriminate].
    destruct (get_codepoint l1) as [(c2, l2)|] eqn:E2; [|discriminate]. rewrite (codepoint_mono _ s _ _ E2).
    destruct (_ && _); [|discriminate]. intros H. injection H as <- <-. reflexivity.
  - destruct (_ && _); [discriminate|]. intros H. injection H as <- <-. reflexivity.
Qed.

Lemma scan_char_mono l s : match scan_char l with
  | SEnd r => scan_char (l ++ s) = SEnd (r ++ s)
  | SAdd b r => scan_char (l ++ s) = SAdd b (r ++ s)
  | SBad => True
  end.
Proof.
  destruct l as [|c l]; [exact I|]. cbn [app scan_char].
  destruct (c =? 34); [reflexivity|]. destruct (c =? 92).
  - destruct l as [|e l]; [exact I|]. cbn [app].
    do 8 (match goal with |- context [if ?b then _ else _] => destruct b end; [reflexivity|]).
    destruct (e =? 117); [|exact I]. pose proof (scan_u_len l) as L. pose proof (scan_u_mono l s) as M.
    destruct (scan_u l) as [r|b r|]; [contradiction | apply M; reflexivity | exact I].
  - destruct (c <=? 31); [exact I|]. destruct (c <=? 127); [reflexivity|].
    repeat match goal with
    | |- match in_range ?rs ?a ?l with _ => _ end =>
        pose proof (in_range_mono rs s a l); pose proof (in_range_end rs a l); destruct (in_range rs a l) as [r|b' r|];
        [exfalso; eapply H0; reflexivity | auto | exact I]
    | |- match (if ?b then _ else _) with _ => _ end => destruct b
    end; exact I.
Qed.

Lemma scan_string_mono f s : forall f' acc l k r, (f <= f')%nat -> scan_string f acc l = (TStr k, r) ->
  scan_string f' acc (l ++ s) = (TStr k, r ++ s).
Proof.
  induction f as [|f IH]; intros f' acc l k r F H; [discriminate|]. destruct f' as [|f']; [lia|]. cbn [scan_string] in *.
  pose proof (scan_char_mono l s) as M. destruct (scan_char l) as [r1|b r1|]; [|  |discriminate]; rewrite M.
  - injection H as <- <-. reflexivity.
  - apply IH; [lia | exact H].
Qed.

Lemma scan_string_kind f : forall acc l t r, (length l < f)%nat -> scan_string f acc l = (t, r) -> t = TErr \/ exists k, t = TStr k.
Proof.
  induction f as [|f IH]; intros acc l t r L H; [lia|]. cbn [scan_string] in H. pose proof (scan_char_len l) as S.
  destruct (scan_char l) as [r1|b r1|].
  - injection H as <- <-. eauto.
  - eapply IH; [|exact H]. lia.
  - injection H as <- <-. auto.
Qed.

Definition is_num (t : token) : bool := match t with TUns _ | TInt _ | TFloat _ => true | _ => false end.
Lemma number_num neg fl x : is_num (number neg fl x) = true.
Proof. unfold number. repeat match goal with |- context [if ?b then _ else _] => destruct b end; reflexivity. Qed.

Lemma scan_num_kind l : forall st neg fl acc t r, scan_num st neg fl acc l = (t, r) -> t = TErr \/ is_num t = true.
Proof.
  induction l as [|c l IH]; intros st neg fl acc t r H; cbn [scan_num] in H.
  - destruct (num_next st (-1)); injection H as <- <-; auto using number_num.
  - destruct (num_next st c); [eapply IH; exact H | injection H as <- <-; auto using number_num ..].
Qed.
Lemma scan_num_mono s l : forall st neg fl acc t r, scan_num st neg fl acc l = (t, r) -> t <> TErr -> r <> [] ->
  scan_num st neg fl acc (l ++ s) = (t, r ++ s).
Proof.
  induction l as [|c l IH]; intros st neg fl acc t r H T R; cbn [scan_num app] in *.
  - destruct (num_next st (-1)); injection H as <- <-; congruence.
  - destruct (num_next st c).
    + apply IH; assumption.
    + injection H as <- <-. reflexivity.
    + injection H as <- <-. congruence.
Qed.

Lemma scan_literal_mono s x tok : forall l r, tok <> TErr -> scan_literal x tok l = (tok, r) -> scan_literal x tok (l ++ s) = (tok, r ++ s).
Proof.
  induction x as [|a x IH]; intros l r T H; cbn [scan_literal] in *.
  - injection H as <-. reflexivity.
  - destruct l as [|c l]; [injection H as E _; congruence|]. cbn [app]. destruct (c =? a); [auto | injection H as E _; congruence].
Qed.
Lemma scan_literal_kind x tok : forall l t r, scan_literal x tok l = (t, r) -> t = TErr \/ t = tok.
Proof.
  induction x as [|a x IH]; intros l t r H; cbn [scan_literal] in *.
  - injection H as <- <-. auto.
  - destruct l as [|c l]; [injection H as <- <-; auto|]. destruct (c =? a); [eauto | injection H as <- <-; auto].
Qed.

Lemma skip_space_mono p s : skip_space p <> [] -> skip_space (p ++ s) = skip_space p ++ s.
Proof.
  induction p as [|c p IH]; [intros []; reflexivity|]. cbn [skip_space app]. destruct (is_space c); [exact IH | reflexivity].
Qed.
Lemma skip_space_all p s : skip_space p = [] -> skip_space (p ++ s) = skip_space s.
Proof. induction p as [|c p IH]; [reflexivity|]. cbn [skip_space app]. destruct (is_space c); [exact IH | discriminate]. Qed.
Lemma skip_space_in p x : In x (skip_space p) -> In x p.
Proof. induction p as [|c p IH]; [auto|]. cbn [skip_space]. destruct (is_space c); cbn [In]; auto. Qed.

Lemma scan_mono p s t r : printable p -> scan p = (t, r) -> terminal t = false -> (is_num t = true -> r <> []) ->
  scan (p ++ s) = (t, r ++ s).
Proof.
  unfold scan. intros P H T N. destruct (skip_space p) as [|c l] eqn:E.
  - injection H as <- <-. discriminate.
  - rewrite skip_space_mono by congruence. rewrite E. cbn [app].
    do 6 (match goal with |- context [if ?b then _ else _] => destruct b end; [injection H as <- <-; reflexivity|]).
    do 3 (match goal with |- context [if ?b then _ else _] => destruct b end;
          [destruct (scan_literal_kind _ _ _ _ _ H) as [-> | ->]; [discriminate | apply scan_literal_mono; [discriminate | exact H]]|]).
    destruct (c =? 34).
    { destruct (scan_string_kind _ _ _ _ _ (Nat.lt_succ_diag_r _) H) as [-> | (k & ->)]; [discriminate|].
      eapply scan_string_mono; [|exact H]. rewrite app_length. lia. }
    do 3 (match goal with |- context [if ?b then _ else _] => destruct b end;
          [apply scan_num_mono; [exact H | intros ->; discriminate |
             destruct (scan_num_kind _ _ _ _ _ _ _ H) as [-> | K]; [discriminate | auto]]|]).
    destruct (c =? 0); injection H as <- <-; discriminate.
Qed.

Lemma scan_no_fuel p t r : scan p = (t, r) -> t <> TFuel.
Proof.
  unfold scan. destruct (skip_space p) as [|c l]; [intros H; injection H as <- <-; discriminate|].
  do 6 (match goal with |- context [if ?b then _ else _] => destruct b end; [intros H; injection H as <- <-; discriminate|]).
  do 3 (match goal with |- context [if ?b then _ else _] => destruct b end;
        [intros H; destruct (scan_literal_kind _ _ _ _ _ H) as [-> | ->]; discriminate |]).
  destruct (c =? 34).
  { intros H. destruct (scan_string_kind _ _ _ _ _ (Nat.lt_succ_diag_r _) H) as [-> | (k & ->)]; discriminate. }
  do 3 (match goal with |- context [if ?b then _ else _] => destruct b end;
        [intros H; destruct (scan_num_kind _ _ _ _ _ _ _ H) as [-> | K]; [discriminate | intros ->; discriminate]|]).
  destruct (c =? 0); intros H; injection H as <- <-; discriminate.
Qed.

(** The first token, at the end of the text or not. *)
Lemma lexx_cases p : (exists r, scan p = (TEnd, r) /\ lexx p = [TEnd]) \/ (exists r, scan p = (TErr, r) /\ lexx p = [TErr]) \/
  exists t r, scan p = (t, r) /\ terminal t = false /\ lexx p = t :: lexx r /\ (length r < length p)%nat.
Proof.
  destruct (scan p) as (t, r) eqn:E. destruct (terminal t) eqn:T.
  - pose proof (scan_no_fuel p t r E) as F.
    assert (lexx p = [t]) as L. { unfold lexx. cbn [lex]. rewrite E. destruct t; try discriminate; reflexivity. }
    destruct t; try discriminate; [left | right; left | congruence]; exists r; auto.
  - right. right. exists t, r. split; [reflexivity|]. split; [exact T|]. split; [apply lexx_step | apply (scan_len _ t)]; assumption.
Qed.

(** What is left is from the text. *)
Lemma in_range_in rs x : forall acc l b r, in_range rs acc l = SAdd b r -> In x r -> In x l.
Proof.
  induction rs as [|(lo, hi) rs IH]; intros acc l b r H; cbn [in_range] in *.
  - injection H as <- <-. auto.
  - destruct l as [|c l]; [discriminate|]. destruct ((lo <=? c) && (c <=? hi)); [|discriminate]. cbn [In]. eauto.
Qed.
Lemma codepoint_in l c r x : get_codepoint l = Some (c, r) -> In x r -> In x l.
Proof.
  destruct l as [|a [|b [|z [|v t]]]]; cbn [get_codepoint]; try discriminate.
  destruct (unhex a), (unhex b), (unhex z), (unhex v); try discriminate. intros H. injection H as <- <-. cbn [In]. auto.
Qed.
Lemma scan_u_in l b r x : scan_u l = SAdd b r -> In x r -> In x l.
Proof.
  unfold scan_u. destruct (get_codepoint l) as [(c1, l1)|] eqn:E; [|discriminate]. pose proof (codepoint_in _ _ _ x E) as I1.
  destruct (_ && _).
  - destruct l1 as [|a [|y l1]]; try discriminate. destruct (_ && _); [|discriminate].
    destruct (get_codepoint l1) as [(c2, l2)|] eqn:E2; [|discriminate]. pose proof (codepoint_in _ _ _ x E2).
    destruct (_ && _); [|discriminate]. intros H1. injection H1 as <- <-. cbn [In] in I1. auto.
  - destruct (_ && _); [discriminate|]. intros H1. injection H1 as <- <-. exact I1.
Qed.
Lemma scan_char_in l x : match scan_char l with
  | SEnd r => In x r -> In x l
  | SAdd b r => In x r -> In x l
  | SBad => True
  end.
Proof.
  destruct l as [|c l]; [exact I|]. cbn [scan_char].
  destruct (c =? 34); [cbn [In]; auto|]. destruct (c =? 92).
  - destruct l as [|e l]; [exact I|].
    do 8 (match goal with |- context [if ?b then _ else _] => destruct b end; [cbn [In]; auto|]).
    destruct (e =? 117); [|exact I]. pose proof (scan_u_len l) as L. pose proof (fun b r => scan_u_in l b r x) as M.
    destruct (scan_u l) as [r|b r|]; [contradiction | specialize (M b r eq_refl); cbn [In]; auto | exact I].
  - destruct (c <=? 31); [exact I|]. destruct (c <=? 127); [cbn [In]; auto|].
    repeat match goal with
    | |- match in_range ?rs ?a ?l with _ => _ end =>
        pose proof (fun b r => in_range_in rs x a l b r) as M; pose proof (in_range_end rs a l) as N; destruct (in_range rs a l) as [r|b' r|];
        [exfalso; eapply N; reflexivity | specialize (M b' r eq_refl); cbn [In]; auto | exact I]
    | |- match (if ?b then _ else _) with _ => _ end => destruct b
    end; exact I.
Qed.
Lemma scan_string_in f x : forall acc l t r, scan_string f acc l = (t, r) -> In x r -> In x l.
Proof.
  induction f as [|f IH]; intros acc l t r H; cbn [scan_string] in H; [injection H as <- <-; auto|].
  pose proof (scan_char_in l x) as S. destruct (scan_char l) as [r1|b r1|]; [injection H as <- <-; auto | eauto | injection H as <- <-; auto].
Qed.
Lemma scan_num_in x l : forall st neg fl acc t r, scan_num st neg fl acc l = (t, r) -> In x r -> In x l.
Proof.
  induction l as [|c l IH]; intros st neg fl acc t r H; cbn [scan_num] in H.
  - destruct (num_next st (-1)); injection H as <- <-; auto.
  - destruct (num_next st c); [intros I1; right; eapply IH; eauto | injection H as <- <-; auto ..].
Qed.
Lemma scan_literal_in z x tok : forall l t r, scan_literal x tok l = (t, r) -> In z r -> In z l.
Proof.
  induction x as [|a x IH]; intros l t r H; cbn [scan_literal] in *.
  - injection H as <- <-. auto.
  - destruct l as [|c l]; [injection H as <- <-; auto|]. destruct (c =? a); [|injection H as <- <-; cbn [In]; auto].
    intros I1. right. eapply IH; eauto.
Qed.
Lemma scan_in p t r x : scan p = (t, r) -> In x r -> In x p.
Proof.
  unfold scan. intros H Hx. apply skip_space_in. destruct (skip_space p) as [|c l].
  - injection H as <- <-. exact Hx.
  - right. revert H.
    repeat match goal with |- (if ?b then _ else _) = _ -> _ => destruct b end; intros H;
      first [ injection H as <- <-; exact Hx | eapply scan_literal_in; eassumption | eapply scan_string_in; eassumption
            | eapply scan_num_in; eassumption ].
Qed.

Lemma scan_end p r : printable p -> scan p = (TEnd, r) -> skip_space p = [].
Proof.
  intros P S. unfold scan in S. destruct (skip_space p) as [|c l] eqn:K; [reflexivity|]. exfalso.
  assert (c = 0) as Hc.
  { revert S. repeat match goal with |- (if ?b then _ else _) = _ -> _ => destruct b eqn:? end; intros S; try discriminate; try lia;
      first [ destruct (scan_literal_kind _ _ _ _ _ S); discriminate
            | destruct (scan_string_kind _ _ _ _ _ (Nat.lt_succ_diag_r _) S) as [Q | (k & Q)]; discriminate
            | destruct (scan_num_kind _ _ _ _ _ _ _ S) as [Q | Q]; discriminate ]. }
  assert (In c p) as Hi by (apply skip_space_in; rewrite K; left; reflexivity).
  unfold printable in P. rewrite Forall_forall in P. specialize (P c Hi). cbn in P. lia.
Qed.

Lemma skip_space_125 s : In 125 s -> In 125 (skip_space s).
Proof.
  induction s as [|c s IH]; [auto|]. cbn [skip_space]. intros [-> | H]; [left; reflexivity|].
  destruct (is_space c); [auto | right; exact H].
Qed.

Section Torn.
  Variable strtod : bytes -> option Z.
  Notation prun := (prun strtod).
  Notation parse := (parse strtod).

  Lemma prun_no_fuel n : forall p md fs, (length p <= n)%nat -> prun (lexx p) md fs <> PFuel.
  Proof.
    induction n as [|n IH]; intros p md fs L; destruct (lexx_cases p) as [(r & S & ->) | [(r & S & ->) | (t & r & S & T & -> & Lr)]]; try lia.
    - destruct md; discriminate.
    - destruct md; discriminate.
    - destruct md; discriminate.
    - destruct md; discriminate.
    - assert (K : forall md fs, match md with MDone j => match t with TEnd => POk j | _ => PThrow end
                | _ => match pstep strtod t md fs with Some (md, fs) => prun (lexx r) md fs | None => PThrow end end <> PFuel).
      { intros md0 fs0. destruct md0; try (destruct (pstep _ _ _ _) as [(md1, fs1)|]; [apply IH; lia | discriminate]).
        destruct t; discriminate. }
      specialize (K md fs). destruct t; try discriminate; exact K.
  Qed.

  Lemma prun_cons t q md fs : terminal t = false ->
    prun (t :: q) md fs = match pstep strtod t md fs with Some (md, fs) => prun q md fs | None => PThrow end.
  Proof. intros T. destruct md, t; try discriminate; reflexivity. Qed.

  (** A text that is an object goes on to be that object and what follows. *)
  Lemma prun_mono m s n : forall p md fs, (length p <= n)%nat -> printable p -> prun (lexx p) md fs = POk (JObj m) ->
    exists fs', prun (lexx (p ++ s)) md fs = prun (lexx s) (MDone (JObj m)) fs'.
  Proof.
    induction n as [|n IH]; intros p md fs L P H; destruct (lexx_cases p) as [(r & S & E) | [(r & S & E) | (t & r & S & T & E & Lr)]];
      try lia; rewrite E in H.
    1, 3: assert (md = MDone (JObj m)) as -> by (destruct md; try discriminate; cbn in H; congruence);
      exists fs; f_equal; pose proof (scan_end p r P S) as K;
      assert (scan (p ++ s) = scan s) as Q by (unfold scan; rewrite skip_space_all by exact K; reflexivity);
      destruct (lexx_cases (p ++ s)) as [(r' & S' & E') | [(r' & S' & E') | (t' & r' & S' & T' & E' & Lr')]]; rewrite E'; rewrite Q in S';
      [ unfold lexx; cbn [lex]; rewrite S'; reflexivity | unfold lexx; cbn [lex]; rewrite S'; reflexivity
      | symmetry; apply lexx_step; assumption ].
    1, 2: destruct md; discriminate.
    assert (R : is_num t = true -> r <> []).
    { intros N ->. revert H. change (lexx []) with [TEnd].
      destruct md as [| | | | | |j0]; destruct t; try discriminate; cbn [JsonModel.prun pstep start_value];
        try (destruct (strtod _) as [z|]; [|discriminate]); destruct fs as [|[l|m' k] fs]; try discriminate. }
    pose proof (scan_mono p s t r P S T R) as S2. rewrite (lexx_step _ _ _ S2 T).
    assert (Pr : printable r).
    { apply Forall_forall. intros x Hx. unfold printable in P. rewrite Forall_forall in P. apply P. eapply scan_in; eassumption. }
    rewrite prun_cons in H by assumption. rewrite prun_cons by assumption.
    destruct (pstep strtod t md fs) as [(md1, fs1)|]; [apply (IH r md1 fs1); [lia | exact Pr | exact H] | discriminate].
  Qed.

  Lemma dump_obj_end m t : dump (JObj m) = DOk t -> exists t', t = t' ++ [125].
  Proof.
    rewrite dump_obj. destruct m as [|kv m]; [intros H; injection H as <-; exists [123]; reflexivity|].
    assert (A : forall m t, m <> [] -> dmembers m = DOk t -> exists t', t = t' ++ [125]).
    { clear. induction m as [|(k, x) m IH]; [congruence|]. intros t _. cbn [dmembers].
      destruct (dump_str k) as [a| | |]; cbn [dbind]; try discriminate.
      destruct (dump x) as [b| | |]; cbn [dbind]; try discriminate. destruct m as [|y m].
      - intros H. injection H as <-. exists (a ++ 58 :: b). rewrite <- app_assoc. reflexivity.
      - destruct (dmembers (y :: m)) as [c| | |]; try discriminate. destruct (IH c ltac:(congruence) eq_refl) as (c' & ->).
        cbn [dapp]. intros H. injection H as <-. exists ((a ++ 58 :: b ++ [44]) ++ c'). rewrite <- (app_assoc _ c' [125]). reflexivity. }
    intros H. destruct (dmembers (kv :: m)) as [c| | |] eqn:E; try discriminate.
    destruct (A (kv :: m) _ ltac:(discriminate) E) as (c' & ->). cbn [dapp] in H. injection H as <-. exists (123 :: c'). reflexivity.
  Qed.

  (** A part of the text of an object, from its beginning and not all of it, is refused. *)
  Lemma parse_cut m t p s : raw_ok (JObj m) -> dump (JObj m) = DOk t -> t = p ++ s -> s <> [] ->
    match parse p with POk (JObj _) => False | POk _ => True | PThrow => True | PFuel => False end.
  Proof.
    intros G D -> Ns. destruct (dump_lexes _ G) as (t' & D' & P & _). rewrite D in D'. injection D' as <-.
    assert (Pp : printable p) by (apply Forall_app in P; apply P).
    assert (B : p = [] \/ exists q, p = 123 :: q).
    { destruct p as [|c q]; [auto|]. right. exists q. f_equal. rewrite dump_obj in D. destruct m as [|kv m].
      - injection D as D. cbn in D. congruence.
      - destruct (dmembers _); try discriminate. cbn [dapp] in D. injection D as D. cbn [app] in D. congruence. }
    destruct B as [-> | (q & Eq)]; [exact I|].
    assert (lex_all p = lexx p) as Ep by (apply (lex_all_lexx strtod); rewrite Eq; intros c r Ec; cbn [app] in Ec; injection Ec as <- _; discriminate).
    assert (lex_all (p ++ s) = lexx (p ++ s)) as Eps
      by (apply (lex_all_lexx strtod); rewrite Eq; intros c r Ec; cbn [app] in Ec; injection Ec as <- _; discriminate).
    destruct (parse p) as [j| |] eqn:Pj; unfold JsonModel.parse in Pj; rewrite Ep in Pj; [|exact I|].
    - destruct j as [| | | | | | |m']; try exact I.
      destruct (prun_mono m' s (length p) p MVal [] (le_n _) Pp Pj) as (fs' & E).
      pose proof (parse_dump strtod _ _ G D) as A. unfold JsonModel.parse in A. rewrite Eps, E in A.
      destruct (dump_obj_end _ _ D) as (t' & Et).
      destruct (lexx_cases s) as [(r & S & E1) | [(r & S & E1) | (t & r & S & T & E1 & Lr)]]; rewrite E1 in A.
      + assert (Ps : printable s) by (apply Forall_app in P; apply P).
        pose proof (scan_end s r Ps S) as K. pose proof (skip_space_125 s) as I1. rewrite K in I1. apply I1.
        destruct (exists_last Ns) as (s' & c & ->). rewrite app_assoc in Et. apply app_inj_tail in Et. destruct Et as (_ & ->).
        apply in_or_app. right. left. reflexivity.
      + discriminate.
      + destruct t; discriminate.
    - exact (prun_no_fuel _ p MVal [] (le_n _) Pj).
  Qed.

  Lemma raw_obj r : exists m, raw r = JObj m.
  Proof. destruct r; eexists; reflexivity. Qed.

  (** The line of a record, cut. *)
  Lemma read_cut r p s fuel : writable r -> line r = p ++ s -> p <> [] -> (1 < length s)%nat ->
    read_events strtod (S fuel) p = GThrow (length p).
  Proof.
    intros W E Np Ls. destruct (text_ok r W) as (t & D & T & P). unfold line in E. rewrite T in E.
    destruct (exists_last (l := s)) as (s' & c & ->). { intros ->. cbn in Ls. lia. }
    rewrite app_assoc in E. apply app_inj_tail in E. destruct E as (E & _). rewrite app_length in Ls. cbn [length] in Ls.
    assert (Pp : printable p) by (rewrite E in P; apply Forall_app in P; apply P).
    assert (G : getline p = Some (p, [])).
    { clear - Pp Np. induction Pp as [|c p H Hp IH]; [congruence|]. cbn [getline]. replace (c =? 10) with false by lia.
      destruct p as [|d p]; [reflexivity|]. rewrite IH by congruence. reflexivity. }
    cbn [read_events]. rewrite G, cstr_printable by exact Pp.
    destruct (raw_obj r) as (m & R). pose proof (raw_good r W) as Gr. rewrite R in *.
    pose proof (parse_cut m t p s' Gr D E) as C. specialize (C ltac:(intros ->; cbn in Ls; lia)).
    destruct (parse p) as [j| |]; [|reflexivity | contradiction].
    destruct j; try reflexivity. contradiction.
  Qed.

  (** A file that ends in the middle of a line. *)
  Lemma get_cut l r p s w : Forall writable l -> writable r -> line r = p ++ s -> p <> [] -> (1 < length s)%nat ->
    s_ro w = true -> s_open w = false -> s_disk w = Some (lines l ++ p) ->
    exists w', get_events strtod w = SThrow w' /\ s_disk w' = s_disk w.
  Proof.
    intros Wl W E Np Ls R O D. unfold get_events, open_store. rewrite O, R, D. cbn [sbind s_ro s_eof s_disk s_pos negb orb skipn].
    assert (Lp : (0 < length p)%nat) by (destruct p; [congruence | cbn; lia]).
    destruct (read_more strtod l Wl (S (length (lines l ++ p))) p) as (k & Hk & Q). { rewrite app_length. lia. }
    rewrite Q. rewrite app_length in Hk. destruct k as [|k]; [lia|]. rewrite (read_cut r p s k W E Np Ls).
    eexists. split; reflexivity.
  Qed.
End Torn.

(** ** Statements of the properties *)
Lemma dump_str_cases s : is_bytes s -> (utf8 s /\ exists t, dump_str s = DOk t) \/ (~ utf8 s /\ dump_str s = DThrow).
Proof.
  intros B. destruct (dump_escaped_ok s B) as [(U & E) | (U & E)].
  - left. split; [exact U|]. unfold dump_str. rewrite E. eexists. reflexivity.
  - right. split; [exact U|]. unfold dump_str. rewrite E. reflexivity.
Qed.

Lemma value_back strtod j : good_json j ->
  exists t j', dump j = DOk t /\ Forall (fun b => 32 <= b) t /\ parse strtod t = POk j' /\ same j j'.
Proof.
  intros G. destruct (dump_lexes j (good_raw j G)) as (t & D & P & _). exists t, (canon j).
  split; [exact D|]. split; [exact P|]. split; [apply parse_dump; [apply good_raw; exact G | exact D] | apply same_canon; exact G].
Qed.

Lemma event_back strtod e : fits e -> utf8_ev e ->
  exists t j, dump (to_json e) = DOk t /\ parse strtod t = POk j /\ from_json j = COk e.
Proof.
  intros F U. pose proof (good_raw _ (to_json_good e F U)) as G. destruct (dump_lexes _ G) as (t & D & P & _).
  exists t, (canon (to_json e)). split; [exact D|]. split; [apply parse_dump; assumption | apply from_to; exact F].
Qed.

Lemma mset_in {A} k (v : A) m x : In x (mset k v m) -> x = (k, v) \/ In x m.
Proof.
  induction m as [|(k', v') m IH]; cbn [mset In]; [intros [H|[]]; left; symmetry; exact H|].
  destruct (bcmp k k') eqn:E; cbn [In].
  - apply bcmp_eq in E. subst k'. intros [H | H]; [left; symmetry; exact H | auto].
  - intros [H | [H | H]]; [left; symmetry; exact H | auto | auto].
  - intros [H | H]; [auto | destruct (IH H); auto].
Qed.
Lemma mset_sorted {A} k (v : A) m : sorted m -> sorted (mset k v m).
Proof.
  unfold sorted. induction 1 as [|(k', v') m S IH H]; cbn [mset].
  - repeat constructor.
  - destruct (bcmp k k') eqn:E.
    + apply bcmp_eq in E. subst k'. constructor; [exact S|]. eapply Forall_impl; [|exact H]. intros b Hb. exact Hb.
    + constructor; [constructor; assumption|]. apply Forall_cons; [exact E|]. eapply Forall_impl; [|exact H].
      intros b Hb. unfold keylt in *. cbn [fst] in *. eapply bcmp_lt_trans; eassumption.
    + constructor; [exact IH|]. apply Forall_forall. intros x Hx. apply mset_in in Hx. destruct Hx as [-> | Hx].
      * unfold keylt. cbn [fst]. rewrite bcmp_flip, E. reflexivity.
      * rewrite Forall_forall in H. apply H. exact Hx.
Qed.

Lemma w64_word v : 0 <= w64 v < 2 ^ 64.
Proof. unfold w64, M64. apply Z.mod_pos_bound. lia. Qed.

Lemma build_fits now l : long now -> fits (build now l).
Proof.
  intros H. unfold build. assert (F : fits (ev0 now)) by (repeat split; try (apply H); constructor).
  revert F. generalize (ev0 now). induction l as [|a l IH]; intros e F; [exact F|]. cbn [fold_left]. apply IH.
  destruct F as (S1 & S2 & S3 & N & T).
  destruct a; cbn [bstep]; unfold fits; cbn [v_str v_num v_tag v_time]; repeat split; try assumption; try apply T;
    try (apply mset_sorted; assumption).
  apply Forall_forall. intros x Hx. apply mset_in in Hx. destruct Hx as [-> | Hx]; [apply w64_word|].
  rewrite Forall_forall in N. apply N. exact Hx.
Qed.

Lemma recording_flushes t w m : recording t w -> recording t (fold_right flush w m).
Proof. intros R. induction m as [|n m IH]; [exact R|]. cbn [fold_right]. apply recording_flush. exact IH. Qed.

(** An initial part of lines: lines, and a part of the next. *)
Lemma lines_prefix l : forall d s, lines l = d ++ s ->
  exists l1 l2 p, l = l1 ++ l2 /\ d = lines l1 ++ p /\ (p = [] \/ exists r l3 s', l2 = r :: l3 /\ line r = p ++ s' /\ s' <> []).
Proof.
  induction l as [|r l IH]; intros d s E.
  - unfold lines in E. cbn [map concat] in E. symmetry in E. apply app_eq_nil in E. destruct E as (-> & _).
    exists [], [], []. auto.
  - unfold lines in E. cbn [map concat] in E. fold (lines l) in E.
    destruct (Nat.le_gt_cases (length (line r)) (length d)) as [L | L].
    + assert (exists d', d = line r ++ d') as (d' & ->).
      { exists (skipn (length (line r)) d). rewrite <- (firstn_skipn (length (line r)) d) at 1. f_equal.
        apply (f_equal (firstn (length (line r)))) in E. rewrite firstn_app, firstn_all, Nat.sub_diag, app_nil_r in E.
        rewrite firstn_app in E. replace (length (line r) - length d)%nat with O in E by lia. cbn [firstn] in E.
        rewrite app_nil_r in E. congruence. }
      rewrite <- app_assoc in E. apply app_inv_head in E. destruct (IH d' s E) as (l1 & l2 & p & -> & -> & H).
      exists (r :: l1), l2, p. split; [reflexivity|]. split; [|exact H]. unfold lines. cbn [map concat]. apply app_assoc.
    + exists [], (r :: l), d. split; [reflexivity|]. split; [reflexivity|]. right. exists r, l, (skipn (length d) (line r)).
      split; [reflexivity|].
      assert (firstn (length d) (line r) = d) as F.
      { apply (f_equal (firstn (length d))) in E. rewrite !firstn_app, firstn_all, Nat.sub_diag, app_nil_r in E.
        replace (length d - length (line r))%nat with O in E by lia. cbn [firstn] in E. rewrite app_nil_r in E. exact E. }
      split; [rewrite <- F at 1; symmetry; apply firstn_skipn|]. intros N. apply (f_equal (@length Z)) in N.
      rewrite skipn_length in N. cbn [length] in N. lia.
Qed.

Lemma file_torn strtod l r p s : Forall writable (l ++ [r]) ->
  text r = DOk (p ++ s) -> p <> [] -> (1 < length s)%nat -> forall t, t = concat (map line l) ++ p ->
  exists w, get_events strtod (mk_store (Some t) true true) = SThrow w.
Proof.
  intros W T Np Ls t ->. apply Forall_app in W. destruct W as (Wl & Wr). apply Forall_inv in Wr.
  destruct (get_cut strtod l r p s (mk_store (Some (lines l ++ p)) true true) Wl Wr) as (w & E & _); try assumption; try reflexivity.
  - unfold line. rewrite T. reflexivity.
  - exists w. exact E.
Qed.

(** The last line without its newline. *)
Lemma get_last strtod l r p w : Forall writable l -> writable r -> line r = p ++ [10] ->
  s_ro w = true -> s_open w = false -> s_disk w = Some (lines l ++ p) ->
  exists w', get_events strtod w = SOk w' (map meant (l ++ [r])).
Proof.
  intros Wl W E R O D. destruct (text_ok r W) as (t & Dt & T & P). unfold line in E. rewrite T in E.
  apply app_inj_tail in E. destruct E as (<- & _).
  unfold get_events, open_store. rewrite O, R, D. cbn [sbind s_ro s_eof s_disk s_pos negb orb skipn].
  assert (Np : t <> []).
  { intros ->. destruct (raw_obj r) as (m & Rm). rewrite Rm in Dt. destruct (dump_obj_end _ _ Dt) as (t' & X).
    destruct t'; discriminate. }
  assert (Lp : (0 < length t)%nat) by (destruct t; [congruence | cbn; lia]).
  destruct (read_more strtod l Wl (S (length (lines l ++ t))) t) as (k & Hk & Q). { rewrite app_length. lia. }
  rewrite Q. rewrite app_length in Hk. destruct k as [|[|k]]; [lia | lia |]. cbn [read_events].
  assert (G : getline t = Some (t, [])).
  { clear - P Np. induction P as [|c p H Hp IH]; [congruence|]. cbn [getline]. replace (c =? 10) with false by lia.
    destruct p as [|d p]; [reflexivity|]. rewrite IH by congruence. reflexivity. }
  rewrite G, cstr_printable by exact P. rewrite (parse_dump strtod _ _ (raw_good r W) Dt), (raw_meant r W).
  cbn [getline]. rewrite map_app. eexists. reflexivity.
Qed.

Lemma prefix_cases strtod l d s : Forall writable l -> d ++ s = lines l ->
  (exists l1 l2 r, l = l1 ++ l2 /\ get_events strtod (mk_store (Some d) true true) = SOk r (map meant l1)) \/
  (exists r, get_events strtod (mk_store (Some d) true true) = SThrow r).
Proof.
  intros W R. symmetry in R.
  destruct (lines_prefix l d _ R) as (l1 & l2 & p & -> & -> & H). pose proof W as W0. apply Forall_app in W0. destruct W0 as (W1 & W2).
  destruct H as [-> | (r & l3 & s' & -> & Lr & Ns)].
  - left. rewrite app_nil_r. destruct (get_lines strtod l1 (mk_store (Some (lines l1)) true true) W1) as (w' & E & _); try reflexivity.
    exists l1, l2, w'. split; [reflexivity | exact E].
  - apply Forall_inv in W2. destruct p as [|c p].
    { left. rewrite app_nil_r. destruct (get_lines strtod l1 (mk_store (Some (lines l1)) true true) W1) as (w' & E & _); try reflexivity.
      exists l1, (r :: l3), w'. split; [reflexivity | exact E]. }
    destruct (Nat.le_gt_cases (length s') 1) as [L | L].
    + left. destruct (text_ok r W2) as (t & _ & T & _). pose proof Lr as Lr0. unfold line in Lr0. rewrite T in Lr0.
      destruct (exists_last Ns) as (s2 & x & ->). rewrite app_length in L. cbn [length] in L.
      destruct s2; [|cbn [length] in L; lia]. cbn [app] in *. rewrite app_comm_cons in Lr0. apply app_inj_tail in Lr0.
      destruct Lr0 as (_ & <-).
      destruct (get_last strtod l1 r (c :: p) (mk_store (Some (lines l1 ++ c :: p)) true true) W1 W2 Lr) as (w' & E); try reflexivity.
      exists (l1 ++ [r]), l3, w'. split; [rewrite <- app_assoc; reflexivity | exact E].
    + right. destruct (get_cut strtod l1 r (c :: p) s' (mk_store (Some (lines l1 ++ c :: p)) true true) W1 W2 Lr) as (w' & E & _);
        try reflexivity; try discriminate; try lia. exists w'. exact E.
Qed.

(** ** Events that are not UTF-8 *)
Inductive byte_json : json -> Prop :=
| y_int z : - 2 ^ 63 <= z < 2 ^ 63 -> byte_json (JInt z)
| y_uns z : 0 <= z < 2 ^ 64 -> byte_json (JUns z)
| y_str s : is_bytes s -> byte_json (JStr s)
| y_obj m : Forall (fun kv => is_bytes (fst kv)) m -> Forall (fun kv => byte_json (snd kv)) m -> byte_json (JObj m).

Lemma dump_cases j : byte_json j -> (raw_ok j /\ exists t, dump j = DOk t) \/ (~ raw_ok j /\ dump j = DThrow).
Proof.
  induction j as [|b|z|z|z|s|l IH|m IH] using json_rec'; intros B; inversion B; subst.
  - left. assert (raw_ok (JInt z)) by (constructor; assumption). split; [assumption|].
    destruct (dump_lexes _ H) as (t & D & _). eauto.
  - left. assert (raw_ok (JUns z)) by (constructor; assumption). split; [assumption|].
    destruct (dump_lexes _ H) as (t & D & _). eauto.
  - cbn [dump]. destruct (dump_str_cases s H0) as [(U & E) | (U & E)].
    + left. split; [constructor; exact U | exact E].
    + right. split; [|exact E]. intros R. inversion R. contradiction.
  - rewrite dump_obj. destruct m as [|kv m]; [left; split; [repeat constructor | eexists; reflexivity]|].
    assert (A : (raw_ok (JObj (kv :: m)) /\ exists t, dmembers (kv :: m) = DOk t) \/
                (~ raw_ok (JObj (kv :: m)) /\ dmembers (kv :: m) = DThrow)).
    { clear B. revert IH H0 H1. generalize (kv :: m). clear. intros m IH Hk Hv.
      enough (A : ((Forall (fun kv => utf8 (fst kv)) m /\ Forall (fun kv => raw_ok (snd kv)) m) /\ exists t, dmembers m = DOk t) \/
                  (~ (Forall (fun kv => utf8 (fst kv)) m /\ Forall (fun kv => raw_ok (snd kv)) m) /\ dmembers m = DThrow)).
      { destruct A as [((A1 & A2) & A3) | (A1 & A2)]; [left; split; [constructor; assumption | exact A3]|].
        right. split; [|exact A2]. intros R. inversion R. auto. }
      induction m as [|(k, x) m IHm]; [left; repeat constructor; eexists; reflexivity|].
      inversion IH as [|? ? IHx IHr]; subst. inversion Hk as [|? ? Kx Kr]; subst. inversion Hv as [|? ? Vx Vr]; subst.
      cbn [fst snd] in *. cbn [dmembers].
      destruct (dump_str_cases k Kx) as [(U & a & E) | (U & E)]; rewrite E; cbn [dbind].
      2: { right. split; [|reflexivity]. intros (A1 & A2). apply Forall_inv in A1. contradiction. }
      destruct (IHx Vx) as [(Rx & b & Ex) | (Rx & Ex)]; rewrite Ex; cbn [dbind].
      2: { right. split; [|reflexivity]. intros (A1 & A2). apply Forall_inv in A2. contradiction. }
      destruct m as [|y m].
      { left. split; [|eexists; reflexivity]. repeat constructor; assumption. }
      destruct (IHm IHr Kr Vr) as [((A1 & A2) & c & Ec) | (A & Ec)]; rewrite Ec.
      - left. split; [|eexists; reflexivity]. split; constructor; assumption.
      - right. split; [|reflexivity]. intros (A1 & A2). apply Forall_inv_tail in A1. apply Forall_inv_tail in A2. auto. }
    destruct A as [(R & t & E) | (R & E)]; rewrite E; [left | right]; split; try assumption; try reflexivity.
    eexists. reflexivity.
Qed.

Lemma ascii_bytes s : forallb (fun b => (0 <=? b) && (b <=? 255)) s = true -> is_bytes s.
Proof. intros H. apply Forall_forall. intros x Hx. rewrite forallb_forall in H. specialize (H x Hx). lia. Qed.

Lemma to_json_bytes e : fits e -> bytes_ev e -> byte_json (to_json e).
Proof.
  intros (_ & _ & _ & N & T) (B1 & B2 & B3 & B4). rewrite to_json_eq. constructor.
  - repeat (constructor; [apply ascii_bytes; reflexivity|]). constructor.
  - assert (J : forall m, Forall (fun kv => is_bytes (fst kv) /\ is_bytes (snd kv)) m -> byte_json (jstrs m)).
    { intros m H. constructor; apply Forall_map; (eapply Forall_impl; [|exact H]); intros a (Ha & Hb); [exact Ha | constructor; exact Hb]. }
    repeat apply Forall_cons; try apply Forall_nil; cbn [snd]; try (apply J; assumption); try (constructor; assumption).
    + constructor. apply ascii_bytes. destruct (v_cat e); reflexivity.
    + constructor; apply Forall_map; [exact B3|]. eapply Forall_impl; [|exact N]. intros a Ha. constructor. exact Ha.
Qed.

Lemma raw_utf8 e : raw_ok (to_json e) -> utf8_ev e.
Proof.
  assert (J : forall m, raw_ok (jstrs m) -> Forall (fun kv => utf8 (fst kv) /\ utf8 (snd kv)) m).
  { intros m R. inversion R as [| | | | | |? K V]; subst. rewrite Forall_forall in *. intros x Hx.
    specialize (K (fst x, JStr (snd x)) (in_map _ _ x Hx)). specialize (V (fst x, JStr (snd x)) (in_map _ _ x Hx)). cbn [fst snd] in *. inversion V; subst. auto. }
  rewrite to_json_eq. intros R. inversion R as [| | | | | |? K V]; subst.
  inversion V as [|? ? V1 V']; subst. inversion V' as [|? ? V2 V2']; subst. inversion V2' as [|? ? V3 V3']; subst.
  inversion V3' as [|? ? V4 V4']; subst. inversion V4' as [|? ? V5 V5']; subst. cbn [snd] in *.
  split; [inversion V2; assumption|]. split; [apply J; exact V4|]. split; [|apply J; exact V5].
  inversion V3 as [| | | | | |? K3 _]; subst. rewrite Forall_forall in *. intros x Hx.
  exact (K3 (fst x, JUns (snd x)) (in_map _ _ x Hx)).
Qed.

Lemma invalid_throws e : fits e -> bytes_ev e -> ~ utf8_ev e -> text (RGeneric e) = DThrow.
Proof.
  intros F B U. cbn [text]. destruct (dump_cases _ (to_json_bytes e F B)) as [(R & _) | (_ & E)].
  - destruct (U (raw_utf8 e R)).
  - rewrite E. reflexivity.
Qed.

Lemma invalid_nothing e w : fits e -> bytes_ev e -> ~ utf8_ev e -> s_open w = true -> insert (RGeneric e) w = SJson w.
Proof.
  intros F B U O. unfold insert. cbn [generic]. unfold open_store. rewrite O. cbn [sbind]. rewrite invalid_throws by assumption. reflexivity.
Qed.

Lemma kept_writable l l' : kept l l' -> Forall writable l'.
Proof. induction 1; auto. Qed.

Lemma record_kept l l' : kept l l' -> forall w t, recording t w -> exists w', record_all l w = SOk w' tt /\ recording (t ++ lines l') w'.
Proof.
  induction 1 as [|r l l' W K IH|e l l' F B U K IH]; intros w t R.
  - exists w. split; [reflexivity|]. unfold lines. cbn [map concat]. rewrite app_nil_r. exact R.
  - destruct (insert_ok r w t W R) as (w1 & E & R1). cbn [record_all]. rewrite E.
    destruct (IH w1 _ R1) as (w2 & E2 & R2). exists w2. split; [exact E2|].
    unfold lines in *. cbn [map concat]. rewrite app_assoc. exact R2.
  - cbn [record_all]. rewrite (invalid_nothing e w F B U (proj1 R)). apply IH. exact R.
Qed.

Lemma kept_back strtod e l l' disk : kept (RGeneric e :: l) l' ->
  exists w, record_all (RGeneric e :: l) (mk_store disk true false) = SOk w tt /\
  forall m, exists r, get_events strtod (mk_store (finished (fold_right flush w m)) true true) =
                      SOk r (map meant l') /\ s_disk r = finished w.
Proof.
  intros K. set (w0 := {| s_disk := Some []; s_writable := true; s_ro := false; s_open := true; s_pend := []; s_pos := O; s_eof := false |}).
  assert (record_all (RGeneric e :: l) (mk_store disk true false) = record_all (RGeneric e :: l) w0) as -> by reflexivity.
  destruct (record_kept _ _ K w0 []) as (w & E & R).
  { split; [reflexivity|]. split; [reflexivity|]. exists []. split; reflexivity. }
  exists w. split; [exact E|]. intros m.
  rewrite (recording_finished _ _ (recording_flushes _ _ m R)), (recording_finished _ _ R). cbn [app].
  apply (get_lines strtod _ (mk_store (Some (lines l')) true true) (kept_writable _ _ K)); reflexivity.
Qed.

Lemma kept_prefix strtod e l l' disk w n : kept (RGeneric e :: l) l' ->
  record_all (RGeneric e :: l) (mk_store disk true false) = SOk w tt ->
  exists d, s_disk (flush n w) = Some d /\
  ((exists l1 l2 r, l' = l1 ++ l2 /\ get_events strtod (mk_store (Some d) true true) = SOk r (map meant l1)) \/
   (exists r, get_events strtod (mk_store (Some d) true true) = SThrow r)).
Proof.
  intros K E. set (w0 := {| s_disk := Some []; s_writable := true; s_ro := false; s_open := true; s_pend := []; s_pos := O; s_eof := false |}).
  assert (record_all (RGeneric e :: l) (mk_store disk true false) = record_all (RGeneric e :: l) w0) as Ew by reflexivity.
  destruct (record_kept _ _ K w0 []) as (w' & E' & R).
  { split; [reflexivity|]. split; [reflexivity|]. exists []. split; reflexivity. }
  rewrite <- Ew, E in E'. injection E' as <-. cbn [app] in R.
  apply (recording_flush _ _ n) in R. destruct R as (_ & _ & d & D & R). exists d. split; [exact D|].
  pose proof (kept_writable _ _ K) as W. exact (prefix_cases strtod l' d _ W R).
Qed.

Lemma torn_texts strtod l ts r p s : Forall writable (l ++ [r]) -> Forall2 (fun r t => text r = DOk t) l ts ->
  text r = DOk (p ++ s) -> p <> [] -> (1 < length s)%nat ->
  exists w, get_events strtod (mk_store (Some (concat ts ++ p)) true true) = SThrow w.
Proof.
  intros W F T Np Ls. apply (file_torn strtod l r p s W T Np Ls). f_equal. f_equal.
  clear - F. induction F as [|r t l ts H F IH]; [reflexivity|]. cbn [map]. unfold line at 1. rewrite H. f_equal. exact IH.
Qed.

Lemma reader_insert r d : writable r -> generic r = true ->
  exists w, insert r (mk_store (Some d) true true) = SOk w tt /\ finished w = Some d.
Proof.
  intros W G. unfold insert. rewrite G. unfold open_store. cbn [mk_store s_open s_ro s_disk sbind].
  destruct (text_ok r W) as (t & _ & T & _). rewrite T. eexists. split; [reflexivity|].
  unfold finished. cbn [flush s_disk s_pend length firstn]. rewrite app_nil_r. reflexivity.
Qed.
