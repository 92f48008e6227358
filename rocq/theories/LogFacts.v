(** Facts about the log. *)
From Coq Require Import String Ascii.
From Verif Require Import Base BaseFacts NamingModel NamingFacts CatalogModel CatalogFacts LogModel LogSpec.

(** ** Levels *)

Ltac letters := repeat match goal with c : ascii |- _ => destruct c as [[|] [|] [|] [|] [|] [|] [|] [|]]; clear c end.

Lemma nat_of_ascii_inj a b : nat_of_ascii a = nat_of_ascii b -> a = b.
Proof. intros E. rewrite <- (ascii_nat_embedding a), <- (ascii_nat_embedding b). now f_equal. Qed.

Lemma upper_plain a : (nat_of_ascii a < 128)%nat -> exists x, upper a = Some x /\
  nat_of_ascii x = if (97 <=? nat_of_ascii a)%nat && (nat_of_ascii a <=? 122)%nat then (nat_of_ascii a - 32)%nat else nat_of_ascii a.
Proof.
  intros H. unfold upper. replace (128 <=? Z.of_nat (nat_of_ascii a)) with false by lia.
  destruct ((97 <=? Z.of_nat (nat_of_ascii a)) && (Z.of_nat (nat_of_ascii a) <=? 122)) eqn:E.
  - eexists. split; [reflexivity|]. replace ((97 <=? nat_of_ascii a)%nat && (nat_of_ascii a <=? 122)%nat) with true by lia.
    rewrite nat_ascii_embedding; lia.
  - exists a. split; [reflexivity|]. replace ((97 <=? nat_of_ascii a)%nat && (nat_of_ascii a <=? 122)%nat) with false by lia. reflexivity.
Qed.

Lemma equal_upper_ok s : forall t, plain s -> plain t -> String.length s = String.length t ->
  exists b, equal_upper s t = Ok tt b /\ (b = true <-> same_word s t).
Proof.
  induction s as [|a s IH]; intros [|b t] Ps Pt El; try discriminate El.
  - exists true. cbn. tauto.
  - destruct Ps as [Pa Ps], Pt as [Pb Pt]. injection El as El.
    destruct (upper_plain a Pa) as (x & Ex & Nx), (upper_plain b Pb) as (y & Ey & Ny).
    cbn [equal_upper same_word]. rewrite Ex, Ey. destruct (Ascii.eqb_spec x y) as [->|Nxy].
    + destruct (IH t Ps Pt El) as (r & -> & Hr). exists r. split; [reflexivity|]. rewrite Hr.
      assert (same_letter a b) by (unfold same_letter; destruct (_ && _) eqn:C1 in Nx; destruct (_ && _) eqn:C2 in Ny; lia). tauto.
    + exists false. split; [reflexivity|]. split; [discriminate|]. intros [Hl _]. exfalso. apply Nxy. apply nat_of_ascii_inj.
      unfold same_letter in Hl. destruct (_ && _) eqn:C1 in Nx; destruct (_ && _) eqn:C2 in Ny; lia.
Qed.

Lemma same_word_length s : forall t, same_word s t -> String.length s = String.length t.
Proof. induction s as [|a s IH]; intros [|b t]; cbn; try tauto. intros [_ H]. f_equal. auto. Qed.

Lemma same_word_plain s : forall t, same_word s t -> plain t -> plain s.
Proof.
  induction s as [|a s IH]; intros [|b t]; cbn; try tauto. intros [H1 H2] [P1 P2]. split; [unfold same_letter in H1; lia|eauto].
Qed.

Lemma match_ok s t : plain s -> plain t -> exists b, case_insensitive_match s t = Ok tt b /\ (b = true <-> same_word s t).
Proof.
  intros Ps Pt. unfold case_insensitive_match. destruct (Nat.eqb_spec (String.length s) (String.length t)) as [E|N].
  - now apply equal_upper_ok.
  - exists false. split; [reflexivity|]. split; [discriminate|]. intros H. now apply same_word_length in H.
Qed.

Lemma documented_plain i x : documented_level i x -> plain x.
Proof. intros [[_ ->]|[[_ ->]|[[_ ->]|[_ ->]]]]; cbn; repeat split; lia. Qed.

Lemma documented_name i x : documented_level i x -> level_name i = x /\ 0 <= i <= 3.
Proof. intros [[-> ->]|[[-> ->]|[[-> ->]|[-> ->]]]]; split; reflexivity || lia. Qed.

Lemma documented_ex i : 0 <= i <= 3 -> exists x, documented_level i x.
Proof. intros H. unfold documented_level. assert (i = 0 \/ i = 1 \/ i = 2 \/ i = 3) as [-> | [-> | [-> | ->]]] by lia; eexists; eauto 8. Qed.

Lemma same_word_one v i x j y : same_word v x -> same_word v y -> documented_level i x -> documented_level j y -> i = j.
Proof.
  intros Hx Hy Dx Dy. apply same_word_length in Hx as Lx. apply same_word_length in Hy as Ly.
  destruct Dx as [[-> ->]|[[-> ->]|[[-> ->]|[-> ->]]]], Dy as [[-> ->]|[[-> ->]|[[-> ->]|[-> ->]]]]; try reflexivity;
    try (exfalso; cbn in Lx, Ly; lia).
  all: exfalso; destruct v as [|a v]; [exact Hx|]; cbn in Hx, Hy; destruct Hx as [Hx _], Hy as [Hy _]; unfold same_letter in *; cbn in *; lia.
Qed.

Theorem log_initial :
  initial_level None = Ok tt 2 /\
  (forall v i x, documented_level i x -> same_word v x -> initial_level (Some v) = Ok tt i) /\
  (forall v, plain v -> (forall i x, documented_level i x -> ~ same_word v x) -> initial_level (Some v) = Ok tt 2).
Proof.
  split; [reflexivity|].
  assert (G : forall v, plain v -> exists b0 b1 b2 b3,
    (b0 = true <-> same_word v "ERROR") /\ (b1 = true <-> same_word v "WARNING") /\ (b2 = true <-> same_word v "INFO") /\
    (b3 = true <-> same_word v "DEBUG") /\
    initial_level (Some v) = Ok tt (if b0 then 0 else if b1 then 1 else if b2 then 2 else if b3 then 3 else 2)).
  { intros v Hv. unfold initial_level, levels. cbn [matching].
    destruct (match_ok v "ERROR" Hv ltac:(cbn; repeat split; lia)) as (b0 & -> & H0).
    destruct (match_ok v "WARNING" Hv ltac:(cbn; repeat split; lia)) as (b1 & -> & H1).
    destruct (match_ok v "INFO" Hv ltac:(cbn; repeat split; lia)) as (b2 & -> & H2).
    destruct (match_ok v "DEBUG" Hv ltac:(cbn; repeat split; lia)) as (b3 & -> & H3).
    exists b0, b1, b2, b3. repeat (split; [assumption|]). destruct b0; [reflexivity|]. destruct b1; [reflexivity|]. destruct b2; [reflexivity|]. destruct b3; reflexivity. }
  split.
  - intros v i x D Sw. assert (Pv : plain v) by (eapply same_word_plain; [exact Sw|eapply documented_plain; eauto]).
    destruct (G v Pv) as (b0 & b1 & b2 & b3 & H0 & H1 & H2 & H3 & ->). f_equal.
    assert (U : forall j y, documented_level j y -> same_word v y -> i = j) by (intros j y Dy Hy; exact (same_word_one v i x j y Sw Hy D Dy)).
    destruct b0; [symmetry; apply (U 0 "ERROR"%string); [unfold documented_level; auto|now apply H0]|].
    destruct b1; [symmetry; apply (U 1 "WARNING"%string); [unfold documented_level; auto|now apply H1]|].
    destruct b2; [symmetry; apply (U 2 "INFO"%string); [unfold documented_level; auto 6|now apply H2]|].
    destruct b3; [symmetry; apply (U 3 "DEBUG"%string); [unfold documented_level; auto 8|now apply H3]|].
    exfalso. destruct D as [[_ ->]|[[_ ->]|[[_ ->]|[_ ->]]]]; [apply H0 in Sw|apply H1 in Sw|apply H2 in Sw|apply H3 in Sw]; discriminate.
  - intros v Pv N. destruct (G v Pv) as (b0 & b1 & b2 & b3 & H0 & H1 & H2 & H3 & ->). f_equal.
    destruct b0; [exfalso; eapply (N 0); [unfold documented_level; eauto|now apply H0]|].
    destruct b1; [exfalso; eapply (N 1); [unfold documented_level; eauto|now apply H1]|].
    destruct b2; [reflexivity|].
    destruct b3; [exfalso; eapply (N 3); [unfold documented_level; eauto 8|now apply H3]|]. reflexivity.
Qed.

(** ** Streams *)

Section Streams.
  Context (takes syncs : nat -> bool).

  (** From [w] to [w'] the stream was asked to write [t]. *)
  Definition wrote (w w' : io) (t : list ascii) : Prop :=
    i_buf w' = i_buf w /\ i_enabled w' = i_enabled w /\
    (i_bad w' = false -> i_bad w = false /\ gained w w' t) /\
    (i_bad w = true -> i_bad w' = true /\ forall s, i_text w' s = i_text w s) /\
    (forall s, (goes_to (i_buf w) s -> exists p, prefix p t /\ i_text w' s = i_text w s ++ p) /\
               (~ goes_to (i_buf w) s -> i_text w' s = i_text w s)) /\
    ((forall k, takes k = true) -> (forall k, syncs k = true) -> i_bad w' = i_bad w).

  Lemma prefix_nil {A} (t : list A) : prefix [] t.
  Proof. now exists t. Qed.
  Lemma prefix_refl {A} (t : list A) : prefix t t.
  Proof. exists []. now rewrite app_nil_r. Qed.
  Lemma prefix_l {A} (p t u : list A) : prefix p t -> prefix p (t ++ u).
  Proof. intros [r ->]. exists (r ++ u). now rewrite app_assoc. Qed.
  Lemma prefix_r {A} (p t u : list A) : prefix p u -> prefix (t ++ p) (t ++ u).
  Proof. intros [r ->]. exists r. now rewrite app_assoc. Qed.

  Lemma wrote_same w w' : i_buf w' = i_buf w -> i_enabled w' = i_enabled w -> i_bad w' = i_bad w ->
    (forall s, i_text w' s = i_text w s) -> wrote w w' [].
  Proof.
    intros H1 H2 H3 H4. split; [auto|]. split; [auto|]. split; [intros B; split; [congruence|]; intros s; rewrite app_nil_r; auto|].
    split; [intros B; split; [congruence|auto]|]. split; [|auto]. intros s. split; [|auto]. intros _. exists []. rewrite app_nil_r. split; [apply prefix_nil|auto].
  Qed.

  Lemma wrote_bad w t : i_bad w = true -> wrote w w t.
  Proof.
    intros B. split; [auto|]. split; [auto|]. split; [congruence|]. split; [auto|]. split; [|auto]. intros s. split; [|auto]. intros _. exists [].
    rewrite app_nil_r. split; [apply prefix_nil|auto].
  Qed.

  Lemma wrote_app w w1 w2 t u : wrote w w1 t -> wrote w1 w2 u -> wrote w w2 (t ++ u).
  Proof.
    intros (A1 & A2 & A3 & A4 & A5 & A6) (B1 & B2 & B3 & B4 & B5 & B6).
    split; [congruence|]. split; [congruence|]. split; [|split; [|split]].
    - intros B. destruct (B3 B) as [C1 C2]. destruct (A3 C1) as [C3 C4]. split; [auto|]. intros s. destruct (C2 s) as [D1 D2], (C4 s) as [D3 D4].
      rewrite A1 in D1, D2. split; intros G; [rewrite D1, D3 by auto; now rewrite app_assoc|rewrite D2, D4 by auto; reflexivity].
    - intros B. destruct (A4 B) as [C1 C2]. destruct (B4 C1) as [C3 C4]. split; [auto|]. intros s. now rewrite C4.
    - intros s. destruct (A5 s) as [C1 C2], (B5 s) as [D1 D2]. rewrite A1 in D1, D2. split; [|intros G; rewrite D2, C2 by auto; reflexivity].
      intros G. destruct (i_bad w1) eqn:E.
      + destruct (B4 eq_refl) as [_ E2]. destruct (C1 G) as (p & P1 & P2). exists p. split; [now apply prefix_l|]. now rewrite E2.
      + destruct (A3 eq_refl) as [_ E2]. destruct (D1 G) as (p & P1 & P2). exists (t ++ p). split; [now apply prefix_r|].
        rewrite P2. destruct (E2 s) as [E3 _]. rewrite E3 by auto. now rewrite app_assoc.
    - intros T S. rewrite (B6 T S). auto.
  Qed.

  (** One character: what each target got. *)
  Definition put_ok (w w' : io) (c : ascii) (ok : bool) : Prop :=
    i_buf w' = i_buf w /\ i_enabled w' = i_enabled w /\ i_bad w' = i_bad w /\
    (ok = true -> gained w w' [c]) /\
    (forall s, (goes_to (i_buf w) s -> exists p, prefix p [c] /\ i_text w' s = i_text w s ++ p) /\
               (~ goes_to (i_buf w) s -> i_text w' s = i_text w s)) /\
    ((forall k, takes k = true) -> ok = true).

  Lemma sink_eqb_spec a b : sink_eqb a b = true <-> a = b.
  Proof. destruct a, b; cbn; split; congruence. Qed.

  Lemma put_buf_ok c w : separate (i_buf w) -> put_ok w (fst (put_buf takes c w)) c (snd (put_buf takes c w)).
  Proof.
    intros Sep. assert (N : forall t : list ascii, t = t ++ []) by (intros; now rewrite app_nil_r).
    assert (P0 : prefix [] [c]) by apply prefix_nil. assert (P1 : prefix [c] [c]) by apply prefix_refl.
    unfold put_buf, put_ok, gained. destruct (i_buf w) as [s|[co|] [fi|]] eqn:Eb; unfold overflow, put_opt, put_sink; cbn [fst snd i_text i_puts i_buf i_enabled i_bad].
    all: cbn [goes_to separate] in *.
    1,2,3,4: split; [exact Eb|]; split; [reflexivity|]; split; [reflexivity|].
    5: split; [exact Eb|]; split; [reflexivity|]; split; [reflexivity|].
    all: split; [intros Hok; intros t|split; [intros t|intros T; rewrite ?T; reflexivity]].
    all: try (destruct (takes (i_puts w)), (takes (S (i_puts w)))); try discriminate Hok.
    all: try destruct s; try destruct co; try destruct fi; try (now contradiction Sep); destruct t; cbn [andb sink_eqb].
    all: split; intros G; try (exfalso; now auto); try (destruct G as [G|G]; discriminate G); try discriminate G; try reflexivity; try (exists [c]; now auto); try (exists []; now auto).
  Qed.

  Definition put_all_ok (w w' : io) (t : list ascii) (ok : bool) : Prop :=
    i_buf w' = i_buf w /\ i_enabled w' = i_enabled w /\ i_bad w' = i_bad w /\
    (ok = true -> gained w w' t) /\
    (forall s, (goes_to (i_buf w) s -> exists p, prefix p t /\ i_text w' s = i_text w s ++ p) /\
               (~ goes_to (i_buf w) s -> i_text w' s = i_text w s)) /\
    ((forall k, takes k = true) -> ok = true).

  Lemma put_all_facts t : forall w, separate (i_buf w) -> put_all_ok w (fst (put_all takes t w)) t (snd (put_all takes t w)).
  Proof.
    induction t as [|c t IH]; intros w Sep; cbn [put_all].
    - cbn [fst snd]. repeat (split; [reflexivity|]). split; [intros _ s; rewrite app_nil_r; auto|]. split; [|auto].
      intros s. split; [|auto]. intros _. exists []. rewrite app_nil_r. split; [apply prefix_nil|auto].
    - pose proof (put_buf_ok c w Sep) as (A1 & A2 & A3 & A4 & A5 & A6). destruct (put_buf takes c w) as [w1 ok1] eqn:E1. cbn [fst snd] in *.
      destruct ok1.
      + assert (Sep1 : separate (i_buf w1)) by (rewrite A1; exact Sep).
        destruct (IH w1 Sep1) as (B1 & B2 & B3 & B4 & B5 & B6). specialize (A4 eq_refl).
        split; [congruence|]. split; [congruence|]. split; [congruence|]. split; [|split; [|exact B6]].
        * intros Hok s. destruct (A4 s) as [C1 C2], (B4 Hok s) as [D1 D2]. rewrite A1 in D1, D2.
          split; intros G; [rewrite D1, C1 by auto; now rewrite <- app_assoc|rewrite D2, C2 by auto; reflexivity].
        * intros s. destruct (A4 s) as [C1 C2], (B5 s) as [D1 D2]. rewrite A1 in D1, D2.
          split; intros G; [|rewrite D2, C2 by auto; reflexivity].
          destruct (D1 G) as (p & P1 & P2). exists (c :: p). split; [destruct P1 as [r ->]; now exists r|]. rewrite P2, C1 by auto. now rewrite <- app_assoc.
      + cbn [fst snd]. split; [auto|]. split; [auto|]. split; [auto|]. split; [discriminate|]. split.
        * intros s. destruct (A5 s) as [C1 C2]. split; [|auto]. intros G. destruct (C1 G) as (p & P1 & P2). exists p. split; [|auto].
          change (c :: t) with ([c] ++ t). now apply prefix_l.
        * intros T. exfalso. specialize (A6 T). discriminate.
  Qed.

  Lemma insert_wrote t w : separate (i_buf w) -> wrote w (insert takes t w) t.
  Proof.
    intros Sep. unfold insert. destruct (i_bad w) eqn:B; [now apply wrote_bad|].
    pose proof (put_all_facts t w Sep) as (A1 & A2 & A3 & A4 & A5 & A6). destruct (put_all takes t w) as [w1 ok]. cbn [fst snd] in *.
    unfold wrote, set_bad. cbn [i_buf i_enabled i_bad i_text]. rewrite A3, B. cbn [orb].
    split; [auto|]. split; [auto|]. split; [intros Hok; split; [auto|]; destruct ok; [|discriminate]; exact (A4 eq_refl)|].
    split; [discriminate|]. split; [exact A5|]. intros T _. now rewrite (A6 T).
  Qed.

  Lemma sync_text o w : i_text (fst (sync_opt syncs o w)) = i_text w /\ i_buf (fst (sync_opt syncs o w)) = i_buf w /\
    i_enabled (fst (sync_opt syncs o w)) = i_enabled w /\ i_bad (fst (sync_opt syncs o w)) = i_bad w /\
    ((forall k, syncs k = true) -> snd (sync_opt syncs o w) = true).
  Proof. destruct o; cbn; auto. Qed.

  Lemma flush_wrote w : wrote w (flush syncs w) [].
  Proof.
    unfold flush. destruct (i_bad w) eqn:B; [now apply wrote_bad|].
    assert (G : forall w1 ok, i_text w1 = i_text w -> i_buf w1 = i_buf w -> i_enabled w1 = i_enabled w -> i_bad w1 = i_bad w ->
      ((forall k, syncs k = true) -> ok = true) -> wrote w (set_bad (negb ok) w1) []).
    { intros w1 ok E1 E2 E3 E4 E5. unfold wrote, set_bad, gained. cbn [i_buf i_enabled i_bad i_text]. rewrite E1, E4, B. cbn [orb].
      split; [auto|]. split; [auto|]. split; [intros _; split; [auto|]; intros s; rewrite app_nil_r; auto|]. split; [discriminate|].
      split; [|intros _ S; now rewrite (E5 S)]. intros s. split; [|auto]. intros _. exists []. rewrite app_nil_r. split; [apply prefix_nil|auto]. }
    unfold sync_buf. destruct (i_buf w) as [s|co fi] eqn:Eb.
    - destruct (sync_text (Some s) w) as (H1 & H2 & H3 & H4 & H5). destruct (sync_opt syncs (Some s) w) as [w1 ok]. cbn [fst snd] in *. apply G; congruence || auto.
    - destruct (sync_text co w) as (H1 & H2 & H3 & H4 & H5). destruct (sync_opt syncs co w) as [w1 a]. cbn [fst snd] in *.
      destruct (sync_text fi w1) as (K1 & K2 & K3 & K4 & K5). destruct (sync_opt syncs fi w1) as [w2 b]. cbn [fst snd] in *.
      apply G; try congruence. intros S. now rewrite (H5 S), (K5 S).
  Qed.

  Lemma inserts_wrote l : forall w, separate (i_buf w) ->
    wrote w (fold_left (fun w t => insert takes (list_ascii_of_string t) w) l w) (flat_map list_ascii_of_string l).
  Proof.
    induction l as [|t l IH]; intros w Sep; cbn [fold_left flat_map]; [now apply wrote_same|].
    pose proof (insert_wrote (list_ascii_of_string t) w Sep) as H. eapply wrote_app; [exact H|]. apply IH. destruct H as [-> _]. exact Sep.
  Qed.

  Lemma list_ascii_app (a b : string) : list_ascii_of_string (a ++ b)%string = list_ascii_of_string a ++ list_ascii_of_string b.
  Proof. induction a as [|c a IH]; cbn; [auto|]. now rewrite IH. Qed.

  Lemma message_wrote l m f n w : separate (i_buf w) -> level_enabled l (i_enabled w) = true ->
    wrote w (log_message takes syncs l m f n w) (line_of (level_name l) m f n).
  Proof.
    intros Sep E. unfold log_message. rewrite E. cbn [negb].
    match goal with |- wrote _ (flush _ (insert _ _ ?x)) _ => pose proof (inserts_wrote ["["; level_name l; "]"; "["; f; ":"; dec n; "]:"; m]%string w Sep) as H; set (w1 := x) in * end.
    replace (line_of (level_name l) m f n) with ((flat_map list_ascii_of_string ["["; level_name l; "]"; "["; f; ":"; dec n; "]:"; m]%string ++ [newline]) ++ []).
    - eapply wrote_app; [eapply wrote_app; [exact H|apply insert_wrote; destruct H as [-> _]; exact Sep]|apply flush_wrote].
    - rewrite app_nil_r. unfold line_of, newline. f_equal. rewrite !list_ascii_app. cbn [flat_map]. rewrite app_nil_r.
      change (list_ascii_of_string "][") with (list_ascii_of_string "]" ++ list_ascii_of_string "["). now rewrite <- !app_assoc.
  Qed.

  Lemma enabled_level l k : level_enabled l (set_level k) = true <-> 0 <= l <= 3 /\ l <= k.
  Proof.
    unfold level_enabled. destruct ((l <? 0) || (4 <=? l)) eqn:R; cbn [orb negb].
    - split; [discriminate|]. lia.
    - rewrite negb_involutive. assert (E : nth (Z.to_nat l) (set_level k) false = (l <=? k)).
      { assert (l = 0 \/ l = 1 \/ l = 2 \/ l = 3) as [-> | [-> | [-> | ->]]] by lia; reflexivity. }
      rewrite E. lia.
  Qed.

  Theorem log_written : forall ops l w, separate (i_buf w) -> i_enabled w = set_level l -> exists t,
    log_of l ops t /\ i_buf (l_run takes syncs ops w) = i_buf w /\
    (i_bad (l_run takes syncs ops w) = false -> i_bad w = false /\ gained w (l_run takes syncs ops w) t) /\
    (forall s, (goes_to (i_buf w) s -> exists p, prefix p t /\ i_text (l_run takes syncs ops w) s = i_text w s ++ p) /\
               (~ goes_to (i_buf w) s -> i_text (l_run takes syncs ops w) s = i_text w s)) /\
    ((forall k, takes k = true) -> (forall k, syncs k = true) -> i_bad (l_run takes syncs ops w) = i_bad w).
  Proof.
    unfold l_run. intros ops.
    assert (G : forall l w, separate (i_buf w) -> i_enabled w = set_level l -> exists t, log_of l ops t /\
      i_buf (fold_left (fun w o => l_do takes syncs o w) ops w) = i_buf w /\
      wrote (mkIo (i_text w) (i_puts w) (i_syncs w) (i_bad w) (i_buf w) [])
            (let w' := fold_left (fun w o => l_do takes syncs o w) ops w in mkIo (i_text w') (i_puts w') (i_syncs w') (i_bad w') (i_buf w') []) t).
    { induction ops as [|o ops IH]; intros l w Sep En; cbn [fold_left].
      - exists []. split; [constructor|]. split; [reflexivity|]. apply wrote_same; reflexivity.
      - destruct o as [k|i m f n]; cbn [l_do].
        + destruct (IH k (mkIo (i_text w) (i_puts w) (i_syncs w) (i_bad w) (i_buf w) (set_level k)) Sep eq_refl) as (t & T1 & T2 & T3).
          exists t. split; [now constructor|]. split; [exact T2|exact T3].
        + destruct (level_enabled i (i_enabled w)) eqn:E.
          * pose proof (message_wrote i m f n w Sep E) as H. set (w1 := log_message takes syncs i m f n w) in *. clearbody w1.
            assert (H' := H). destruct H' as (A1 & A2 & _).
            destruct (IH l w1 ltac:(rewrite A1; exact Sep) ltac:(congruence)) as (t & T1 & T2 & T3).
            rewrite En in E. apply enabled_level in E as [R Rl]. destruct (documented_ex i R) as [x D]. destruct (documented_name i x D) as [Ex _].
            exists (line_of x m f n ++ t). split; [now constructor|]. split; [congruence|]. eapply wrote_app; [|exact T3].
            rewrite <- Ex. destruct H as (_ & _ & A3 & A4 & A5 & A6). split; [exact A1|]. split; [reflexivity|]. split; [exact A3|]. split; [exact A4|]. split; [exact A5|exact A6].
          * destruct (IH l w Sep En) as (t & T1 & T2 & T3). exists t. split; [|auto]. apply log_hidden; [|auto].
            destruct (Z_le_gt_dec 0 i); [|lia]. destruct (Z_le_gt_dec i 3); [|lia]. left. destruct (Z_le_gt_dec i l); [|lia]. exfalso.
            assert (level_enabled i (i_enabled w) = true) by (rewrite En; apply enabled_level; lia). congruence. }
    intros l w Sep En. destruct (G l w Sep En) as (t & T1 & T2 & T3). exists t. split; [auto|]. split; [auto|].
    destruct T3 as (_ & _ & A3 & A4 & A5 & A6). cbn [i_bad i_buf i_text] in *. auto.
  Qed.

  (** From [w] to [w'] the stream turned bad iff something it was asked for failed. *)
  Definition fair (w w' : io) : Prop :=
    (i_puts w <= i_puts w')%nat /\ (i_syncs w <= i_syncs w')%nat /\ i_buf w' = i_buf w /\
    (i_bad w = true -> i_bad w' = true) /\
    (i_bad w = false -> (i_bad w' = false <-> all_fine takes (i_puts w) (i_puts w') /\ all_fine syncs (i_syncs w) (i_syncs w'))).

  Lemma all_fine_nil (f : nat -> bool) n : all_fine f n n.
  Proof. intros k Hk. exfalso. lia. Qed.
  Lemma all_fine_app (f : nat -> bool) a b c : (a <= b)%nat -> (b <= c)%nat -> (all_fine f a c <-> all_fine f a b /\ all_fine f b c).
  Proof.
    intros Hab Hbc. split; [intros H; split; intros k Hk; apply H; lia|]. intros [H1 H2] k Hk.
    destruct (Nat.lt_ge_cases k b); [apply H1|apply H2]; lia.
  Qed.
  Lemma all_fine_one (f : nat -> bool) n : all_fine f n (S n) <-> f n = true.
  Proof. split; [intros H; apply H; lia|]. intros H k Hk. replace k with n by lia. exact H. Qed.

  Lemma fair_refl w : fair w w.
  Proof. split; [auto|]. split; [auto|]. split; [auto|]. split; [auto|]. intros H. split; [|auto]. intros _. split; apply all_fine_nil. Qed.
  Lemma fair_trans w w1 w2 : fair w w1 -> fair w1 w2 -> fair w w2.
  Proof.
    intros (P & S & B & K & F) (P' & S' & B' & K' & F').
    split; [lia|]. split; [lia|]. split; [congruence|]. split; [auto|]. intros Hw.
    rewrite (all_fine_app takes _ _ _ P P'), (all_fine_app syncs _ _ _ S S').
    destruct (i_bad w1) eqn:E.
    - rewrite (K' eq_refl). split; [discriminate|]. intros [[H1 _] [H2 _]]. apply (F Hw). auto.
    - rewrite (F' eq_refl). pose proof (proj1 (F Hw) eq_refl). tauto.
  Qed.

  (** The same of what reports success by a value. *)
  Definition fairly (w w' : io) (ok : bool) : Prop :=
    (i_puts w <= i_puts w')%nat /\ (i_syncs w <= i_syncs w')%nat /\ i_buf w' = i_buf w /\ i_bad w' = i_bad w /\
    (ok = true <-> all_fine takes (i_puts w) (i_puts w') /\ all_fine syncs (i_syncs w) (i_syncs w')).
  Lemma fairly_trans w w1 w2 a b : fairly w w1 a -> fairly w1 w2 b -> fairly w w2 (a && b).
  Proof.
    intros (P & S & B & K & F) (P' & S' & B' & K' & F').
    split; [lia|]. split; [lia|]. split; [congruence|]. split; [congruence|].
    rewrite (all_fine_app takes _ _ _ P P'), (all_fine_app syncs _ _ _ S S'), andb_true_iff. tauto.
  Qed.
  Lemma fairly_refl w : fairly w w true.
  Proof. split; [auto|]. split; [auto|]. split; [auto|]. split; [auto|]. split; [|auto]. intros _. split; apply all_fine_nil. Qed.

  Lemma put_opt_fairly o c w : fairly w (fst (put_opt takes o c w)) (snd (put_opt takes o c w)).
  Proof.
    destruct o as [s|]; cbn [put_opt put_sink fst snd]; [|apply fairly_refl].
    unfold fairly. cbn [i_puts i_syncs i_buf i_bad]. split; [lia|]. split; [lia|]. split; [auto|]. split; [auto|].
    rewrite all_fine_one. split; [intros H; split; [exact H|apply all_fine_nil]|tauto].
  Qed.
  Lemma put_buf_fairly c w : fairly w (fst (put_buf takes c w)) (snd (put_buf takes c w)).
  Proof.
    unfold put_buf. destruct (i_buf w) as [s|co fi]; [exact (put_opt_fairly (Some s) c w)|]. unfold overflow.
    pose proof (put_opt_fairly co c w) as H. destruct (put_opt takes co c w) as [w1 a]. cbn [fst snd] in H.
    pose proof (put_opt_fairly fi c w1) as K. destruct (put_opt takes fi c w1) as [w2 b]. cbn [fst snd] in K |- *.
    eapply fairly_trans; eassumption.
  Qed.
  Lemma put_all_fairly t : forall w, fairly w (fst (put_all takes t w)) (snd (put_all takes t w)).
  Proof.
    induction t as [|c t IH]; intros w; cbn [put_all]; [apply fairly_refl|].
    pose proof (put_buf_fairly c w) as H. destruct (put_buf takes c w) as [w1 ok]. cbn [fst snd] in H. destruct ok; [|exact H].
    exact (fairly_trans _ _ _ true _ H (IH w1)).
  Qed.
  Lemma fairly_bad w w1 ok : i_bad w = false -> fairly w w1 ok -> fair w (set_bad (negb ok) w1).
  Proof.
    intros Hw (P & S & B & K & F). unfold fair, set_bad. cbn [i_puts i_syncs i_buf i_bad]. rewrite K, Hw. cbn [orb].
    split; [auto|]. split; [auto|]. split; [auto|]. split; [discriminate|]. intros _. rewrite negb_false_iff. exact F.
  Qed.
  Lemma insert_fair t w : fair w (insert takes t w).
  Proof.
    unfold insert. destruct (i_bad w) eqn:E; [apply fair_refl|]. pose proof (put_all_fairly t w) as H.
    destruct (put_all takes t w) as [w1 ok]. cbn [fst snd] in H. now apply fairly_bad.
  Qed.
  Lemma sync_opt_fairly o w : fairly w (fst (sync_opt syncs o w)) (snd (sync_opt syncs o w)).
  Proof.
    destruct o as [s|]; cbn [sync_opt fst snd]; [|apply fairly_refl].
    unfold fairly. cbn [i_puts i_syncs i_buf i_bad]. split; [lia|]. split; [lia|]. split; [auto|]. split; [auto|].
    rewrite all_fine_one. split; [intros H; split; [apply all_fine_nil|exact H]|tauto].
  Qed.
  Lemma flush_fair w : fair w (flush syncs w).
  Proof.
    unfold flush. destruct (i_bad w) eqn:E; [apply fair_refl|].
    assert (H : fairly w (fst (sync_buf syncs w)) (snd (sync_buf syncs w))).
    { unfold sync_buf. destruct (i_buf w) as [s|co fi]; [exact (sync_opt_fairly (Some s) w)|].
      pose proof (sync_opt_fairly co w) as H. destruct (sync_opt syncs co w) as [w1 a]. cbn [fst snd] in H.
      pose proof (sync_opt_fairly fi w1) as K. destruct (sync_opt syncs fi w1) as [w2 b]. cbn [fst snd] in K |- *.
      eapply fairly_trans; eassumption. }
    destruct (sync_buf syncs w) as [w1 ok]. cbn [fst snd] in H. now apply fairly_bad.
  Qed.
  Lemma inserts_fair l : forall w, fair w (fold_left (fun w t => insert takes (list_ascii_of_string t) w) l w).
  Proof.
    induction l as [|t l IH]; intros w; cbn [fold_left]; [apply fair_refl|]. eapply fair_trans; [apply insert_fair|apply IH].
  Qed.
  Lemma run_fair ops : forall w, fair w (l_run takes syncs ops w).
  Proof.
    unfold l_run. induction ops as [|o ops IH]; intros w; cbn [fold_left]; [apply fair_refl|]. eapply fair_trans; [|apply IH].
    destruct o as [l|l m f n]; cbn [l_do]; [exact (fair_refl w)|]. destruct (level_enabled l (i_enabled w)); [|apply fair_refl].
    unfold log_message. destruct (negb _); [apply fair_refl|].
    eapply fair_trans; [apply inserts_fair|]. eapply fair_trans; [apply insert_fair|apply flush_fair].
  Qed.
  Theorem log_failures ops w : i_bad w = false ->
    (i_bad (l_run takes syncs ops w) = false <->
     all_fine takes (i_puts w) (i_puts (l_run takes syncs ops w)) /\ all_fine syncs (i_syncs w) (i_syncs (l_run takes syncs ops w))).
  Proof. apply (run_fair ops w). Qed.
End Streams.

(** ** File names *)

Lemma digits_app_inj a : forall b s t, all_digits a -> all_digits b -> (a ++ String "." s = b ++ String "." t)%string -> a = b /\ s = t.
Proof.
  induction a as [|c a IH]; intros [|d b] s t Ha Hb E; cbn in E.
  - injection E as E. auto.
  - injection E as <- _. destruct Hb as [Hb _]. discriminate Hb.
  - injection E as -> _. destruct Ha as [Ha _]. discriminate Ha.
  - injection E as -> E. destruct Ha as [_ Ha], Hb as [_ Hb]. destruct (IH b s t Ha Hb E) as [-> ->]. auto.
Qed.

Theorem log_names_distinct dir base pid id ext pid' id' ext' : 0 <= pid -> 0 <= id -> 0 <= pid' -> 0 <= id' ->
  file_name dir base pid id ext = file_name dir base pid' id' ext' -> pid = pid' /\ id = id' /\ ext = ext'.
Proof.
  intros H1 H2 H3 H4 E. unfold file_name in E. apply append_inj in E. apply append_inj in E. apply append_inj in E. apply append_inj in E.
  cbn [String.append] in E. apply digits_app_inj in E as [E1 E]; try apply dec_digits. apply digits_app_inj in E as [E2 E]; try apply dec_digits.
  apply dec_inj in E1; [|auto|auto]. apply dec_inj in E2; [|auto|auto]. auto.
Qed.

Section Names.
  Context (fs : files) (dir base : string) (pid : Z) (ext : string).

  Lemma unique_sound fuel : forall id f, make_unique_filename fuel fs dir base pid ext id = Ok tt f ->
    exists k, id <= k < INT_MAX31 /\ f = file_name dir base pid k ext /\ file_exists fs f = false /\
      forall j, id <= j < k -> file_exists fs (file_name dir base pid j ext) = true.
  Proof.
    induction fuel as [|fuel IH]; intros id f; cbn [make_unique_filename]; [discriminate|].
    destruct (INT_MAX31 <=? id) eqn:R; [discriminate|]. destruct (file_exists fs (file_name dir base pid id ext)) eqn:E.
    - intros H. destruct (IH _ _ H) as (k & K1 & K2 & K3 & K4). exists k. split; [lia|]. split; [auto|]. split; [auto|].
      intros j Hj. destruct (Z.eq_dec j id) as [->|]; [auto|]. apply K4. lia.
    - intros [= <-]. exists id. split; [lia|]. split; [auto|]. split; [auto|]. lia.
  Qed.

  Lemma unique_complete n : forall fuel id, 0 <= id -> (n < fuel)%nat -> id + Z.of_nat n < INT_MAX31 ->
    (exists k, id <= k <= id + Z.of_nat n /\ file_exists fs (file_name dir base pid k ext) = false) ->
    exists f, make_unique_filename fuel fs dir base pid ext id = Ok tt f.
  Proof.
    induction n as [|n IH]; intros [|fuel] id Hi Hf Hr (k & K1 & K2); try lia; cbn [make_unique_filename]; (replace (INT_MAX31 <=? id) with false by lia).
    - assert (k = id) by lia. subst. rewrite K2. eauto.
    - destruct (file_exists fs (file_name dir base pid id ext)) eqn:E; [|eauto].
      apply IH; try lia. exists k. split; [|auto]. destruct (Z.eq_dec k id) as [->|]; [congruence|lia].
  Qed.

  Lemma exists_not_none x : file_exists fs x = true -> fs x <> None.
  Proof. unfold file_exists. destruct (fs x); [discriminate|discriminate]. Qed.

  Theorem log_name_found l : 0 <= pid -> only fs l -> Z.of_nat (length l) < INT_MAX31 ->
    exists f, make_unique_filename (S (length l)) fs dir base pid ext 0 = Ok tt f.
  Proof.
    intros Hp Ho Hl. apply unique_complete with (n := length l); try lia.
    destruct (forallb (fun k => file_exists fs (file_name dir base pid (Z.of_nat k) ext)) (seq 0 (S (length l)))) eqn:F.
    - exfalso. rewrite forallb_forall in F.
      assert (N : NoDup (map (fun k => file_name dir base pid (Z.of_nat k) ext) (seq 0 (S (length l))))).
      { apply FinFun.Injective_map_NoDup; [|apply seq_NoDup]. intros a b E. apply log_names_distinct in E; lia. }
      apply (NoDup_incl_length (l' := l)) in N; [rewrite map_length, seq_length in N; lia|].
      intros x Hx. apply in_map_iff in Hx as (k & <- & Hk). apply Ho, exists_not_none. now apply F.
    - apply not_true_iff_false in F. rewrite forallb_forall in F.
      destruct (existsb (fun k => negb (file_exists fs (file_name dir base pid (Z.of_nat k) ext))) (seq 0 (S (length l)))) eqn:X.
      + apply existsb_exists in X as (k & Hk & Hx). exists (Z.of_nat k). apply in_seq in Hk. split; [lia|]. now apply negb_true_iff.
      + exfalso. apply F. intros k Hk. rewrite <- negb_false_iff. apply not_true_iff_false. intros T. rewrite <- not_true_iff_false in X.
        apply X. apply existsb_exists. eauto.
  Qed.
End Names.

(** ** initialize_io *)

Section Init.
  Context (filesystem mpi rank0 : bool) (dir base : string) (pid : Z).
  Notation init := (initialize_io filesystem mpi rank0 dir base pid).

  Lemma open_truncate_other name fs fs' x : open_truncate name fs = Some fs' -> x <> name -> fs' x = fs x.
  Proof.
    unfold open_truncate. intros E N. apply String.eqb_neq in N. destruct (fs name) as [f|]; [destruct (f_writable f)|]; try discriminate E;
      injection E as <-; now rewrite N.
  Qed.
  Lemma open_truncate_same name fs fs' : open_truncate name fs = Some fs' -> exists f, fs' name = Some f /\ f_content f = ""%string.
  Proof.
    unfold open_truncate. intros E. destruct (fs name) as [f|]; [destruct (f_writable f)|]; try discriminate E;
      injection E as <-; rewrite String.eqb_refl; eauto.
  Qed.

  (** What the call leaves behind, however it ends. *)
  Definition inited (fuel : nat) (enable : bool) (y y' : system) : Prop :=
    y_files y' = y_files y \/
    exists name, make_unique_filename fuel (y_files y) dir base pid "log" 0 = Ok tt name /\ open_truncate name (y_files y) = Some (y_files y').

  Lemma init_cases fuel enable made y : y_opened y = None -> i_buf (y_io y) = Direct Stdout ->
    match init fuel enable made y with
    | Ok y' _ => i_text (y_io y') = i_text (y_io y) /\ i_bad (y_io y') = false /\ i_enabled (y_io y') = i_enabled (y_io y) /\
        if enable then i_buf (y_io y') = Both None (Some LogFile) /\
          exists name, make_unique_filename fuel (y_files y) dir base pid "log" 0 = Ok tt name /\ open_truncate name (y_files y) = Some (y_files y')
        else i_buf (y_io y') = Both None None /\ y_files y' = y_files y
    | Throw y' _ => y_files y' = y_files y
    | _ => True
    end.
  Proof.
    intros Ho Hb. unfold initialize_io. rewrite Hb.
    destruct (make_unique_filename fuel (y_files y) dir base pid "log" 0) as [[] name|[] e| | |] eqn:En; auto.
    destruct (make_unique_filename fuel (y_files y) dir base pid "error" 0) as [[] ename|[] e| | |]; auto.
    match goal with |- context [bind ?o _] => assert (G : match o with
        | Ok y2 _ => y_files y2 = y_files y /\ y_opened y2 = None /\ i_text (y_io y2) = i_text (y_io y) /\ i_bad (y_io y2) = false /\
                     i_enabled (y_io y2) = i_enabled (y_io y) /\ i_buf (y_io y2) = Both None None
        | Throw y' _ => y_files y' = y_files y
        | _ => False end); [|destruct o as [y2 []|y2 e| | |]; [|exact G|destruct G ..]] end.
    { destruct (directory_exists filesystem (y_dir y)); [cbn; auto 10|]. destruct mpi; cbn [negb]; [|cbn; auto].
      destruct rank0; cbn [negb]; [|cbn; auto 10]. destruct (y_dir y); [destruct enable; [destruct made|]|..|destruct filesystem]; cbn; auto 10. }
    destruct G as (G1 & G2 & G3 & G4 & G5 & G6). cbn [bind]. rewrite G2. destruct enable; cbn [negb]; [|auto 10].
    rewrite G1. destruct (y_dir y2) eqn:Ed; try (cbn [y_opened y_files]; exact G1); try (cbn [y_opened y_files]; reflexivity).
    destruct (open_truncate name (y_files y)) as [fs|] eqn:Eo; cbn [y_opened y_files]; [|reflexivity].
    cbn [y_io y_files i_text i_bad i_enabled i_buf]. split; [auto|]. split; [auto|]. split; [auto|]. split; [auto|]. exists name. auto.
  Qed.

  Theorem log_keeps fuel enable made y : y_opened y = None -> i_buf (y_io y) = Direct Stdout ->
    match init fuel enable made y with
    | Ok y' _ | Throw y' _ => forall x f, y_files y x = Some f -> f_readable f = true -> y_files y' x = Some f
    | _ => True
    end.
  Proof.
    intros Ho Hb. pose proof (init_cases fuel enable made y Ho Hb) as C. destruct (init fuel enable made y) as [y' []|y' e| | |]; auto; intros x f Hx Hr.
    - destruct C as (_ & _ & _ & C). destruct enable; [|destruct C as [_ ->]; exact Hx].
      destruct C as (_ & name & N1 & N2). destruct (unique_sound _ _ _ _ _ _ _ _ N1) as (k & _ & _ & N3 & _).
      rewrite (open_truncate_other name _ _ x N2); [auto|]. intros ->. unfold file_exists in N3. rewrite Hx in N3. congruence.
    - now rewrite C.
  Qed.

  Theorem log_file fuel made y y' : y_opened y = None -> i_buf (y_io y) = Direct Stdout -> init fuel true made y = Ok y' tt ->
    exists k f, 0 <= k /\ let name := file_name dir base pid k "log" in
      file_exists (y_files y) name = false /\ y_files y' name = Some f /\ f_content f = ""%string /\
      forall x, x <> name -> y_files y' x = y_files y x.
  Proof.
    intros Ho Hb E. pose proof (init_cases fuel true made y Ho Hb) as C. rewrite E in C. destruct C as (_ & _ & _ & _ & name & N1 & N2).
    destruct (unique_sound _ _ _ _ _ _ _ _ N1) as (k & K1 & -> & K3 & _). destruct (open_truncate_same _ _ _ N2) as (f & F1 & F2).
    exists k, f. split; [lia|]. cbv zeta. split; [auto|]. split; [auto|]. split; [auto|]. intros x Hx. now apply open_truncate_other with (1 := N2).
  Qed.

  Theorem log_complete fuel enable made y y' l ops : y_opened y = None -> i_buf (y_io y) = Direct Stdout ->
    i_enabled (y_io y) = set_level l -> init fuel enable made y = Ok y' tt ->
    exists t, log_of l ops t /\ forall takes syncs, (forall k, takes k = true) -> (forall k, syncs k = true) ->
      let w' := l_run takes syncs ops (y_io y') in
      i_text w' LogFile = i_text (y_io y) LogFile ++ (if enable then t else []) /\
      i_text w' Stdout = i_text (y_io y) Stdout /\ i_text w' Stderr = i_text (y_io y) Stderr.
  Proof.
    intros Ho Hb He E. pose proof (init_cases fuel enable made y Ho Hb) as C. rewrite E in C. destruct C as (C1 & C2 & C3 & C4).
    assert (Sep : separate (i_buf (y_io y'))) by (destruct enable; destruct C4 as [-> _]; exact I).
    assert (El : i_enabled (y_io y') = set_level l) by congruence.
    destruct (log_written (fun _ => true) (fun _ => true) ops l (y_io y') Sep El) as (t & T1 & _). exists t. split; [auto|].
    intros takes syncs Ht Hs. cbv zeta. destruct (log_written takes syncs ops l (y_io y') Sep El) as (t' & T1' & _ & T3 & _ & T5).
    assert (Ett : t' = t).
    { clear - T1 T1'. revert t' T1'. induction T1; intros t' T'; inversion T'; subst; auto; try lia.
      - f_equal; [|auto]. repeat match goal with H : documented_level _ _ |- _ => apply documented_name in H as [<- _] end. reflexivity.
      - repeat match goal with H : documented_level _ _ |- _ => apply documented_name in H as [_ H] end. lia.
      - repeat match goal with H : documented_level _ _ |- _ => apply documented_name in H as [_ H] end. lia. }
    subst t'. rewrite (T5 Ht Hs), C2 in T3. destruct (T3 eq_refl) as [_ G]. rewrite <- C1.
    destruct enable; destruct C4 as [Eb _]; unfold gained in G; rewrite Eb in G; cbn [goes_to] in G.
    - split; [apply (proj1 (G LogFile)); auto|]. split; [apply (proj2 (G Stdout))|apply (proj2 (G Stderr))]; intros [X|X]; discriminate X.
    - rewrite app_nil_r. split; [apply (proj2 (G LogFile))|split; [apply (proj2 (G Stdout))|apply (proj2 (G Stderr))]]; intros [X|X]; discriminate X.
  Qed.

  Theorem log_starts l enable made y : 0 <= pid -> only (y_files y) l -> Z.of_nat (length l) < INT_MAX31 ->
    y_opened y = None -> i_buf (y_io y) = Direct Stdout -> y_dir y = There ->
    (forall x f, y_files y x = Some f -> f_readable f = true) ->
    exists y', init (S (length l)) enable made y = Ok y' tt.
  Proof.
    intros Hp Ho Hl Hn Hb Hd Hr. unfold initialize_io. rewrite Hb.
    destruct (log_name_found (y_files y) dir base pid "log" l Hp Ho Hl) as [n1 En]. rewrite En.
    destruct (log_name_found (y_files y) dir base pid "error" l Hp Ho Hl) as [n2 ->]. rewrite Hd. cbn [directory_exists bind]. rewrite Hn.
    destruct enable; cbn [negb]; [|eauto]. cbn [y_opened y_dir y_files].
    destruct (unique_sound _ _ _ _ _ _ _ _ En) as (k & _ & _ & K & _).
    unfold open_truncate. destruct (y_files y n1) as [f|] eqn:Ef; [|cbn; eauto].
    exfalso. unfold file_exists in K. rewrite Ef, (Hr _ _ Ef) in K. discriminate.
  Qed.
End Init.

Theorem log_out_of_memory {W : Type} id strategy null bytes (w w' : W) : bytes <> 0 -> strategy bytes w = (w', inr OutOfMemory) ->
  exists r, e_allocate id strategy null bytes w = (w', inr r) /\ x_kind r = OutOfMemory /\ x_requested r = bytes /\ x_allocator r = id.
Proof.
  intros Hb E. unfold e_allocate. replace (0 =? bytes) with false by lia. rewrite E. cbn. eauto.
Qed.
