(** Facts about backtraces. *)
From Coq Require Import String Ascii.
From Verif Require Import Base BaseFacts NamingModel BtModel BtSpec.

Local Notation "a ^^ b" := (String.append a b) (at level 60, right associativity).

Lemma upper_O c : upper c = "O"%char <-> (c = "O" \/ c = "o")%char.
Proof. split; [|intros [-> | ->]; reflexivity]. destruct c as [[] [] [] [] [] [] [] []]; vm_compute; intros E; try discriminate E; auto. Qed.
Lemma upper_N c : upper c = "N"%char <-> (c = "N" \/ c = "n")%char.
Proof. split; [|intros [-> | ->]; reflexivity]. destruct c as [[] [] [] [] [] [] [] []]; vm_compute; intros E; try discriminate E; auto. Qed.

Lemma prefix_on s : String.prefix "ON" (uppers s) = true <-> exists x y b, s = String x (String y b) /\ (x = "O" \/ x = "o")%char /\ (y = "N" \/ y = "n")%char.
Proof.
  split.
  - destruct s as [|x [|y b]]; cbn [uppers String.prefix]; [discriminate| |].
    + destruct (ascii_dec "O" (upper x)); [|discriminate]. cbn. discriminate.
    + destruct (ascii_dec "O" (upper x)) as [E|]; [|discriminate]. destruct (ascii_dec "N" (upper y)) as [E'|]; [|discriminate]. intros _.
      exists x, y, b. split; [reflexivity|]. split; [now apply upper_O|now apply upper_N].
  - intros (x & y & b & -> & Hx & Hy). cbn [uppers String.prefix]. apply upper_O in Hx. apply upper_N in Hy. rewrite Hx, Hy.
    destruct (ascii_dec "O" "O"); [|congruence]. destruct (ascii_dec "N" "N"); [|congruence]. destruct (uppers b); reflexivity.
Qed.

Lemma index_on s : (match String.index 0 "ON" (uppers s) with Some _ => true | None => false end) = true <-> says_on s.
Proof.
  induction s as [|c s IH].
  - cbn. split; [discriminate|]. intros (a & b & x & y & E & _). destruct a; discriminate.
  - change (uppers (String c s)) with (String (upper c) (uppers s)). cbn [String.index].
    change (String (upper c) (uppers s)) with (uppers (String c s)).
    destruct (String.prefix "ON" (uppers (String c s))) eqn:P.
    + split; [|reflexivity]. intros _. apply prefix_on in P as (x & y & b & E & H). exists EmptyString, b, x, y. auto.
    + assert (X : says_on (String c s) <-> says_on s).
      { split; intros (a & b & x & y & E & H).
        - destruct a as [|z a]; cbn in E; [|injection E as -> ->; exists a, b, x, y; auto].
          assert (String.prefix "ON" (uppers (String c s)) = true) by (apply prefix_on; exists x, y, b; auto). congruence.
        - exists (String c a), b, x, y. rewrite E. auto. }
      rewrite X, <- IH. destruct (String.index 0 "ON" (uppers s)); reflexivity.
Qed.

Lemma enabled_first u env L : L u = None -> snd (backtrace_enabled u env L) = true <-> on env.
Proof.
  intros E. unfold backtrace_enabled. rewrite E. cbn [snd]. destruct env as [e|]; [|split; [discriminate|intros (s & X & _); discriminate]].
  rewrite index_on. split; [intros H; exists e; auto|intros (s & [= ->] & H); exact H].
Qed.

Lemma enabled_latched u env L : fst (backtrace_enabled u env L) u = Some (snd (backtrace_enabled u env L)).
Proof. unfold backtrace_enabled. destruct (L u) eqn:E; [exact E|]. cbn. unfold fset. now rewrite Z.eqb_refl. Qed.
Lemma enabled_other u v env L : u <> v -> fst (backtrace_enabled u env L) v = L v.
Proof. intros N. unfold backtrace_enabled. destruct (L u); [reflexivity|]. cbn. unfold fset. destruct (Z.eqb_spec v u); congruence. Qed.

Lemma asks_latched l L i u env b : L u = Some b -> nth_error l i = Some (u, env) -> nth_error (asks l L) i = Some b.
Proof.
  revert L i. induction l as [|[v e] l IH]; intros L i E N; [destruct i; discriminate|]. cbn [asks].
  destruct (backtrace_enabled v e L) as [L' c] eqn:Eb. destruct i as [|i]; cbn in *.
  - injection N as -> ->. unfold backtrace_enabled in Eb. rewrite E in Eb. now injection Eb as _ <-.
  - apply IH; [|exact N]. destruct (Z.eq_dec v u) as [->|Nu].
    + unfold backtrace_enabled in Eb. rewrite E in Eb. now injection Eb as <- _.
    + replace L' with (fst (backtrace_enabled v e L)) by now rewrite Eb. now rewrite enabled_other.
Qed.

(** The answer to a query is that of the first query of the same unit. *)
Lemma asks_first l i j u env env' : nth_error l i = Some (u, env) -> (forall k e, (k < i)%nat -> nth_error l k = Some (u, e) -> False) ->
  (i <= j)%nat -> nth_error l j = Some (u, env') -> exists b, nth_error (asks l fempty) j = Some b /\ (b = true <-> on env).
Proof.
  enough (G : forall L, L u = None -> nth_error l i = Some (u, env) -> (forall k e, (k < i)%nat -> nth_error l k = Some (u, e) -> False) ->
    (i <= j)%nat -> nth_error l j = Some (u, env') -> exists b, nth_error (asks l L) j = Some b /\ (b = true <-> on env)) by (apply G; reflexivity).
  revert i j. induction l as [|[v e] l IH]; intros i j L E Ni F Lij Nj; [destruct i; discriminate|]. cbn [asks].
  destruct (backtrace_enabled v e L) as [L' c] eqn:Eb. destruct i as [|i].
  - cbn in Ni. injection Ni as -> ->. pose proof (enabled_first u env L E) as Q. pose proof (enabled_latched u env L) as Q'. rewrite Eb in Q, Q'. cbn in Q, Q'.
    exists c. split; [|exact Q]. destruct j as [|j]; [reflexivity|]. cbn in *. now apply (asks_latched l L' j u env').
  - destruct j as [|j]; [lia|]. cbn [nth_error] in *.
    assert (v <> u) by (intros ->; apply (F 0%nat e); [lia|reflexivity]).
    apply (IH i j L'); auto; [|intros k e' Hk Nk; apply (F (S k) e'); [lia|exact Nk]|lia].
    replace L' with (fst (backtrace_enabled v e L)) by now rewrite Eb. now rewrite enabled_other.
Qed.

Section Text.
  Context (ws : bool) (dladdr : Z -> option (string * Z)) (demangle : string -> option string).

  (** Offsets that fit. *)
  Definition near (p : Z) : Prop := forall name addr, dladdr p = Some (name, addr) -> 0 <= p - addr < M32.

  Lemma sapp_assoc (a b c : string) : ((a ^^ b) ^^ c)%string = (a ^^ b ^^ c)%string.
  Proof. induction a; cbn; congruence. Qed.

  Lemma small_text h (i : nat) : (i < 10)%nat -> int_text h (Z.of_nat i) = dec (Z.of_nat i).
  Proof. intros L. destruct h; [|reflexivity]. do 10 (destruct i as [|i]; [reflexivity|]). lia. Qed.

  Lemma hex_is z : HexString.of_N (Z.to_N z) = ("0x" ^^ hex z)%string.
  Proof. destruct z; reflexivity. Qed.
  Lemma address_is p : address p = ptr_text p.
  Proof. unfold address, ptr_text. now rewrite hex_is. Qed.
  Lemma readable_is name : readable demangle name = shown demangle name.
  Proof.
    unfold readable, shown. destruct name as [|c name]; [reflexivity|]. cbn [String.prefix].
    destruct (ascii_dec "_" c) as [<-|N].
    - destruct name; reflexivity.
    - destruct c as [[] [] [] [] [] [] [] []]; try reflexivity. contradiction N. reflexivity.
  Qed.

  Lemma lines_ok frames symbols i h : (ws = false /\ h = false \/ (i + length frames <= 10)%nat) -> (ws = true -> forall p, In p frames -> near p) ->
    (i + length frames <= length symbols)%nat ->
    lines ws dladdr demangle frames i h (Some symbols) =
      Ok tt (entries i (map (fun q => (fst q, text_of ws dladdr demangle (fst q) (snd q))) (combine frames (skipn i symbols)))).
  Proof.
    revert i h. induction frames as [|p frames IH]; intros i h Hi Hn Hl; [reflexivity|]. cbn [length] in *. cbn [lines].
    destruct (nth_error symbols i) as [s|] eqn:Ns; [|apply nth_error_None in Ns; lia].
    assert (Sk : skipn i symbols = s :: skipn (S i) symbols).
    { clear - Ns. revert i Ns. induction symbols as [|a l IH]; intros [|i] Ns; try discriminate; cbn in *; [now injection Ns as ->|]. rewrite (IH i Ns). reflexivity. }
    rewrite Sk. cbn [combine map fst snd entries]. unfold entry, text_of. rewrite address_is.
    assert (Ei : int_text h (Z.of_nat i) = dec (Z.of_nat i)) by (destruct Hi as [[_ ->]|Hi]; [reflexivity|apply small_text; lia]). rewrite Ei.
    assert (Hn' : ws = true -> forall p, In p frames -> near p) by (intros E q Hq; apply Hn; [exact E|now right]).
    destruct (if ws then dladdr p else None) as [[name addr]|] eqn:Ed.
    - destruct ws; [|discriminate]. rewrite IH; [|right; destruct Hi as [[X _]|Hi]; [discriminate|lia]|exact Hn'|lia]. cbn [bind].
      pose proof (Hn eq_refl p (or_introl eq_refl) name addr Ed) as Q. unfold w32, M32 in *. rewrite Z.mod_small by exact Q.
      f_equal. rewrite readable_is, hex_is. now rewrite !sapp_assoc.
    - rewrite IH; [|destruct Hi as [Hi|Hi]; [left; exact Hi|right; lia]|exact Hn'|lia]. cbn [bind]. f_equal. now rewrite !sapp_assoc.
  Qed.

  Lemma stringify_ok frames symbols : frames <> [] -> (ws = false \/ (length frames <= 10)%nat) -> (ws = true -> forall p, In p frames -> near p) ->
    length symbols = length frames ->
    stringify ws dladdr demangle frames (Some symbols) =
      Ok tt (sheet (map (fun q => (fst q, text_of ws dladdr demangle (fst q) (snd q))) (combine frames symbols))).
  Proof.
    intros Hf Hw Hn Hl. destruct frames as [|p frames]; [contradiction|]. unfold stringify.
    rewrite lines_ok; [|destruct Hw; [left; auto|right; exact H]|exact Hn|rewrite Hl; lia]. cbn [bind skipn]. unfold sheet. do 2 f_equal.
    rewrite map_length, combine_length, Hl, Nat.min_id. reflexivity.
  Qed.

  (** Without the table of [backtrace_symbols] a frame the loader does not know is undefined behaviour. *)
  Lemma lines_null frames i h : (exists p, In p frames /\ (ws = false \/ dladdr p = None)) -> lines ws dladdr demangle frames i h None = UB.
  Proof.
    revert i h. induction frames as [|p frames IH]; intros i h (q & Hq & K); [contradiction|]. cbn [lines].
    destruct (if ws then dladdr p else None) as [[name addr]|] eqn:Ed; [|reflexivity].
    rewrite IH; [reflexivity|]. exists q. split; [|exact K]. destruct Hq as [->|Hq]; [|exact Hq]. destruct ws; [destruct K; congruence|discriminate].
  Qed.

  Lemma what_ok msg file line stack symbols : stack <> [] -> (ws = false \/ (length stack <= 10)%nat) -> (ws = true -> forall p, In p stack -> near p) ->
    length symbols = Nat.min 128 (length stack) ->
    what ws dladdr demangle msg file line stack (Some symbols) =
      Ok tt ("! Umpire runtime_error [" ^^ file ^^ ":" ^^ dec line ^^ "]: " ^^ msg ^^ nl ^^
             sheet (map (fun q => (fst q, text_of ws dladdr demangle (fst q) (snd q))) (combine (firstn 128 stack) symbols)) ^^ nl)%string.
  Proof.
    intros Hs Hw Hn Hl. unfold what, build_backtrace. rewrite stringify_ok; [reflexivity| | | |rewrite firstn_length; exact Hl].
    - destruct stack; [contradiction|discriminate].
    - destruct Hw as [Hw|Hw]; [now left|right]. rewrite firstn_length. lia.
    - intros E p Hp. apply Hn; [exact E|]. rewrite <- (firstn_skipn 128 stack). apply in_or_app. now left.
  Qed.
End Text.
