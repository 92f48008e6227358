(** Property C90: what the reader of JSON logs takes, and what it takes it for.  [tokens], [json_text], [event_of], [line_event],
    [lines_of]: GrammarSpec.v; [token_text], [longest]: LexSpec.v. *)
From Coq Require Import String.
From Verif Require Import Base JsonModel StoreModel JsonSpec LexSpec GrammarSpec LexFacts GrammarFacts.
Local Open Scope Z_scope.

(** C90: the scanner gives a token if and only if white space and the text of that token come first, a number as long as possible. *)
Theorem C90_token : forall l t r, (scan l = (t, r) /\ proper t) <-> exists ws x, l = ws ++ x ++ r /\ spaces ws /\ token_text x t /\ longest x r.
Proof. exact scan_tokens. Qed.
Print Assumptions C90_token.

(** C90: the text ends where only white space is left, or at a null byte. *)
Theorem C90_end : forall l r, scan l = (TEnd, r) <-> (spaces l /\ r = []) \/ exists ws, l = ws ++ 0 :: r /\ spaces ws.
Proof. exact scan_end. Qed.
Print Assumptions C90_end.

Example C90_token_case :
  scan (bs " ""\u00e9\uD83D\ude00\n"",") = (TStr [195; 169; 240; 159; 152; 128; 10], bs ",") /\ scan (bs "-0.5e+3]") = (TFloat (bs "-0.5e+3"), bs "]") /\
  scan (bs "01") = (TUns 0, bs "1") /\ fst (scan (bs """\ud83d""")) = TErr /\ fst (scan (bs "1.")) = TErr /\
  scan (bs "18446744073709551615 ") = (TUns (2 ^ 64 - 1), bs " ") /\ scan (bs "18446744073709551616") = (TFloat (bs "18446744073709551616"), []).
Proof. vm_compute. repeat split. Qed.

(** C90: the parser gives a value if and only if the text is one of JSON with that value; a byte order mark may come first, and
    behind a null byte there may be anything. *)
Theorem C90_parse : forall strtod l j, parse strtod l = POk j <->
  exists b x z, l = b ++ x ++ z /\ (b = [] \/ b = [239; 187; 191]) /\ (z = [] \/ exists r, z = 0 :: r) /\ json_text strtod x j.
Proof. exact parse_text. Qed.
Print Assumptions C90_parse.

(** C90: otherwise it throws: it never runs out of input to look at. *)
Theorem C90_total : forall strtod l, parse strtod l <> PFuel.
Proof. exact parse_total. Qed.
Print Assumptions C90_total.

(** C90: a text without a null byte and mark is taken if and only if it is JSON, and a text has one value at most. *)
Theorem C90_plain : forall strtod x, ~ In 0 x -> hd 0 x <> 239 ->
  (forall j, parse strtod x = POk j <-> json_text strtod x j) /\ (parse strtod x = PThrow <-> forall j, ~ json_text strtod x j).
Proof. exact plain_text. Qed.
Print Assumptions C90_plain.
Theorem C90_unique : forall strtod x j j', json_text strtod x j -> json_text strtod x j' -> j = j'.
Proof. exact text_unique. Qed.
Print Assumptions C90_unique.

Example C90_parse_case :
  let s := fun x => if list_eq_dec Z.eq_dec x (bs "2.5e1") then Some 25 else None in
  json_text s (bs " {""b"": [1, -2, 2.5e1, {}, []], ""a"":null,""b"" :true } ") (JObj [(bs "a", JNull); (bs "b", JBool true)]) /\
  json_text s (bs "[1, -2, 2.5e1, {}, [""x""]]") (JArr [JUns 1; JInt (-2); JFloat 25; JObj []; JArr [JStr (bs "x")]]) /\
  (forall j, ~ json_text s (bs "[1,]") j) /\ (forall j, ~ json_text s (bs "{""a"" 1}") j) /\ (forall j, ~ json_text s (bs "01") j) /\ (forall j, ~ json_text s (bs "1e999") j).
Proof.
  cbv zeta. set (s := fun _ => _).
  assert (N : forall x, forallb (fun c => negb (c =? 0)) x && negb (hd 0 x =? 239) = true -> ~ In 0 x /\ hd 0 x <> 239).
  { intros x H. apply andb_prop in H. destruct H as [A B]. rewrite forallb_forall in A. split; [intros I; discriminate (A 0 I)|intros E; rewrite E in B; discriminate B]. }
  assert (Y : forall x j, forallb (fun c => negb (c =? 0)) x && negb (hd 0 x =? 239) = true -> parse s x = POk j -> json_text s x j)
    by (intros x j H P; apply N in H; apply (C90_plain s x (proj1 H) (proj2 H)), P).
  assert (X : forall x, forallb (fun c => negb (c =? 0)) x && negb (hd 0 x =? 239) = true -> parse s x = PThrow -> forall j, ~ json_text s x j)
    by (intros x H P; apply N in H; apply (C90_plain s x (proj1 H) (proj2 H)), P).
  split; [apply Y; vm_compute; reflexivity|]. split; [apply Y; vm_compute; reflexivity|]. repeat split; apply X; vm_compute; reflexivity.
Qed.

(** C90: a value of a text is taken for an event if and only if its members say so. *)
Theorem C90_event : forall strtod x j e, json_text strtod x j -> from_json j = COk e <-> event_of j e.
Proof. exact event_text. Qed.
Print Assumptions C90_event.

(** C90: whatever is in a file: a reader gets events if and only if each line, up to a null byte, is the text of one. *)
Theorem C90_file : forall strtod d es,
  (exists w, get_events strtod (mk_store (Some d) true true) = SOk w es) <-> exists ls, lines_of d ls /\ Forall2 (line_event strtod) ls es.
Proof. exact file_events. Qed.
Print Assumptions C90_file.

Definition no_reals : bytes -> option Z := fun _ => None.
(** An event in a file: category, size and time as texts. *)
Definition one (c n t : string) : bytes :=
  bs ("{""name"":""x"",""category"":" ++ c ++ ",""numeric_args"":{""size"":" ++ n ++ "},""tags"":{},""timestamp"":" ++ t ++ "}").
Definition got_one (d : bytes) (c : cat) (n t : Z) : Prop :=
  exists w, get_events no_reals (mk_store (Some d) true true) =
    SOk w [{| v_name := bs "x"; v_cat := c; v_str := []; v_num := [(bs "size", n)]; v_tag := []; v_time := t |}].

Example C90_file_case :
  let d := one """metadata""" "8" "-5" in got_one (d ++ [10]) Metadata 8 (-5) /\ got_one d Metadata 8 (-5) /\ got_one ([239; 187; 191] ++ d ++ [10]) Metadata 8 (-5) /\
  (exists ls, lines_of d ls /\ Forall2 (line_event no_reals) ls [{| v_name := bs "x"; v_cat := Metadata; v_str := []; v_num := [(bs "size", 8)]; v_tag := []; v_time := -5 |}]).
Proof.
  cbv zeta. split; [eexists; vm_compute; reflexivity|]. split; [eexists; vm_compute; reflexivity|]. split; [eexists; vm_compute; reflexivity|].
  apply C90_file. eexists. vm_compute. reflexivity.
Qed.

(** Refuted: a line that is not the text of an event as this library writes it is refused.  Behind a null byte there may be
    anything; a category that there is not is taken for an operation; negative sizes are taken modulo 2^64 and times beyond a [long] too. *)
Theorem C90_strict_refuted :
  got_one (one """metadata""" "8" "5" ++ [0] ++ bs "]" ++ [10]) Metadata 8 5 /\ got_one (one """metadat""" "8" "5") Operation 8 5 /\ got_one (one "[]" "8" "5") Operation 8 5 /\
  got_one (one """operation""" "-1" "5") Operation (2 ^ 64 - 1) 5 /\ got_one (one """operation""" "8" "18446744073709551615") Operation 8 (-1).
Proof. repeat split; eexists; vm_compute; reflexivity. Qed.
Print Assumptions C90_strict_refuted.

(** Refuted: a file that is not a log is refused.  A number with an exponent whose value no word can hold is converted, which is undefined. *)
Theorem C90_real_refuted : exists strtod, strtod (bs "1e30") = Some (10 ^ 30) /\
  get_events strtod (mk_store (Some (one """operation""" "1e30" "5")) true true) = SUB.
Proof. exists (fun _ => Some (10 ^ 30)). split; [reflexivity|vm_compute; reflexivity]. Qed.
Print Assumptions C90_real_refuted.
