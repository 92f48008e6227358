(** JSON texts: RFC 8259 sections 2 to 5, on the tokens of LexSpec.v, independently of the code. *)
From Coq Require Import String.
From Verif Require Import Base JsonModel JsonSpec LexSpec.

(** The tokens of a text. *)
Inductive tokens : bytes -> list token -> Prop :=
| tk_end l : spaces l -> tokens l []
| tk_more ws x r t ts : spaces ws -> token_text x t -> longest x r -> tokens r ts -> tokens (ws ++ x ++ r) (t :: ts).

(** An object has its names in order, and of several members with one name the last. *)
Definition object_of (ms : list (bytes * json)) (m : list (bytes * json)) : Prop :=
  sorted m /\ forall k v, In (k, v) m <-> exists a b, ms = a ++ (k, v) :: b /\ ~ In k (map fst b).

Section Grammar.
  (** [strtod]: the integer part of a number that is not kept exactly; none if it is infinite. *)
  Variable strtod : bytes -> option Z.
  Inductive value_of : list token -> json -> Prop :=
  | jt_null : value_of [TNull] JNull
  | jt_true : value_of [TTrue] (JBool true)
  | jt_false : value_of [TFalse] (JBool false)
  | jt_uns n : value_of [TUns n] (JUns n)
  | jt_int n : value_of [TInt n] (JInt n)
  | jt_real x z : strtod x = Some z -> value_of [TFloat x] (JFloat z)
  | jt_str s : value_of [TStr s] (JStr s)
  | jt_arr0 : value_of [TBeginArr; TEndArr] (JArr [])
  | jt_arr ts l : elements ts l -> value_of (TBeginArr :: ts ++ [TEndArr]) (JArr l)
  | jt_obj0 : value_of [TBeginObj; TEndObj] (JObj [])
  | jt_obj ts ms m : members ts ms -> object_of ms m -> value_of (TBeginObj :: ts ++ [TEndObj]) (JObj m)
  with elements : list token -> list json -> Prop :=
  | e_one ts v : value_of ts v -> elements ts [v]
  | e_more ts v ts' l : value_of ts v -> elements ts' l -> elements (ts ++ TComma :: ts') (v :: l)
  with members : list token -> list (bytes * json) -> Prop :=
  | m_one k ts v : value_of ts v -> members (TStr k :: TColon :: ts) [(k, v)]
  | m_more k ts v ts' l : value_of ts v -> members ts' l -> members (TStr k :: TColon :: ts ++ TComma :: ts') ((k, v) :: l).

  Definition json_text (x : bytes) (j : json) : Prop := exists ts, tokens x ts /\ value_of ts j.
End Grammar.

(** The lines of a file: with their newlines, which the last one may lack. *)
Inductive lines_of : bytes -> list bytes -> Prop :=
| ln_end : lines_of [] []
| ln_last x : x <> [] -> ~ In 10 x -> lines_of x [x]
| ln_more x r ls : ~ In 10 x -> lines_of r ls -> lines_of (x ++ 10 :: r) ((x ++ [10]) :: ls).
(** A line up to a null byte. *)
Definition upto (line x : bytes) : Prop := ~ In 0 x /\ (line = x \/ exists r, line = x ++ 0 :: r).

(** The event that a value stands for (event_json.hpp:16-53): what its members mean. *)
Definition word_of (j : json) (n : Z) : Prop := j = JUns n \/ (exists z, j = JInt z /\ n = z mod 2 ^ 64) \/ (j = JFloat n /\ 0 <= n < 2 ^ 64).
Definition long_of (j : json) (n : Z) : Prop :=
  (exists z, j = JUns z /\ - 2 ^ 63 <= n < 2 ^ 63 /\ (n - z) mod 2 ^ 64 = 0) \/ j = JInt n \/ (j = JFloat n /\ - 2 ^ 63 <= n < 2 ^ 63).
Definition map_of {A} (P : json -> A -> Prop) (j : json) (l : list (bytes * A)) : Prop :=
  exists m, j = JObj m /\ Forall2 (fun a b => fst a = fst b /\ P (snd a) (snd b)) m l.
Definition str_of (j : json) (s : bytes) : Prop := j = JStr s.
Definition cat_of (j : json) (c : cat) : Prop :=
  match c with
  | Statistic => j = JStr (bs "statistic")
  | Metadata => j = JStr (bs "metadata")
  | Operation => j <> JStr (bs "statistic") /\ j <> JStr (bs "metadata")
  end.
(** A member that may be missing. *)
Definition maybe {A} (P : json -> list A -> Prop) (k : bytes) (m : list (bytes * json)) (l : list A) : Prop :=
  (exists j, In (k, j) m /\ P j l) \/ (~ In k (map fst m) /\ l = []).
Definition must {A} (P : json -> A -> Prop) (k : bytes) (m : list (bytes * json)) (x : A) : Prop := exists j, In (k, j) m /\ P j x.
Definition event_of (j : json) (e : ev) : Prop :=
  exists m, j = JObj m /\ must str_of (bs "name") m (v_name e) /\ must cat_of (bs "category") m (v_cat e) /\
    maybe (map_of str_of) (bs "string_args") m (v_str e) /\ maybe (map_of word_of) (bs "numeric_args") m (v_num e) /\
    must (map_of str_of) (bs "tags") m (v_tag e) /\ must long_of (bs "timestamp") m (v_time e).

(** A line of a log, with or without a byte order mark, and its event. *)
Definition line_event (strtod : bytes -> option Z) (line : bytes) (e : ev) : Prop :=
  exists b x j, upto line (b ++ x) /\ (b = [] \/ b = [239; 187; 191]) /\ json_text strtod x j /\ event_of j e.
