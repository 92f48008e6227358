(** Model of the JSON text of events: the parts of nlohmann/json 3.10.4 that events pass through
    (src/tpl/umpire/json/json.hpp: serializer, lexer, parser) and the conversions of event_json.hpp.

    A byte is a number from 0 to 255, a text a list of bytes.  Simplified: of a [double] only the
    integer part is kept ([strtod] is an oracle), [dump_float] and binary values are left out (no event
    holds one), and so are positions and messages of errors.  An allocation that fails is not modelled. *)
From Coq Require Import String Ascii.
From Verif Require Import Base.

Definition bytes := list Z.

(** The bytes of a literal in the source. *)
Fixpoint bs (s : string) : bytes :=
  match s with
  | EmptyString => []
  | String c s => Z.of_N (N_of_ascii c) :: bs s
  end.

(** The conversion of a 64-bit word to a signed one (two's complement). *)
Definition s64 (x : Z) : Z := if w64 x <? 2 ^ 63 then w64 x else w64 x - M64.

(** ** Maps: [std::map<std::string, T>] as a list in the order of its keys *)

(** [std::string::compare]: bytes as unsigned numbers. *)
Fixpoint bcmp (a b : bytes) : comparison :=
  match a, b with
  | [], [] => Eq
  | [], _ => Lt
  | _, [] => Gt
  | x :: a, y :: b => match x ?= y with Eq => bcmp a b | c => c end
  end.

(** [m[k] = v]. *)
Fixpoint mset {A} (k : bytes) (v : A) (m : list (bytes * A)) : list (bytes * A) :=
  match m with
  | [] => [(k, v)]
  | (k', v') :: t => match bcmp k k' with
                     | Lt => (k, v) :: m
                     | Eq => (k', v) :: t
                     | Gt => (k', v') :: mset k v t
                     end
  end.

(** [m.find(k)]. *)
Fixpoint mfind {A} (k : bytes) (m : list (bytes * A)) : option A :=
  match m with
  | [] => None
  | (k', v') :: t => match bcmp k k' with
                     | Lt => None
                     | Eq => Some v'
                     | Gt => mfind k t
                     end
  end.

(** ** Values *)
Inductive json :=
| JNull
| JBool (b : bool)
| JInt (z : Z)                        (** number_integer *)
| JUns (z : Z)                        (** number_unsigned *)
| JFloat (z : Z)                      (** number_float; its integer part *)
| JStr (s : bytes)
| JArr (l : list json)
| JObj (m : list (bytes * json)).

(** ** Serializer *)

(** [DThrow]: type_error 316; [DFloat]: [dump_float], not modelled. *)
Inductive dres := DOk (t : bytes) | DThrow | DUB | DFloat.

Definition dapp (a : bytes) (r : dres) : dres :=
  match r with DOk t => DOk (a ++ t) | _ => r end.
Definition dbind (r : dres) (f : bytes -> dres) : dres :=
  match r with DOk t => f t | _ => r end.

(** json.hpp:17295-17313. *)
Definition utf8d : list Z :=
  repeat 0 128 ++ repeat 1 16 ++ repeat 9 16 ++ repeat 7 32 ++
  [8; 8] ++ repeat 2 30 ++
  [10; 3; 3; 3; 3; 3; 3; 3; 3; 3; 3; 3; 3; 4; 3; 3] ++
  [11; 6; 6; 6; 5; 8; 8; 8; 8; 8; 8; 8; 8; 8; 8; 8] ++
  [0; 1; 2; 3; 5; 8; 7; 1; 1; 1; 4; 6; 1; 1; 1; 1] ++
  [1; 1; 1; 1; 1; 1; 1; 1; 1; 1; 1; 1; 1; 1; 1; 1] ++ [1; 0; 1; 1; 1; 1; 1; 0; 1; 0; 1; 1; 1; 1; 1; 1] ++
  [1; 2; 1; 1; 1; 1; 1; 2; 1; 2; 1; 1; 1; 1; 1; 1] ++ [1; 1; 1; 1; 1; 1; 1; 2; 1; 1; 1; 1; 1; 1; 1; 1] ++
  [1; 2; 1; 1; 1; 1; 1; 1; 1; 2; 1; 1; 1; 1; 1; 1] ++ [1; 1; 1; 1; 1; 1; 1; 3; 1; 3; 1; 1; 1; 1; 1; 1] ++
  [1; 3; 1; 1; 1; 1; 1; 3; 1; 3; 1; 1; 1; 1; 1; 1] ++ [1; 3; 1; 1; 1; 1; 1; 1; 1; 1; 1; 1; 1; 1; 1; 1].

Definition UTF8_ACCEPT : Z := 0.
Definition UTF8_REJECT : Z := 1.

(** json.hpp:17293-17326: the new state and code point. *)
Definition decode (state codep byte : Z) : Z * Z :=
  let type := nth (Z.to_nat byte) utf8d 0 in
  (nth (Z.to_nat (256 + state * 16 + type)) utf8d 0,
   w32 (if state =? UTF8_ACCEPT then Z.land (Z.shiftr 255 type) byte
        else Z.lor (Z.land byte 63) (Z.shiftl codep 6))).

(** A digit of [%x]. *)
Definition hexd (n : Z) : Z := if n <? 10 then 48 + n else 87 + n.
(** ["\\u%04x"] of a number below 2^16. *)
Definition u4 (n : Z) : bytes :=
  [92; 117; hexd (n / 4096 mod 16); hexd (n / 256 mod 16); hexd (n / 16 mod 16); hexd (n mod 16)].

(** json.hpp:16825-16902 without [ensure_ascii]: the text for a code point whose last byte is [byte]. *)
Definition escape (codep byte : Z) : bytes :=
  if codep =? 8 then [92; 98] else if codep =? 9 then [92; 116] else if codep =? 10 then [92; 110]
  else if codep =? 12 then [92; 102] else if codep =? 13 then [92; 114] else if codep =? 34 then [92; 34]
  else if codep =? 92 then [92; 92]
  else if codep <=? 31 then u4 codep else [byte].

(** Bytes of [string_buffer] that are written for it: [snprintf] adds a null byte. *)
Definition escape_room (codep : Z) (e : bytes) : Z :=
  match e with [_] | [_; _] => Z.of_nat (length e) | _ => Z.of_nat (length e) + 1 end.

(** json.hpp:16806-17040, [error_handler] strict.  [n]: the bytes in [string_buffer], which has 512. *)
Fixpoint dump_esc (state codep n : Z) (s : bytes) : dres :=
  match s with
  | [] => if state =? UTF8_ACCEPT then DOk [] else DThrow
  | byte :: s =>
      let '(state, codep) := decode state codep byte in
      if state =? UTF8_ACCEPT then
        let e := escape codep byte in
        if n + escape_room codep e <=? 512 then
          let n := n + Z.of_nat (length e) in
          dapp e (dump_esc state codep (if 512 - n <? 13 then 0 else n) s)
        else DUB
      else if state =? UTF8_REJECT then DThrow
      else if n + 1 <=? 512 then dapp [byte] (dump_esc state codep (n + 1) s)
      else DUB
  end.

(** The state of the decoder and the code point as initialised (16808-16810). *)
Definition dump_escaped (s : bytes) : dres := dump_esc UTF8_ACCEPT 0 0 s.

(** json.hpp:17065-17088; the loop ends before its fuel for 64-bit numbers. *)
Fixpoint count_digits (fuel : nat) (x n : Z) : Z :=
  match fuel with
  | O => n
  | S fuel => if x <? 10 then n else if x <? 100 then n + 1 else if x <? 1000 then n + 2
              else if x <? 10000 then n + 3 else count_digits fuel (x / 10000) (n + 4)
  end.

(** json.hpp:17152-17170: the digits of [x], two at a time from the back, before [acc]. *)
Fixpoint digits2 (fuel : nat) (x : Z) (acc : bytes) : bytes :=
  match fuel with
  | O => acc
  | S fuel => if 100 <=? x then digits2 fuel (x / 100) (48 + x mod 100 / 10 :: 48 + x mod 100 mod 10 :: acc)
              else if 10 <=? x then 48 + x / 10 :: 48 + x mod 10 :: acc
              else 48 + x :: acc
  end.

(** json.hpp:17106-17173.  The digits are written backwards from position [n_chars] of a buffer of 64
    bytes; unless their number is the one that was counted, this is not the text of the number. *)
Definition dump_abs (neg : bool) (x : Z) : dres :=
  let d := digits2 20 x [] in
  let n := count_digits 20 x 1 in
  if (Z.of_nat (length d) =? n) && (n + (if neg then 1 else 0) <? 63)
  then DOk (if neg then 45 :: d else d) else DUB.

(** [remove_sign] (17348-17352) is taken for the absolute value. *)
Definition dump_integer (x : Z) : dres :=
  if x =? 0 then DOk [48] else dump_abs (x <? 0) (Z.abs x).

(** The text of a string (16676-16682; keys: 16578-16580). *)
Definition dump_str (s : bytes) : dres :=
  dapp [34] (dbind (dump_escaped s) (fun t => DOk (t ++ [34]))).

(** json.hpp:16522-16790 without [pretty_print]. *)
Fixpoint dump (j : json) : dres :=
  match j with
  | JNull => DOk (bs "null")
  | JBool true => DOk (bs "true")
  | JBool false => DOk (bs "false")
  | JInt z | JUns z => dump_integer z
  | JFloat _ => DFloat
  | JStr s => dump_str s
  | JArr l =>                                                 (* 16631-16674 *)
      let fix elems (l : list json) : dres :=
        match l with
        | [] => DOk []
        | x :: t => dbind (dump x) (fun a => match t with
                                             | [] => DOk (a ++ [93])
                                             | _ => dapp (a ++ [44]) (elems t)
                                             end)
        end in
      match l with [] => DOk (bs "[]") | _ => dapp [91] (elems l) end
  | JObj m =>                                                 (* 16531-16629 *)
      let fix members (m : list (bytes * json)) : dres :=
        match m with
        | [] => DOk []
        | (k, x) :: t =>
            dbind (dump_str k) (fun a => dbind (dump x) (fun b => match t with
                                                | [] => DOk (a ++ 58 :: b ++ [125])
                                                | _ => dapp (a ++ 58 :: b ++ [44]) (members t)
                                                end))
        end in
      match m with [] => DOk (bs "{}") | _ => dapp [123] (members m) end
  end.

(** ** Lexer *)
Inductive token :=
| TBeginArr | TEndArr | TBeginObj | TEndObj | TColon | TComma | TTrue | TFalse | TNull
| TStr (s : bytes) | TUns (z : Z) | TInt (z : Z) | TFloat (text : bytes) | TEnd | TErr | TFuel.

(** json.hpp:6798-6816: the value of a hexadecimal digit. *)
Definition unhex (c : Z) : option Z :=
  if (48 <=? c) && (c <=? 57) then Some (c - 48)
  else if (65 <=? c) && (c <=? 70) then Some (c - 55)
  else if (97 <=? c) && (c <=? 102) then Some (c - 87)
  else None.

(** json.hpp:6789-6822. *)
Definition get_codepoint (l : bytes) : option (Z * bytes) :=
  match l with
  | a :: b :: c :: d :: t =>
      match unhex a, unhex b, unhex c, unhex d with
      | Some a, Some b, Some c, Some d => Some (a * 4096 + b * 256 + c * 16 + d, t)
      | _, _, _, _ => None
      end
  | _ => None
  end.

(** json.hpp:7013-7039: a code point in UTF-8. *)
Definition utf8_of (c : Z) : bytes :=
  if c <? 128 then [c]
  else if c <=? 2047 then [192 + c / 64; 128 + c mod 64]
  else if c <=? 65535 then [224 + c / 4096; 128 + c / 64 mod 64; 128 + c mod 64]
  else [240 + c / 262144; 128 + c / 4096 mod 64; 128 + c / 64 mod 64; 128 + c mod 64].

(** What one turn of the loop of [scan_string] does: closing quote, bytes added, or an error. *)
Inductive sstep := SEnd (rest : bytes) | SAdd (b rest : bytes) | SBad.

(** json.hpp:6942-7041: after [\u]. *)
Definition scan_u (l : bytes) : sstep :=
  match get_codepoint l with
  | None => SBad
  | Some (c1, l) =>
      if (55296 <=? c1) && (c1 <=? 56319) then
        match l with
        | x :: y :: l =>
            if (x =? 92) && (y =? 117) then
              match get_codepoint l with
              | None => SBad
              | Some (c2, l) => if (56320 <=? c2) && (c2 <=? 57343)
                                then SAdd (utf8_of (c1 * 1024 + c2 - 56613888)) l else SBad
              end
            else SBad
        | _ => SBad
        end
      else if (56320 <=? c1) && (c1 <=? 57343) then SBad
      else SAdd (utf8_of c1) l
  end.

(** json.hpp:6837-6856: the bytes after [c] must be in the given ranges. *)
Fixpoint in_range (ranges : list (Z * Z)) (acc l : bytes) : sstep :=
  match ranges with
  | [] => SAdd acc l
  | (lo, hi) :: r =>
      match l with
      | c :: l => if (lo <=? c) && (c <=? hi) then in_range r (acc ++ [c]) l else SBad
      | [] => SBad
      end
  end.

(** json.hpp:6887-7435: one turn; at the end of the input it is an error. *)
Definition scan_char (l : bytes) : sstep :=
  match l with
  | [] => SBad
  | c :: l =>
      if c =? 34 then SEnd l
      else if c =? 92 then
        match l with
        | [] => SBad
        | e :: l => if e =? 34 then SAdd [34] l else if e =? 92 then SAdd [92] l
                    else if e =? 47 then SAdd [47] l else if e =? 98 then SAdd [8] l
                    else if e =? 102 then SAdd [12] l else if e =? 110 then SAdd [10] l
                    else if e =? 114 then SAdd [13] l else if e =? 116 then SAdd [9] l
                    else if e =? 117 then scan_u l else SBad
        end
      else if c <=? 31 then SBad
      else if c <=? 127 then SAdd [c] l
      else if (194 <=? c) && (c <=? 223) then in_range [(128, 191)] [c] l
      else if c =? 224 then in_range [(160, 191); (128, 191)] [c] l
      else if (225 <=? c) && (c <=? 236) || (c =? 238) || (c =? 239)
           then in_range [(128, 191); (128, 191)] [c] l
      else if c =? 237 then in_range [(128, 159); (128, 191)] [c] l
      else if c =? 240 then in_range [(144, 191); (128, 191); (128, 191)] [c] l
      else if (241 <=? c) && (c <=? 243) then in_range [(128, 191); (128, 191); (128, 191)] [c] l
      else if c =? 244 then in_range [(128, 143); (128, 191); (128, 191)] [c] l
      else SBad
  end.

(** json.hpp:6874-7436, after the opening quote. *)
Fixpoint scan_string (fuel : nat) (acc l : bytes) : token * bytes :=
  match fuel with
  | O => (TFuel, l)
  | S fuel => match scan_char l with
              | SEnd r => (TStr acc, r)
              | SAdd b r => scan_string fuel (acc ++ b) r
              | SBad => (TErr, l)
              end
  end.

(** json.hpp:7589-7895: states of the scanner of numbers, and the table of its comment (7555-7566). *)
Inductive nst := NMinus | NZero | NAny1 | NDec1 | NDec2 | NExp | NSign | NAny2.
Inductive nact := NGo (s : nst) | NDone | NErr.
Definition is_digit (c : Z) : bool := (48 <=? c) && (c <=? 57).
Definition num_next (s : nst) (c : Z) : nact :=
  match s with
  | NMinus => if c =? 48 then NGo NZero else if is_digit c then NGo NAny1 else NErr
  | NZero => if c =? 46 then NGo NDec1 else if (c =? 101) || (c =? 69) then NGo NExp else NDone
  | NAny1 => if is_digit c then NGo NAny1 else if c =? 46 then NGo NDec1
             else if (c =? 101) || (c =? 69) then NGo NExp else NDone
  | NDec1 => if is_digit c then NGo NDec2 else NErr
  | NDec2 => if is_digit c then NGo NDec2 else if (c =? 101) || (c =? 69) then NGo NExp else NDone
  | NExp => if (c =? 43) || (c =? 45) then NGo NSign else if is_digit c then NGo NAny2 else NErr
  | NSign => if is_digit c then NGo NAny2 else NErr
  | NAny2 => if is_digit c then NGo NAny2 else NDone
  end.

(** [number_type] after a state was entered. *)
Definition floats (s : nst) (f : bool) : bool :=
  match s with NDec1 | NExp => true | _ => f end.

(** [strtoull] of digits, without its limit. *)
Definition value (d : bytes) : Z := fold_left (fun v c => v * 10 + (c - 48)) d 0.

(** json.hpp:7862-7912.  [text]: the token without its sign. *)
Definition number (neg isfloat : bool) (text : bytes) : token :=
  if isfloat then TFloat (if neg then 45 :: text else text)
  else if neg then (if value text <=? 2 ^ 63 then TInt (- value text) else TFloat (45 :: text))
  else if value text <? M64 then TUns (value text) else TFloat text.

(** From state [s]; [acc]: the characters so far, last one first.  The character that ends a number is
    read again. *)
Fixpoint scan_num (s : nst) (neg isfloat : bool) (acc l : bytes) : token * bytes :=
  match l with
  | [] => match num_next s (-1) with NDone => (number neg isfloat (rev acc), []) | _ => (TErr, []) end
  | c :: t => match num_next s c with
              | NGo s' => scan_num s' neg (floats s' isfloat) (c :: acc) t
              | NDone => (number neg isfloat (rev acc), l)
              | NErr => (TErr, l)
              end
  end.

(** json.hpp:7920-7932. *)
Fixpoint scan_literal (text : bytes) (tok : token) (l : bytes) : token * bytes :=
  match text with
  | [] => (tok, l)
  | a :: text => match l with
                 | c :: l => if c =? a then scan_literal text tok l else (TErr, l)
                 | [] => (TErr, [])
                 end
  end.

(** json.hpp:8120-8127. *)
Definition is_space (c : Z) : bool := (c =? 32) || (c =? 9) || (c =? 10) || (c =? 13).
Fixpoint skip_space (l : bytes) : bytes :=
  match l with
  | c :: t => if is_space c then skip_space t else l
  | [] => []
  end.

(** json.hpp:8129-8213 without the byte order mark; comments are errors. *)
Definition scan (l : bytes) : token * bytes :=
  match skip_space l with
  | [] => (TEnd, [])
  | c :: t =>
      if c =? 91 then (TBeginArr, t) else if c =? 93 then (TEndArr, t)
      else if c =? 123 then (TBeginObj, t) else if c =? 125 then (TEndObj, t)
      else if c =? 58 then (TColon, t) else if c =? 44 then (TComma, t)
      else if c =? 116 then scan_literal (bs "rue") TTrue t
      else if c =? 102 then scan_literal (bs "alse") TFalse t
      else if c =? 110 then scan_literal (bs "ull") TNull t
      else if c =? 34 then scan_string (S (length t)) [] t
      else if c =? 45 then scan_num NMinus true false [] t
      else if c =? 48 then scan_num NZero false false [c] t
      else if is_digit c then scan_num NAny1 false false [c] t
      else if c =? 0 then (TEnd, t)
      else (TErr, t)
  end.

(** All tokens up to the end or the first error.  The parser asks for one after the other and for none
    after those. *)
Fixpoint lex (fuel : nat) (l : bytes) : list token :=
  match fuel with
  | O => [TFuel]
  | S fuel => let '(t, r) := scan l in
              match t with
              | TEnd | TErr | TFuel => [t]
              | _ => t :: lex fuel r
              end
  end.

(** json.hpp:8106-8118, 8131-8136: a byte order mark is skipped, a part of one is an error. *)
Definition lex_all (l : bytes) : list token :=
  match l with
  | c :: t => if c =? 239 then
                match t with
                | x :: y :: r => if (x =? 187) && (y =? 191) then lex (S (length r)) r else [TErr]
                | _ => [TErr]
                end
              else lex (S (length l)) l
  | [] => lex 1 []
  end.

(** ** Parser *)

(** json.hpp:11100-11102 and the stack of json_sax_dom_parser (6228-6232): elements of an array, last
    one first; members of an object and the key whose value comes next. *)
Inductive frame := FArr (l : list json) | FObj (m : list (bytes * json)) (k : bytes).

(** Where the loop of [sax_parse_internal] is: before a value; after one; after [\[] or [{]; after a
    comma of an object; after a key; after the outermost value. *)
Inductive mode := MVal | MAfter | MArr0 | MKey0 | MKey | MColon | MDone (j : json).

(** [PThrow]: parse_error or out_of_range. *)
Inductive pres := POk (j : json) | PThrow | PFuel.

(** json.hpp:6205-6225, 11284-11288: a value is complete. *)
Definition complete (v : json) (fs : list frame) : mode * list frame :=
  match fs with
  | [] => (MDone v, [])
  | FArr l :: r => (MAfter, FArr (v :: l) :: r)
  | FObj m k :: r => (MAfter, FObj (mset k v m) k :: r)
  end.

Section Parse.
  (** [strtod]: the integer part; [None]: infinite. *)
  Variable strtod : bytes -> option Z.

  (** json.hpp:11104-11283: a token where a value is expected. *)
  Definition start_value (t : token) (fs : list frame) : option (mode * list frame) :=
    match t with
    | TBeginObj => Some (MKey0, fs)
    | TBeginArr => Some (MArr0, fs)
    | TFloat x => match strtod x with Some z => Some (complete (JFloat z) fs) | None => None end
    | TFalse => Some (complete (JBool false) fs)
    | TTrue => Some (complete (JBool true) fs)
    | TNull => Some (complete JNull fs)
    | TInt z => Some (complete (JInt z) fs)
    | TUns z => Some (complete (JUns z) fs)
    | TStr s => Some (complete (JStr s) fs)
    | _ => None
    end.

  (** json.hpp:11106-11376: one token; [None]: an exception. *)
  Definition pstep (t : token) (md : mode) (fs : list frame) : option (mode * list frame) :=
    match md, t with
    | MVal, _ => start_value t fs
    | MArr0, TEndArr => Some (complete (JArr []) fs)
    | MArr0, _ => start_value t (FArr [] :: fs)
    | MKey0, TEndObj => Some (complete (JObj []) fs)
    | MKey0, TStr k => Some (MColon, FObj [] k :: fs)
    | MColon, TColon => Some (MVal, fs)
    | MKey, TStr k => match fs with FObj m _ :: r => Some (MColon, FObj m k :: r) | _ => None end
    | MAfter, TComma => match fs with
                        | FArr _ :: _ => Some (MVal, fs)
                        | FObj _ _ :: _ => Some (MKey, fs)
                        | [] => None
                        end
    | MAfter, TEndArr => match fs with FArr l :: r => Some (complete (JArr (rev l)) r) | _ => None end
    | MAfter, TEndObj => match fs with FObj m _ :: r => Some (complete (JObj m) r) | _ => None end
    | _, _ => None
    end.

  (** json.hpp:11010-11059 (strict): after the value only the end may come. *)
  Fixpoint prun (ts : list token) (md : mode) (fs : list frame) : pres :=
    match ts with
    | [] => PThrow
    | TFuel :: _ => PFuel
    | t :: ts =>
        match md with
        | MDone j => match t with TEnd => POk j | _ => PThrow end
        | _ => match pstep t md fs with
               | Some (md, fs) => prun ts md fs
               | None => PThrow
               end
        end
    end.

  (** [nlohmann::json::parse] of a text. *)
  Definition parse (l : bytes) : pres := prun (lex_all l) MVal [].
End Parse.

(** ** Events (event.hpp:32-41) *)
Inductive cat := Operation | Statistic | Metadata.
Record ev := { v_name : bytes; v_cat : cat; v_str : list (bytes * bytes); v_num : list (bytes * Z);
               v_tag : list (bytes * bytes); v_time : Z }.

(** event_json.hpp:16-20. *)
Definition cat_text (c : cat) : bytes :=
  match c with
  | Operation => bs "operation"
  | Statistic => bs "statistic"
  | Metadata => bs "metadata"
  end.
Definition text_cat (j : json) : cat :=
  match j with
  | JStr s => match bcmp s (bs "operation"), bcmp s (bs "statistic"), bcmp s (bs "metadata") with
              | Eq, _, _ => Operation
              | _, Eq, _ => Statistic
              | _, _, Eq => Metadata
              | _, _, _ => Operation
              end
  | _ => Operation
  end.

Definition jstrs (m : list (bytes * bytes)) : json := JObj (map (fun kv => (fst kv, JStr (snd kv))) m).
Definition jnums (m : list (bytes * Z)) : json := JObj (map (fun kv => (fst kv, JUns (snd kv))) m).

(** event_json.hpp:22-33.  [v_time]: nanoseconds since the epoch, a [long]. *)
Definition to_json (e : ev) : json :=
  JObj (fold_left (fun m kv => mset (fst kv) (snd kv) m)
          [(bs "name", JStr (v_name e)); (bs "category", JStr (cat_text (v_cat e)));
           (bs "numeric_args", jnums (v_num e)); (bs "string_args", jstrs (v_str e));
           (bs "tags", jstrs (v_tag e)); (bs "timestamp", JInt (v_time e))] []).

(** The result of a conversion: [CUB] is a [double] that does not fit. *)
Inductive cres (A : Type) := COk (a : A) | CThrow | CUB.
Arguments COk {A} a.
Arguments CThrow {A}.
Arguments CUB {A}.
Definition cbind {A B} (r : cres A) (f : A -> cres B) : cres B :=
  match r with COk a => f a | CThrow => CThrow | CUB => CUB end.

(** json.hpp:4018-4027, 4051-4061 with 3975-4006. *)
Definition get_str (j : json) : cres bytes := match j with JStr s => COk s | _ => CThrow end.
Definition get_u64 (j : json) : cres Z :=
  match j with
  | JUns z => COk z
  | JInt z => COk (w64 z)
  | JFloat z => if (0 <=? z) && (z <? M64) then COk z else CUB
  | _ => CThrow
  end.
Definition get_i64 (j : json) : cres Z :=
  match j with
  | JUns z => COk (s64 z)
  | JInt z => COk z
  | JFloat z => if (- 2 ^ 63 <=? z) && (z <? 2 ^ 63) then COk z else CUB
  | _ => CThrow
  end.

(** json.hpp:4228-4250. *)
Fixpoint get_members {A} (get : json -> cres A) (m : list (bytes * json)) : cres (list (bytes * A)) :=
  match m with
  | [] => COk []
  | (k, j) :: m => cbind (get j) (fun v => cbind (get_members get m) (fun t => COk ((k, v) :: t)))
  end.
Definition get_map {A} (get : json -> cres A) (j : json) : cres (list (bytes * A)) :=
  match j with JObj m => get_members get m | _ => CThrow end.

(** [j.at(k)]. *)
Definition jat (k : string) (m : list (bytes * json)) : cres json :=
  match mfind (bs k) m with Some j => COk j | None => CThrow end.

(** event_json.hpp:35-53.  The maps of a fresh event are empty. *)
Definition from_json (j : json) : cres ev :=
  match j with
  | JObj m =>
      cbind (cbind (jat "name" m) get_str) (fun name =>
      cbind (jat "category" m) (fun c =>
      cbind (match mfind (bs "string_args") m with Some j => get_map get_str j | None => COk [] end) (fun strs =>
      cbind (match mfind (bs "numeric_args") m with Some j => get_map get_u64 j | None => COk [] end) (fun nums =>
      cbind (cbind (jat "tags" m) (get_map get_str)) (fun tags =>
      cbind (cbind (jat "timestamp" m) get_i64) (fun t =>
      COk {| v_name := name; v_cat := text_cat c; v_str := strs; v_num := nums; v_tag := tags; v_time := t |}))))))
  | _ => CThrow
  end.
