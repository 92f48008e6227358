(** The tokens of JSON: RFC 8259 sections 2, 3, 6 and 7, and the characters of UTF-8: RFC 3629 section 3, independently of the code. *)
From Verif Require Import Base JsonModel.

(** The bytes of a character. *)
Inductive char8 : bytes -> Z -> Prop :=
| c8_1 a : 0 <= a < 128 -> char8 [a] a
| c8_2 x y n : 0 <= x < 32 -> 0 <= y < 64 -> n = x * 64 + y -> 128 <= n -> char8 [192 + x; 128 + y] n
| c8_3 x y z n : 0 <= x < 16 -> 0 <= y < 64 -> 0 <= z < 64 -> n = (x * 64 + y) * 64 + z -> 2048 <= n ->
    ~ 0xD800 <= n <= 0xDFFF -> char8 [224 + x; 128 + y; 128 + z] n
| c8_4 x y z v n : 0 <= x < 8 -> 0 <= y < 64 -> 0 <= z < 64 -> 0 <= v < 64 -> n = ((x * 64 + y) * 64 + z) * 64 + v ->
    0x10000 <= n <= 0x10FFFF -> char8 [240 + x; 128 + y; 128 + z; 128 + v] n.

Definition hex1 (c v : Z) : Prop := (48 <= c <= 57 /\ v = c - 48) \/ (65 <= c <= 70 /\ v = 10 + (c - 65)) \/ (97 <= c <= 102 /\ v = 10 + (c - 97)).
Inductive hex4 : bytes -> Z -> Prop :=
| hex4_mk a b c d x y z v : hex1 a x -> hex1 b y -> hex1 c z -> hex1 d v -> hex4 [a; b; c; d] (((x * 16 + y) * 16 + z) * 16 + v).

(** Section 7: what stands for a character in a string. *)
Inductive piece : bytes -> Z -> Prop :=
| p_plain t c : char8 t c -> 32 <= c -> c <> 34 -> c <> 92 -> piece t c
| p_short e c : In (e, c) [(34, 34); (92, 92); (47, 47); (98, 8); (102, 12); (110, 10); (114, 13); (116, 9)] -> piece [92; e] c
| p_hex t c : hex4 t c -> ~ 0xD800 <= c <= 0xDFFF -> piece (92 :: 117 :: t) c
| p_pair t h t' l : hex4 t h -> hex4 t' l -> 0xD800 <= h <= 0xDBFF -> 0xDC00 <= l <= 0xDFFF ->
    piece (92 :: 117 :: t ++ 92 :: 117 :: t') (0x10000 + (h - 0xD800) * 0x400 + (l - 0xDC00)).
(** A text between quotes and the string that it stands for. *)
Inductive spelled : bytes -> bytes -> Prop :=
| sp_nil : spelled [] []
| sp_cons t c u ts us : piece t c -> char8 u c -> spelled ts us -> spelled (t ++ ts) (u ++ us).

(** Section 6. *)
Definition digits (d : bytes) : Prop := Forall (fun c => 48 <= c <= 57) d.
Inductive int_part : bytes -> Prop :=
| ip_zero : int_part [48]
| ip_more a d : 49 <= a <= 57 -> digits d -> int_part (a :: d).
Inductive frac_part : bytes -> Prop :=
| fp_none : frac_part []
| fp_some d : d <> [] -> digits d -> frac_part (46 :: d).
Inductive exp_part : bytes -> Prop :=
| ep_none : exp_part []
| ep_some e s d : e = 101 \/ e = 69 -> s = [] \/ s = [43] \/ s = [45] -> d <> [] -> digits d -> exp_part (e :: s ++ d).
(** The number that digits stand for. *)
Inductive counts : bytes -> Z -> Prop :=
| cn_nil : counts [] 0
| cn_more d n a : counts d n -> counts (d ++ [a]) (10 * n + (a - 48)).

(** A number is kept exactly if it is written without fraction and exponent and its type has it; otherwise it is for [strtod]. *)
Inductive number_text : bytes -> token -> Prop :=
| nt_uns i n : int_part i -> counts i n -> n < 2 ^ 64 -> number_text i (TUns n)
| nt_int i n : int_part i -> counts i n -> n <= 2 ^ 63 -> number_text (45 :: i) (TInt (- n))
| nt_big i n : int_part i -> counts i n -> 2 ^ 64 <= n -> number_text i (TFloat i)
| nt_low i n : int_part i -> counts i n -> 2 ^ 63 < n -> number_text (45 :: i) (TFloat (45 :: i))
| nt_real m i f e x : m = [] \/ m = [45] -> int_part i -> frac_part f -> exp_part e -> f <> [] \/ e <> [] ->
    x = m ++ i ++ f ++ e -> number_text x (TFloat x).

Inductive token_text : bytes -> token -> Prop :=
| tt_mark c t : In (c, t) [(91, TBeginArr); (93, TEndArr); (123, TBeginObj); (125, TEndObj); (58, TColon); (44, TComma)] -> token_text [c] t
| tt_true : token_text [116; 114; 117; 101] TTrue
| tt_false : token_text [102; 97; 108; 115; 101] TFalse
| tt_null : token_text [110; 117; 108; 108] TNull
| tt_str t s : spelled t s -> token_text (34 :: t ++ [34]) (TStr s)
| tt_num x t : number_text x t -> token_text x t.

(** Section 2: insignificant white space. *)
Definition spaces (l : bytes) : Prop := Forall (fun c => In c [32; 9; 10; 13]) l.
(** [x] is not the beginning of a longer number. *)
Definition longest (x r : bytes) : Prop := forall c r' more t, r = c :: r' -> ~ number_text (x ++ c :: more) t.
Definition proper (t : token) : Prop := t <> TEnd /\ t <> TErr /\ t <> TFuel.
