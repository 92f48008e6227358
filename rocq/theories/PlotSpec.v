(** What a drawing of allocations is meant to show. *)
From Coq Require Import String Ascii.
From Verif Require Import Base MapModel MapSpec PrintSpec PlotModel.

Local Notation "a ^^ b" := (String.append a b) (at level 60, right associativity).

(** ** Lines that stand for a record *)

(** Digits, letters with digits and underscores, and spaces: by listing them. *)
Definition one_of (t : string) (c : ascii) : bool := existsb (Ascii.eqb c) (list_ascii_of_string t).
Definition digit : ascii -> bool := one_of "0123456789".
Definition word : ascii -> bool := one_of "0123456789_abcdefghijklmnopqrstuvwxyzABCDEFGHIJKLMNOPQRSTUVWXYZ".
Definition space : ascii -> bool :=
  one_of (String " " (String "009" (String "010" (String "011" (String "012" (String "013" (String "028" (String "029" (String "030" (String "031" EmptyString)))))))))).

Fixpoint all (p : ascii -> bool) (s : string) : Prop :=
  match s with EmptyString => True | String c t => p c = true /\ all p t end.
Definition some (p : ascii -> bool) (s : string) : Prop := s <> EmptyString /\ all p s.

Definition record_line (l a b : string) : Prop :=
  exists s0 c n s1 s2 s3 s4 rest,
    l = (s0 ^^ "size:" ^^ String c EmptyString ^^ n ^^ "," ^^ s1 ^^ "range:" ^^ s2 ^^ a ^^ s3 ^^ "--" ^^ s4 ^^ b ^^ "," ^^ rest)%string /\
    all space s0 /\ space c = true /\ some digit n /\ some space s1 /\ some space s2 /\ some word a /\
    some space s3 /\ some space s4 /\ some word b /\ rest <> EmptyString.

(** A text that may stand within a line: what follows its line breaks, if it has any, does not look like a record. *)
Definition harmless (t : string) : Prop := forall l a b, In l (List.tl (lines t)) -> ~ record_line l a b.

(** The text after a record's name. *)
Definition after_range (names : Z -> string) (trace : option (arec -> string)) (r : arec) : string :=
  (names (r_name r) ^^ ", " ^^ match trace with Some f => "backtrace: " ^^ f r | None => "" end)%string.

(** ** What is seen *)

Definition paints (rects : list (Z * Z)) (x : Z) : Prop := exists a b, In (a, b) rects /\ a <= x < b.

(** The records of [s] by addresses [ks]. *)
Definition listed (s : Z) (g : registry) (ks : list Z) : list arec := flat_map (fun k => filter (fun r => r_strat r =? s) (records_at k g)) ks.
(** A byte of a live allocation of [s]. *)
Definition in_use (s : Z) (g : registry) (y : Z) : Prop := exists k r, In (k, r) g /\ r_strat r = s /\ r_ptr r <= y < r_ptr r + r_size r.
(** The only byte between two that follow each other. *)
Definition lone_gap (l : list arec) (y : Z) : Prop :=
  exists a r r' b, l = a ++ r :: r' :: b /\ y = r_ptr r + r_size r /\ r_ptr r' = y + 1.
(** Records are kept by where they begin. *)
Definition keyed (g : registry) : Prop := forall k r, In (k, r) g -> r_ptr r = k.
(** The lowest address of [s]. *)
Definition lowest (s : Z) (g : registry) (y : Z) : Prop :=
  (exists k r, In (k, r) g /\ r_strat r = s /\ r_ptr r = y) /\ forall k r, In (k, r) g -> r_strat r = s -> y <= r_ptr r.
Definition within (s : Z) (g : registry) (n : Z) : Prop :=
  forall k r k' r', In (k, r) g -> In (k', r') g -> r_strat r = s -> r_strat r' = s -> r_ptr r' + r_size r' - r_ptr r <= n.

(** Numbers on the axis have at most five digits, and no smaller unit would do. *)
Definition well_scaled (extent denom : Z) (unit : string) : Prop :=
  exists k, (unit = nth k ["Bytes"; "kB"; "MB"; "GB"]%string ""%string) /\ (k < 4)%nat /\ denom = 1024 ^ Z.of_nat k /\
    extent <= 10000 * denom /\ forall j, (j < k)%nat -> 10000 * 1024 ^ Z.of_nat j < extent.

(** ** Numbers: hexadecimal digits, of which two that follow each other may have one underscore between them, after an optional
    mark, which may have an underscore too. *)
Definition digits16 : list (ascii * Z) :=
  combine (list_ascii_of_string "0123456789abcdef") [0; 1; 2; 3; 4; 5; 6; 7; 8; 9; 10; 11; 12; 13; 14; 15] ++
  combine (list_ascii_of_string "ABCDEF") [10; 11; 12; 13; 14; 15].
Inductive numeral : string -> Z -> Prop :=
| nu_one c v : In (c, v) digits16 -> numeral (String c EmptyString) v
| nu_more s n c v : numeral s n -> In (c, v) digits16 -> numeral (s ^^ String c EmptyString) (16 * n + v)
| nu_under s n c v : numeral s n -> In (c, v) digits16 -> numeral (s ^^ String "_" (String c EmptyString)) (16 * n + v).
Definition number (s : string) (n : Z) : Prop :=
  numeral s n \/ exists m t, (m = "0x" \/ m = "0X" \/ m = "0x_" \/ m = "0X_")%string /\ s = (m ^^ t)%string /\ numeral t n.

(** What is read from lines. *)
Inductive reads : list string -> list (Z * Z) -> Prop :=
| re_end : reads [] []
| re_skip x ls l : (forall a b, ~ record_line x a b) -> reads ls l -> reads (x :: ls) l
| re_take x ls l a b m n : record_line x a b -> number a m -> number b n -> reads ls l -> reads (x :: ls) ((m, n) :: l).
