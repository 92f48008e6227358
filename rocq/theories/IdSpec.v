(** Which device a resource name stands for (MemoryResourceTypes.hpp:108-140), as a relation on strings. *)
From Coq Require Import String Ascii.
From Verif Require Import Base.
Local Open Scope string_scope.

Definition code (c : ascii) : Z := Z.of_nat (nat_of_ascii c).
Definition every (P : ascii -> Prop) (s : string) : Prop := forall c, In c (list_ascii_of_string s) -> P c.
Definition digit (c : ascii) : Prop := (48 <= code c <= 57)%Z.
Definition blank (c : ascii) : Prop := In (code c) [9; 10; 11; 12; 13; 32]%Z.
Definition not_break (c : ascii) : Prop := code c <> 10%Z /\ code c <> 13%Z.

(** The number that digits stand for, by their places. *)
Fixpoint value (s : string) : Z :=
  match s with
  | EmptyString => 0
  | String c t => (code c - 48) * 10 ^ Z.of_nat (String.length t) + value t
  end.

(** Blanks, perhaps a sign, digits, and what does not go on with a digit: the number [v]. *)
Inductive reads : string -> Z -> Prop :=
| reads_at ws sg k ds rest :
    every blank ws -> In (sg, k) [("", 1); ("+", 1); ("-", -1)]%Z -> ds <> "" -> every digit ds ->
    (forall c t, rest = String c t -> ~ digit c) ->
    reads (ws ++ sg ++ ds ++ rest) (k * value ds).

(** [r]: the int read from [s], or the exception that there is none. *)
Definition int_of (s : string) (r : option Z) : Prop :=
  match r with
  | Some v => reads s v /\ (- 2 ^ 31 <= v < 2 ^ 31)%Z
  | None => forall v, reads s v -> ~ (- 2 ^ 31 <= v < 2 ^ 31)%Z
  end.

Definition has_colons (s : string) : Prop := exists a b, s = a ++ "::" ++ b.

(** [x] ends in two colons and a number [d], and is one line up to there. *)
Definition numbered (x d : string) : Prop :=
  exists a, x = a ++ "::" ++ d /\ d <> "" /\ every digit d /\ every not_break a.

(** [r]: the device of [x], or an exception; [cuda]: built with CUDA; [cur]: the current device. *)
Inductive stands (cur : Z) : bool -> string -> option Z -> Prop :=
| st_first a b r : ~ has_colons (a ++ ":") -> int_of b r -> stands cur true (a ++ "::" ++ b) r
| st_no_colons x : ~ has_colons x -> stands cur true x (Some cur)
| st_number x d r : numbered x d -> int_of d r -> stands cur false x r
| st_no_number x : (forall d, ~ numbered x d) -> stands cur false x (Some cur).
