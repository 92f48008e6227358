(** Vocabulary for texts of the proc file system. *)
From Coq Require Import String Ascii.
From Verif Require Import Base NamingModel CatalogModel.

Local Notation "a ^^ b" := (String.append a b) (at level 60, right associativity).

Fixpoint each (P : ascii -> Prop) (s : string) : Prop := match s with EmptyString => True | String c t => P c /\ each P t end.
Definition blank (s : string) : Prop := each (fun c => is_space c = true) s.
(** [s] does not go on with a digit. *)
Definition no_digit (s : string) : Prop := match s with EmptyString => True | String c _ => is_digit c = false end.
Definition one_line (s : string) : Prop := each (fun c => c <> ascii_of_nat 10) s.
Definition newline : string := String (ascii_of_nat 10) EmptyString.
Fixpoint unlines (l : list string) : string := match l with [] => EmptyString | s :: l => (s ^^ newline ^^ unlines l)%string end.

(** The first word of [s] is [w]. *)
Definition first_word (w s : string) : Prop :=
  exists a b, s = (a ^^ w ^^ b)%string /\ blank a /\ (b = EmptyString \/ exists c t, b = String c t /\ is_space c = true).

(** What may stand before the digits of a number. *)
Definition sign_text (g : string) : Prop := g = EmptyString \/ g = "+"%string \/ g = "-"%string.
(** [w] is not blank and does not begin with a number: a sign without a digit after it, or something else. *)
Definition no_number (w : string) : Prop :=
  (exists g, w = g /\ (g = "+" \/ g = "-")%string) \/
  (exists g c t, w = (g ^^ String c t)%string /\ sign_text g /\ is_digit c = false /\ (g = EmptyString -> is_space c = false /\ c <> "+"%char /\ c <> "-"%char)).
(** What is read of a number with a sign: one that is too large is the largest there is. *)
Definition field_value (g : string) (n v : Z) : Prop :=
  (n < 2 ^ 64 -> g = "-"%string -> 0 <= v < 2 ^ 64 /\ (exists k, v + n = k * 2 ^ 64)) /\ (n < 2 ^ 64 -> g <> "-"%string -> v = n) /\ (2 ^ 64 <= n -> v = 2 ^ 64 - 1).
