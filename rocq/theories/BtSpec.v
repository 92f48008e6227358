(** Vocabulary for backtraces. *)
From Coq Require Import String Ascii HexString.
From Verif Require Import Base NamingModel BtModel.

Local Notation "a ^^ b" := (String.append a b) (at level 60, right associativity).

(** The letters o and n next to each other, in upper or lower case. *)
Definition says_on (s : string) : Prop :=
  exists a b x y, s = (a ^^ String x (String y b))%string /\ (x = "O" \/ x = "o")%char /\ (y = "N" \/ y = "n")%char.
Definition on (env : option string) : Prop := exists s, env = Some s /\ says_on s.

(** An address in hexadecimal; null is 0. *)
Definition address (p : Z) : string := if p =? 0 then "0"%string else HexString.of_N (Z.to_N p).
(** A name as the programmer wrote it where it can be demangled, and as it is otherwise. *)
Definition readable (demangle : string -> option string) (name : string) : string :=
  match (if String.prefix "_" name then demangle name else None) with Some d => d | None => name end.

(** A backtrace as it is meant to look: a line of the number of frames, and of each its number, address and text. *)
Definition entry (i : nat) (p : Z) (text : string) : string :=
  ("    " ^^ dec (Z.of_nat i) ^^ " " ^^ address p ^^ " " ^^ text ^^ nl)%string.
Fixpoint entries (i : nat) (l : list (Z * string)) : string :=
  match l with [] => EmptyString | (p, t) :: l => (entry i p t ^^ entries (S i) l)%string end.
Definition sheet (l : list (Z * string)) : string :=
  ("    Backtrace: " ^^ dec (Z.of_nat (List.length l)) ^^ " frames" ^^ nl ^^ entries 0 l)%string.

(** The text of a frame: what the loader knows of the address, or else what [backtrace_symbols] said of it. *)
Definition text_of (with_symbols : bool) (dladdr : Z -> option (string * Z)) (demangle : string -> option string) (p : Z) (s : string) : string :=
  match (if with_symbols then dladdr p else None) with
  | Some (name, addr) => (readable demangle name ^^ "+" ^^ HexString.of_N (Z.to_N (p - addr)))%string
  | None => ("No dladdr: " ^^ s)%string
  end.

(** Queries of several translation units, one after the other. *)
Fixpoint asks (l : list (Z * option string)) (L : latch) : list bool :=
  match l with [] => [] | (u, env) :: l => let (L, b) := backtrace_enabled u env L in b :: asks l L end.
