(** How a listing of allocations is meant to look. *)
From Coq Require Import String Ascii HexString DecimalString.
From Verif Require Import Base MapModel MapSpec.

Local Notation "a ^^ b" := (String.append a b) (at level 60, right associativity).

Definition newline : string := String "010" EmptyString.
Definition decimal (n : Z) : string := NilZero.string_of_uint (N.to_uint (Z.to_N n)).
Definition shown_address (p : Z) : string := match p with Zpos q => HexString.of_pos q | _ => "0"%string end.

(** A line for a record: its size, where it starts and ends, its name, and perhaps where it was made. *)
Definition line_of (names : Z -> string) (trace : option (arec -> string)) (r : arec) : string :=
  ("  size: " ^^ decimal (r_size r) ^^ ", range: " ^^ shown_address (r_ptr r) ^^ " -- " ^^ shown_address (r_ptr r + r_size r) ^^
   ", name: " ^^ names (r_name r) ^^ ", " ^^ (match trace with Some f => "backtrace: " ^^ f r | None => "" end) ^^ newline)%string.

Fixpoint joined (l : list string) : string := match l with [] => EmptyString | s :: l => (s ^^ joined l)%string end.

(** A paragraph for an address: the address and a line for each of the records [l] there; none if there are no records. *)
Definition paragraph (names : Z -> string) (trace : option (arec -> string)) (k : Z) (l : list arec) : string :=
  match l with
  | [] => EmptyString
  | _ => (shown_address k ^^ " {" ^^ newline ^^ joined (map (line_of names trace) l) ^^ "}" ^^ newline)%string
  end.

(** All records of [g] that [pred] holds of, by addresses [ks], newest first. *)
Definition printout (names : Z -> string) (trace : option (arec -> string)) (pred : arec -> bool) (g : registry) (ks : list Z) : string :=
  joined (map (fun k => paragraph names trace k (filter pred (records_at k g))) ks).

(** The addresses of [g], in order. *)
Definition addresses (g : registry) (ks : list Z) : Prop := ascending ks /\ forall x, In x ks <-> registered g x.

(** Records of blocks of memory. *)
Definition blocks (g : registry) : Prop := forall k r, In (k, r) g -> 0 <= r_ptr r /\ 0 <= r_size r /\ r_ptr r + r_size r < M64.
