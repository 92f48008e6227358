(** Vocabulary for the properties of the log. *)
From Coq Require Import String Ascii.
From Verif Require Import Base NamingModel LogModel.

(** The same letter, large or small. *)
Definition same_letter (a b : ascii) : Prop :=
  let x := nat_of_ascii a in let y := nat_of_ascii b in
  x = y \/ ((65 <= x <= 90)%nat /\ y = (x + 32)%nat) \/ ((65 <= y <= 90)%nat /\ x = (y + 32)%nat).
Fixpoint same_word (s t : string) : Prop :=
  match s, t with
  | EmptyString, EmptyString => True
  | String a s', String b t' => same_letter a b /\ same_word s' t'
  | _, _ => False
  end.
Fixpoint plain (s : string) : Prop :=
  match s with EmptyString => True | String a s' => (nat_of_ascii a < 128)%nat /\ plain s' end.

(** The levels, most urgent first. *)
Definition documented_level (i : Z) (x : string) : Prop :=
  (i = 0 /\ x = "ERROR"%string) \/ (i = 1 /\ x = "WARNING"%string) \/ (i = 2 /\ x = "INFO"%string) \/ (i = 3 /\ x = "DEBUG"%string).

(** A line of the log. *)
Definition line_of (x m f : string) (n : Z) : list ascii :=
  list_ascii_of_string ("[" ++ x ++ "][" ++ f ++ ":" ++ dec n ++ "]:" ++ m)%string ++ [ascii_of_nat 10].

(** The log of a program, given the level it starts with: a line for every message at least as urgent as the level in
    force. *)
Inductive log_of : Z -> list lop -> list ascii -> Prop :=
| log_end : forall l, log_of l [] []
| log_level : forall l k ops t, log_of k ops t -> log_of l (LLevel k :: ops) t
| log_shown : forall l i x m f n ops t, documented_level i x -> i <= l -> log_of l ops t ->
    log_of l (LMessage i m f n :: ops) (line_of x m f n ++ t)
| log_hidden : forall l i m f n ops t, l < i \/ i < 0 \/ 3 < i -> log_of l ops t -> log_of l (LMessage i m f n :: ops) t.

(** Where the stream writes to. *)
Definition goes_to (b : buffer) (s : sink) : Prop :=
  match b with Direct x => s = x | Both co fi => Some s = co \/ Some s = fi end.
Definition separate (b : buffer) : Prop :=
  match b with Both (Some x) (Some y) => x <> y | _ => True end.

(** [w'] has, in addition to what [w] has, [t] where the stream writes to and nothing elsewhere. *)
Definition gained (w w' : io) (t : list ascii) : Prop :=
  forall s, (goes_to (i_buf w) s -> i_text w' s = i_text w s ++ t) /\ (~ goes_to (i_buf w) s -> i_text w' s = i_text w s).

Definition prefix {A : Type} (p l : list A) : Prop := exists r, l = p ++ r.

(** Only the files in [l] exist. *)
Definition only (fs : files) (l : list string) : Prop := forall x, fs x <> None -> In x l.

(** Every one from the [a]-th up to the [b]-th, exclusive, succeeds. *)
Definition all_fine (f : nat -> bool) (a b : nat) : Prop := forall k, (a <= k < b)%nat -> f k = true.
