(** Vocabulary for parallel programs. *)
From Verif Require Import Base MpiModel.

(** A process has got through [initialize_io]. *)
Definition through (s : stage) : Prop := s = Passed \/ s = Skipped.
(** Process [r] never will. *)
Definition never (n : Z) (log fails : bool) (g : start) (r : Z) : Prop :=
  forall l, ~ through (t_at (t_run n log fails l g) r).
(** A schedule of the processes 0 .. n-1, in which each has at least [k] turns. *)
Definition schedule (n : Z) (l : list Z) : Prop := forall r, In r l -> 0 <= r < n.
Definition fair (n : Z) (k : nat) (l : list Z) : Prop := forall r, 0 <= r < n -> (k <= length (filter (Z.eqb r) l))%nat.

(** Calls of get_communicator_for_allocator one after the other. *)
Fixpoint ask_comms (split : Z -> nat -> Z) (node : Z -> bool) (l : list (Z * Z)) (s : comms) : list Z :=
  match l with [] => [] | (id, comm) :: l => let (s, c) := get_communicator split node id comm s in c :: ask_comms split node l s end.
