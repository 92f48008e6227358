(** What a log of several threads should be. *)
From Coq Require Import String.
From Verif Require Import Base ReplayModel ReplaySpec ThreadLogModel.
Local Open Scope Z_scope.

(** The part of a thread. *)
Fixpoint part (t : nat) (l : list (nat * pcall)) : list pcall :=
  match l with nil => nil | (u, c) :: l => if Nat.eqb u t then c :: part t l else part t l end.

(** The call of a thread that is not in the log yet. *)
Definition unlogged (f : phase) : list pcall := match f with Got r n q => [PAlloc r n q] | _ => [] end.

(** A thread is between the two steps of a call for [p] of [r]. *)
Definition busy (s : tstate) (r p : Z) : Prop :=
  exists t, (exists n, t_phase s t = Got r n p) \/ t_phase s t = Said r p.
