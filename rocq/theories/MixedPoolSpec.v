(** Which size class is to serve a request. *)
From Verif Require Import Base.

(** Class [i] is the smallest one of at least [n] bytes. *)
Definition suits (sizes : list Z) (n : Z) (i : nat) : Prop :=
  exists c, nth_error sizes i = Some c /\ n <= c /\
    forall j c', nth_error sizes j = Some c' -> n <= c' -> c < c' \/ j = i.
