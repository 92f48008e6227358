(** Specification words for the resources that advance a counter. *)
From Verif Require Import Base ConstModel.

Fixpoint total (G : list region) : Z := match G with [] => 0 | r :: G => snd r + total G end.

(** [chist s G t]: reached from the start by requests of at most [lim] bytes and by deallocations of live allocations; [G] are the live ones,
    the last first; [t] is the number of bytes of requests refused for want of room. *)
Section Const.
  Context (base : Z) (cuda : bool) (lim : Z).

  Inductive chist : const -> list region -> Z -> Prop :=
  | ch_start : chist (const_start cuda) [] 0
  | ch_alloc s G t found n s' p : chist s G t -> 0 < n <= lim -> const_allocate base found n s = Ok s' p -> chist s' ((p, n) :: G) t
  | ch_refused s G t found n s' e : chist s G t -> 0 < n <= lim -> const_allocate base found n s = Throw s' e ->
      chist s' G (if c_init s || found then t + n else t)
  | ch_free s G1 G2 t p n s' : chist s (G1 ++ (p, n) :: G2) t -> const_deallocate base p n s = Ok s' tt -> chist s' (G1 ++ G2) t
  | ch_free_fail s G t p n s' e : chist s G t -> In (p, n) G -> const_deallocate base p n s = Throw s' e -> chist s' G t.
End Const.

(** The same for the counting resource: [A] are all allocations ever made. *)
Inductive nhist : Z -> list region -> Prop :=
| nh_start : nhist noop_start []
| nh_alloc s A n s' p : nhist s A -> 0 < n < M64 -> noop_allocate n s = Ok s' p -> nhist s' ((p, n) :: A)
| nh_free s A p n s' : nhist s A -> noop_deallocate p n s = Ok s' tt -> nhist s' A.

(** [stacked b G]: the regions of [G] lie one after the other from [b] on, the last one first in the list. *)
Fixpoint stacked (b : Z) (G : list region) : Prop :=
  match G with
  | [] => True
  | r :: G => 0 < snd r /\ fst r = b + total G /\ stacked b G
  end.
