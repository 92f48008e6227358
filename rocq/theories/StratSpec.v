(** Histories of calls on one strategy, and what can be read off them. *)
From Verif Require Import Base StratModel.

(** One event: an allocation that returned [p], one that returned null, one that threw,
    a deallocation, a call of [release]. *)
Inductive ev : Type :=
| Got (n p : Z)
| Null (n : Z)
| Refused (n : Z)
| Returned (p n : Z)
| Released.

Fixpoint drop1 (r : region) (l : list region) : list region :=
  match l with
  | [] => []
  | x :: t => if (fst x =? fst r) && (snd x =? snd r) then t else x :: drop1 r t
  end.

(** Newest event first. *)
Fixpoint live (t : list ev) : list region :=
  match t with
  | [] => []
  | Got n p :: t' => (p, n) :: live t'
  | Returned p n :: t' => drop1 (p, n) (live t')
  | _ :: t' => live t'
  end.

(** Everything ever handed out. *)
Fixpoint ever (t : list ev) : list region :=
  match t with
  | [] => []
  | Got n p :: t' => (p, n) :: ever t'
  | _ :: t' => ever t'
  end.

(** Sizes of all requests ever made, granted or not. *)
Fixpoint requests (t : list ev) : list Z :=
  match t with
  | [] => []
  | Got n _ :: t' => n :: requests t'
  | Null n :: t' => n :: requests t'
  | Refused n :: t' => n :: requests t'
  | Returned _ _ :: t' => requests t'
  | Released :: t' => requests t'
  end.

Fixpoint total (l : list Z) : Z := match l with [] => 0 | x :: t => x + total t end.

Section Runs.
  Context (S : Strat) {W : Type} (P : Parent W) (Inv : W -> list region -> Prop).

  (** [runs t sw]: after the events [t] the strategy and its parent are in state [sw].
      Requests are of 1 to 2^64-1 bytes; only live allocations are returned, with their
      size.  [r_env]: the parent may be used by others between calls. *)
  Inductive runs : list ev -> st_ty S * W -> Prop :=
  | r_start w w' s : Inv w [] -> st_make S W P w = Ok w' s -> runs [] (s, w')
  | r_got t sw n sw' p :
      runs t sw -> 0 < n < M64 -> st_alloc S W P n sw = Ok sw' p -> p <> 0 -> runs (Got n p :: t) sw'
  | r_null t sw n sw' :
      runs t sw -> 0 < n < M64 -> st_alloc S W P n sw = Ok sw' 0 -> runs (Null n :: t) sw'
  | r_refused t sw n sw' e :
      runs t sw -> 0 < n < M64 -> st_alloc S W P n sw = Throw sw' e -> runs (Refused n :: t) sw'
  | r_returned t sw cur p n sw' :
      runs t sw -> In (p, n) (live t) -> st_dealloc S W P cur p n sw = Ok sw' tt ->
      runs (Returned p n :: t) sw'
  | r_released t sw sw' :
      runs t sw -> st_release S W P sw = Ok sw' tt -> runs (Released :: t) sw'
  | r_env t s w w' :
      runs t (s, w) -> (forall L, Inv w L -> Inv w' L) -> runs t (s, w').
End Runs.

(** Every refusal so far was of a request that would have taken the live total above
    [limit]. *)
Fixpoint only_excess_refused (limit : Z) (t : list ev) : Prop :=
  match t with
  | [] => True
  | Refused n :: t' => limit < total (map snd (live t')) + n /\ only_excess_refused limit t'
  | Null _ :: t' => False
  | _ :: t' => only_excess_refused limit t'
  end.

(** All requests were of one size [n] and none was answered by an exception. *)
Definition uniform (n : Z) (t : list ev) : Prop :=
  (forall m, In m (requests t) -> m = n) /\ (forall m, ~ In (Refused m) t).
