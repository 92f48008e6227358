(** Linearizability, and the calls of Allocator in sequence. *)
From Verif Require Import Base HeapModel StratModel GlobalModel GlobalSpec MapModel MapSpec SystemModel SystemSpec ConcModel.

Section Lin.
  Context {S C R : Type}.
  (** [big c s s' r]: call [c] alone takes [s] to [s'] and returns [r]. *)
  Context (big : C -> S -> S -> R -> Prop).

  (** Calls one after the other, newest first. *)
  Inductive inturn (s0 : S) : list (nat * C * R) -> S -> Prop :=
  | it_nil : inturn s0 [] s0
  | it_call L s k c r s' : inturn s0 L s -> big c s s' r -> inturn s0 ((k, c, r) :: L) s'.

  Definition id_of (x : nat * C * R) : nat := fst (fst x).

  (** In a list with the newest first, [x] was there before [y]. *)
  Definition precedes {A : Type} (x y : A) (l : list A) : Prop := exists a b, l = a ++ y :: b /\ In x b.

  (** The history [H] (newest first) looks as if the calls [L] (newest first) had been made one after the other, ending in
      [s]: every call that returned is among them with its result, calls in [L] were invoked, once, and a call that returned
      before another was invoked comes before it. *)
  Record linear (s0 : S) (H : list (event C R)) (L : list (nat * C * R)) (s : S) : Prop := mkLinear {
    ln_turn : inturn s0 L s;
    ln_once : NoDup (map id_of L);
    ln_called : forall k c r, In (k, c, r) L -> exists t, In (Inv k t c) H;
    ln_result : forall k r, In (Res k r) H -> exists c, In (k, c, r) L;
    ln_order : forall k r k' t c r', precedes (Res k r) (Inv k' t c) H -> In (k', c, r') L ->
      exists c', precedes (k, c', r) (k', c, r') L
  }.
End Lin.

(** A program run alone. *)
Inductive alone {S R : Type} : prog S R -> S -> S -> R -> Prop :=
| al_done r s : alone (Done r) s s r
| al_do f s s1 p s' r : f s = Some (s1, p) -> alone p s1 s' r -> alone (Do f) s s' r.

(** Run alone, a program ends. *)
Inductive defined {S R : Type} : prog S R -> S -> Prop :=
| df_done r s : defined (Done r) s
| df_do f s s1 p : f s = Some (s1, p) -> defined p s1 -> defined (Do f) s.

(** The calls of Allocator as SystemModel.v has them. *)
Definition sys_call {J : Judy (list arec)} {C : list nodecfg} (c : tcall) (s s' : sworld J C) (r : tres) : Prop :=
  match c with
  | TAlloc i n nm => (exists p, sys_allocate J C i n nm s = Ok s' p /\ r = RPtr p) \/ (exists e, sys_allocate J C i n nm s = Throw s' e /\ r = RExn e)
  | TFree i p => (sys_deallocate J C i p s = Ok s' tt /\ r = RUnit) \/ (exists e, sys_deallocate J C i p s = Throw s' e /\ r = RExn e)
  end.

(** The call ends the process, or the model gives no result ([NoFuel]). *)
Definition stops {J : Judy (list arec)} {C : list nodecfg} (c : tcall) (s : sworld J C) : Prop :=
  match c with
  | TAlloc i n nm => match sys_allocate J C i n nm s with Abort | NoFuel => True | _ => False end
  | TFree i p => match sys_deallocate J C i p s with Abort | NoFuel => True | _ => False end
  end.

(** The allocations live after the calls [L], newest first, if [g] were before. *)
Fixpoint live_after (g : list arec) (L : list (nat * tcall * tres)) : list arec :=
  match L with
  | [] => g
  | (_, TAlloc i n nm, RPtr p) :: L => mkRec p n (Z.of_nat i) nm :: live_after g L
  | (_, TFree _ p, RUnit) :: L => forget p (live_after g L)
  | (_, TFree i p, RExn _) :: L => gone i p (live_after g L)
  | _ :: L => live_after g L
  end.

(** Calls whose arguments are legal whatever the state. *)
Definition legal (C : list nodecfg) (c : tcall) : Prop :=
  match c with
  | TAlloc i n _ => usable C i /\ (n = 0 \/ forall w, user_guard C i n w)
  | TFree i p => usable C i /\ addr_ok p
  end.

(** The allocation made by call [k] of allocator [i] in [L] and not given back since: no deallocation of it returned, and
    none through [i] threw. *)
Definition held (L : list (nat * tcall * tres)) (k : nat) (r : arec) : Prop :=
  exists a b i, L = a ++ (k, TAlloc i (r_size r) (r_name r), RPtr (r_ptr r)) :: b /\ r_strat r = Z.of_nat i /\
    forall k' j x, In (k', TFree j (r_ptr r), x) a -> x <> RUnit /\ j <> i.
