(** Common vocabulary: machine words, outcomes of C++ calls, memory regions,
    finite maps as functions, and the contract between an allocation strategy
    and the strategy (or resource) it obtains memory from. *)
From Coq Require Export ZArith Lia List Bool Permutation.
From Coq Require Export ZifyBool ZifyNat.
Export ListNotations.
Open Scope Z_scope.
Open Scope list_scope.

(** ** Machine words *)

Definition M64 : Z := 2 ^ 64.
Definition M32 : Z := 2 ^ 32.

(** [size_t] / [uintptr_t] arithmetic wraps modulo 2^64. *)
Definition w64 (x : Z) : Z := x mod M64.
(** [unsigned int] arithmetic wraps modulo 2^32. *)
Definition w32 (x : Z) : Z := x mod M32.

(** ** Outcomes of a C++ call

    [Ok w a]    the call returned [a] and left the state [w];
    [Throw w e] the call threw [e]; [w] is the state left behind;
    [UB]        undefined behaviour (invalid dereference, invalid free, ...);
    [Abort]     an exception escaped a [noexcept] function ([std::terminate]);
    [NoFuel]    the (modelled) recursion did not finish within its fuel. *)
Inductive exn : Type :=
| OutOfMemory            (* umpire::out_of_memory_error *)
| RuntimeError           (* umpire::runtime_error *)
| UnknownPointer         (* umpire::unknown_pointer_error *)
| ResourceError.         (* umpire::resource_error *)

Inductive outcome (W A : Type) : Type :=
| Ok (w : W) (a : A)
| Throw (w : W) (e : exn)
| UB
| Abort
| NoFuel.
Arguments Ok {W A} w a.
Arguments Throw {W A} w e.
Arguments UB {W A}.
Arguments Abort {W A}.
Arguments NoFuel {W A}.

Definition bind {W A B : Type} (o : outcome W A) (f : W -> A -> outcome W B)
  : outcome W B :=
  match o with
  | Ok w a => f w a
  | Throw w e => Throw w e
  | UB => UB
  | Abort => Abort
  | NoFuel => NoFuel
  end.

Notation "'let*' ( w , a ) := o 'in' k" :=
  (bind o (fun w a => k)) (at level 200, w name, a name, right associativity).

(** State change of the enclosing object around a call on a component. *)
Definition omap {W W' A A' : Type} (fw : W -> W') (fa : A -> A')
  (o : outcome W A) : outcome W' A' :=
  match o with
  | Ok w a => Ok (fw w) (fa a)
  | Throw w e => Throw (fw w) e
  | UB => UB
  | Abort => Abort
  | NoFuel => NoFuel
  end.

(** A [noexcept] function: an exception becomes [std::terminate]. *)
Definition noexcept {W A : Type} (o : outcome W A) : outcome W A :=
  match o with
  | Throw _ _ => Abort
  | o' => o'
  end.

(** Partial-correctness reading of an outcome: no undefined behaviour, and
    the given postconditions if the call returns or throws. *)
Definition post {W A : Type} (o : outcome W A)
  (ok : W -> A -> Prop) (thr : W -> exn -> Prop) : Prop :=
  match o with
  | Ok w a => ok w a
  | Throw w e => thr w e
  | UB => False
  | Abort => True
  | NoFuel => True
  end.

(** ** Memory regions: base address and length in bytes *)

Definition region : Type := (Z * Z)%type.

Definition disj (a b : region) : Prop :=
  fst a + snd a <= fst b \/ fst b + snd b <= fst a.

(** [inside a b]: region [a] is a sub-range of region [b]. *)
Definition inside (a b : region) : Prop :=
  fst b <= fst a /\ fst a + snd a <= fst b + snd b.

Fixpoint pairwise {A : Type} (R : A -> A -> Prop) (l : list A) : Prop :=
  match l with
  | [] => True
  | x :: t => (forall y, In y t -> R x y) /\ pairwise R t
  end.

(** User-space addresses of the supported 64-bit platforms lie below 2^63;
    accordingly [malloc] never succeeds for 2^63 bytes or more. *)
Definition ASP : Z := 2 ^ 63.

(** A region is well placed: non-null base, non-empty, inside the address
    space. *)
Definition wf_region (r : region) : Prop :=
  0 < fst r /\ 0 < snd r /\ fst r + snd r <= ASP.

(** The regions a client may legitimately hold at the same time. *)
Definition good (L : list region) : Prop :=
  (forall r, In r L -> wf_region r) /\ pairwise disj L.

(** ** Finite maps as functions *)

Definition fmap (A : Type) : Type := Z -> option A.
Definition fempty {A : Type} : fmap A := fun _ => None.
Definition fset {A : Type} (m : fmap A) (k : Z) (v : A) : fmap A :=
  fun x => if x =? k then Some v else m x.
Definition fdel {A : Type} (m : fmap A) (k : Z) : fmap A :=
  fun x => if x =? k then None else m x.

(** ** The contract of a strategy towards its client

    A client of a strategy uses [allocate_internal]/[deallocate_internal]
    (AllocationStrategy.cpp:20-55); for the top-level user these are the calls
    made by [Allocator].  [p_alloc n w] requests [n] bytes, [p_dealloc p n w]
    returns the allocation at [p] of size [n]. *)
Record Parent (W : Type) : Type := mkParent {
  p_alloc : Z -> W -> outcome W Z;
  p_dealloc : Z -> Z -> W -> outcome W unit
}.
Arguments mkParent {W}.
Arguments p_alloc {W}.
Arguments p_dealloc {W}.

(** [Inv w L]: in world [w] the client under consideration holds exactly the
    regions [L].  [lim] is the largest request for which the contract is
    claimed. *)
Record ParentSpec {W : Type} (P : Parent W) (lim : Z)
  (Inv : W -> list region -> Prop) : Prop := mkParentSpec {
  ps_perm : forall w L L', Permutation L L' -> Inv w L -> Inv w L';
  ps_good : forall w L, Inv w L -> good L;
  ps_alloc : forall w L n, Inv w L -> 0 < n <= lim ->
    post (p_alloc P n w)
         (fun w' p => Inv w' ((p, n) :: L))
         (fun w' _ => Inv w' L);
  ps_dealloc : forall w L p n, Inv w ((p, n) :: L) ->
    post (p_dealloc P p n w)
         (fun w' _ => Inv w' L)
         (fun _ _ => False)
}.
