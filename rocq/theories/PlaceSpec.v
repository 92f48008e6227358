(** What the strategies that place memory should do. *)
From Coq Require Import String.
From Verif Require Import Base RegistryModel OpTableModel OpTableSpec MapModel AsyncModel PlaceModel.

(** An allocation, the allocator it was asked of, and the node all of it must be on if that is known. *)
Record home : Type := mkHome { ho_ptr : Z; ho_size : Z; ho_owner : Z; ho_node : option Z }.

Fixpoint drop_home (p : Z) (l : list home) : list home :=
  match l with [] => [] | x :: l' => if ho_ptr x =? p then l' else x :: drop_home p l' end.
Definition settle (p : Z) (k : option Z) (l : list home) : list home :=
  map (fun x => if ho_ptr x =? p then mkHome (ho_ptr x) (ho_size x) (ho_owner x) k else x) l.

(** The node memory of a strategy must be on. *)
Fixpoint policy_node (t : strat) : option Z :=
  match t with
  | Source _ => None
  | NumaPolicy k _ _ => Some k
  | Advisor _ _ t' | Prefetcher _ _ t' => policy_node t'
  end.

(** The hints an allocation of [t] must give, innermost strategy first; [able] are the devices that can prefetch. *)
Fixpoint hints_due (able : Z -> bool) (t : strat) (p n : Z) : list hint :=
  match t with
  | Source _ => []
  | NumaPolicy _ _ t' => hints_due able t' p n
  | Advisor op d t' | Prefetcher op d t' =>
      hints_due able t' p n ++
      match op with
      | CudaAdviseOperation a | HipAdviseOperation a => [mkHint (Some a) p n d]
      | CudaMemPrefetchOperation => if able d then [mkHint None p n d] else []
      | _ => []
      end
  end.

(** Devices that can prefetch; -1 stands for the host, for which the current device is asked. *)
Definition can_prefetch (current : Z) (props : Z -> option bool) (d : Z) : bool :=
  match props (if d =? -1 then current else d) with Some b => b | None => false end.

(** Blocks lie on different pages. *)
Definition apart (page q n : Z) (l : list (Z * Z)) : Prop :=
  forall p m x y, In (p, m) l -> q <= x < q + n -> p <= y < p + m -> x / page <> y / page.

(** Blocks do not overlap. *)
Definition disjoint_from (q n : Z) (l : list (Z * Z)) : Prop :=
  forall p m x, In (p, m) l -> ~ (q <= x < q + n /\ p <= x < p + m).

Section PlaceSpec.
  Context (strat_of : Z -> strat).

  (** What is known about the allocations after an operation that returned [Some] pointer, or threw. *)
  Definition observe (o : pop) (r : option Z) (h : list home) : list home :=
    match o, r with
    | PAllocate i n, Some q => mkHome q n i (policy_node (strat_of i)) :: h
    | PAllocate _ _, None => h
    | PDeallocate p, Some _ => drop_home p h
    | PDeallocate _, None => h
    | PMove p i, _ =>
        match find (fun x => ho_ptr x =? p) h with
        | None => h
        | Some x =>
            if ho_owner x =? i then h      (* nothing happens: see [C63_move_back_refuted] *)
            else match strat_of i, r with
                 | NumaPolicy k _ _, Some _ => settle p (Some k) h
                 | NumaPolicy k _ _, None => settle p None h
                 | t, Some q => mkHome q (ho_size x) i (policy_node t) :: drop_home p h
                 | _, None => h
                 end
        end
    end.

  Context (c : opconfig) (page : Z) (available : bool) (usable : Z -> bool) (binds : nat -> option (Z -> bool)).
  Context (plat : Z -> platform) (place : nat -> Z -> Z -> option Z) (fails : nat -> bool) (current : Z).
  Context (props : Z -> option bool).

  (** The external allocators hand out memory on pages of its own; moved pointers are those of allocations. *)
  Definition fits (o : pop) (w : pworld) : Prop :=
    (forall i n q, place (p_calls w) i n = Some q -> 0 < n -> apart page q n (p_taken w)) /\
    match o with
    | PAllocate _ n => 0 < n
    | PDeallocate _ => True
    | PMove p _ => exists r, In r (p_live w) /\ r_ptr r = p
    end.

  (** What programs can bring about. *)
  Inductive history : pworld -> list home -> Prop :=
  | history_start : history p_start []
  | history_ok w h o w' a :
      history w h -> fits o w ->
      p_do c page available usable binds plat place fails current props strat_of o w = Ok w' a ->
      history w' (observe o (Some a) h)
  | history_throw w h o w' e :
      history w h -> fits o w ->
      p_do c page available usable binds plat place fails current props strat_of o w = Throw w' e ->
      history w' (observe o None h).
End PlaceSpec.
