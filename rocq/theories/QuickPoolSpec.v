(** Vocabulary in which the QuickPool properties are stated: histories of calls
    on one pool, and arithmetic notions that do not mention the pool's internal
    data structures. *)
From Verif Require Import Base AlignedModel QuickPoolModel.

(** Smallest multiple of [A] that is at least [n]. *)
Definition round_to (A n : Z) : Z := (n + A - 1) / A * A.

(** Bytes reserved for a live allocation. *)
Definition extent (A : Z) (u : region) : region := (fst u, round_to A (snd u)).

(** The part of a region obtained from the parent that the pool subdivides:
    from the first multiple of [A] on, [A] bytes less than was requested. *)
Definition data_range (A : Z) (l : region) : region :=
  (round_to A (fst l), snd l - A).

(** No byte of [g] belongs to a live allocation. *)
Definition unused (A : Z) (U : list region) (g : region) : Prop :=
  forall u, In u U -> disj g (extent A u).

(** A gap: a non-empty unused range inside one held region. *)
Definition gap (A : Z) (U L : list region) (g : region) : Prop :=
  0 < snd g /\ (exists l, In l L /\ inside g (data_range A l)) /\ unused A U g.

(** ... that cannot be extended. *)
Definition max_gap (A : Z) (U L : list region) (g : region) : Prop :=
  gap A U L g /\
  forall g', gap A U L g' -> inside g g' -> g' = g.

(** A held region containing no live allocation. *)
Definition idle (A : Z) (U : list region) (l : region) : Prop :=
  unused A U (data_range A l).

Definition sum_over {T : Type} (f : T -> Z) (l : list T) : Z :=
  fold_right (fun x acc => f x + acc) 0 l.

(** What a pool with live allocations [U] that holds the regions [L] must report
    through its getters. *)
Record pool_obs (A : Z) (U L : list region) (v : qview) : Prop := {
  po_live : good U;
  po_in : forall u, In u U -> exists l, In l L /\
            inside u (extent A u) /\ inside (extent A u) (data_range A l) /\ inside (data_range A l) l;
  po_align : forall u, In u U -> fst u mod A = 0;
  po_actual : v_actual v = sum_over (fun l => snd l - A) L;
  po_total : v_total_blocks v = Z.of_nat (length L);
  po_aligned : v_aligned v = sum_over (fun u => round_to A (snd u)) U;
  po_idle : exists I R, Permutation L (I ++ R) /\
              (forall l, In l I -> idle A U l) /\ (forall l, In l R -> ~ idle A U l) /\
              v_rel_blocks v = Z.of_nat (length I) /\
              v_releasable v = sum_over (fun l => snd l - A) I;
  po_blocks : exists G, NoDup G /\ (forall g, In g G <-> max_gap A U L g) /\
              v_blocks_in_pool v = Z.of_nat (length U) + Z.of_nat (length G);
  po_largest : (forall g, gap A U L g -> snd g <= v_largest v) /\
               (0 < v_largest v -> exists g, gap A U L g /\ snd g = v_largest v) /\
               0 <= v_largest v
}.

Section History.
  Context {W : Type} (P : Parent W) (cfg : qcfg) (fuel : nat) (lim : Z)
          (Inv : W -> list region -> Prop).

  (** One call of a client of the pool.  [U] is the list of allocations the
      client holds.  [hs_env]: anything may happen to the parent between
      two calls, as long as the parent keeps honouring what the pool holds. *)
  Inductive hstep : list region * qw -> list region * qw -> Prop :=
  | hs_alloc U sw n sw' p :
      0 < n <= lim -> q_allocate P cfg n sw = Ok sw' p ->
      hstep (U, sw) ((p, n) :: U, sw')
  | hs_alloc_fail U sw n sw' e :
      0 < n <= lim -> q_allocate P cfg n sw = Throw sw' e ->
      hstep (U, sw) (U, sw')
  | hs_free U U' sw p n sw' :
      Permutation U ((p, n) :: U') -> q_deallocate P cfg fuel p sw = Ok sw' tt ->
      hstep (U, sw) (U', sw')
  | hs_release U sw sw' :
      q_release P sw = Ok sw' tt -> hstep (U, sw) (U, sw')
  | hs_coalesce U sw sw' :
      q_coalesce P cfg fuel sw = Ok sw' tt -> hstep (U, sw) (U, sw')
  | hs_env U s w w' :
      (forall L, Inv w L -> Inv w' L) ->
      hstep (U, (s, w)) (U, (s, w')).

  (** [hist U sw H]: a history of calls leads from a fresh pool to the state [sw]
      with live allocations [U]; [H] are the states after each call, latest
      first. *)
  Inductive hist : list region -> qw -> list qpool -> Prop :=
  | hist_init w : Inv w [] -> hist [] (q_init, w) [q_init]
  | hist_step U sw H U' sw' :
      hist U sw H -> hstep (U, sw) (U', sw') -> hist U' sw' (fst sw' :: H).

  Definition reachable (U : list region) (sw : qw) : Prop := exists H, hist U sw H.
End History.

(** Maximum of a list of non-negative numbers. *)
Definition maxZ (l : list Z) : Z := fold_right Z.max 0 l.

(** Heuristics that stop asking for coalescing once it has been done: they ask
    for it only when the whole pool is free, or only when there are at least two
    free blocks. *)
Definition settling (h : qview -> Z) : Prop :=
  (forall v, h v <> 0 -> v_actual v = v_releasable v) \/
  (forall v, h v <> 0 -> 2 <= v_rel_blocks v).

(** The parent's own recursion is not what runs out. *)
Definition parent_total {W : Type} (P : Parent W) : Prop :=
  (forall n w, p_alloc P n w <> NoFuel) /\ (forall p n w, p_dealloc P p n w <> NoFuel).

(** [churn A U L R r]: the idle regions of [L] amount to [r] usable bytes, the
    others are [R], and the gaps in [R] are all smaller than [r]. *)
Definition churn (A : Z) (U L R : list region) (r : Z) : Prop :=
  exists I, Permutation L (I ++ R) /\
    (forall l, In l I -> idle A U l) /\ (forall l, In l R -> ~ idle A U l) /\
    sum_over (fun l => snd l - A) I = r /\ 0 < r /\
    (exists g, gap A U R g) /\ (forall g, gap A U R g -> snd g < r).
