(** Model of FixedSizePool (src/umpire/strategy/FixedSizePool.hpp), the pool in which
    DynamicSizePool keeps its block descriptors, with [MA] and [IA] both StdAllocator
    (strategy/StdAllocator.hpp, [malloc] and [free]) as in every use.  The linked list of pools is a
    list.  The diagnostics printed by [deallocate] are left out. *)
From Verif Require Import Base FixedPoolModel.

(** FixedSizePool.hpp:28-33 [struct Pool]; the list's links are implicit.  [avail] points just behind
    the structure and is an array of [unsigned int], each given by its 32 bits, least significant
    first; 1 (true) means available. *)
Record bpool : Type := mkBpool {
  bp_head : Z;                 (** the address of the structure *)
  bp_data : Z;
  bp_avail : list (list bool);
  bp_num : Z                   (** [numAvail], unsigned int *)
}.

Record bstate : Type := mkBstate {
  bs_pools : list bpool;       (** from [pool] on *)
  bs_blocks : Z                (** [numBlocks] *)
}.

Section BlockPool.
  Context (obj : Z)            (** [sizeof(T)] *)
          (np : nat)           (** [NP] *)
          {W : Type} (P : Parent W). (** [malloc]/[free]; an exception stands for a null result *)

  (** [sizeof(struct Pool)]: two pointers, an unsigned int padded to 8 bytes, a pointer. *)
  Definition pool_struct : Z := 32.
  (** FixedSizePool.hpp:81-82 [numPerPool], [totalPoolSize]. *)
  Definition bs_per : Z := w64 (Z.of_nat np * 4 * 8).
  Definition bs_total : Z := w64 (pool_struct + bs_per * obj + Z.of_nat np * 4).

  Definition malloc (n : Z) (w : W) : outcome W Z :=
    match p_alloc P n w with
    | Ok w' p => Ok w' p
    | Throw w' _ => Ok w' 0
    | UB => UB | Abort => Abort | NoFuel => NoFuel
    end.

  (** FixedSizePool.hpp:41-53.  Writing to a null structure is undefined behaviour; a null [data] is not
      noticed. *)
  Definition bs_new_pool (w : W) : outcome W bpool :=
    let* (w1, h) := malloc (w64 (pool_struct + Z.of_nat np * 4)) w in
    if h =? 0 then UB
    else let* (w2, d) := malloc (w64 (bs_per * obj)) w1 in
         Ok w2 (mkBpool h d (repeat (repeat true 32) np) (w32 bs_per)).

  (** FixedSizePool.hpp:80-86. *)
  Definition bs_init (w : W) : outcome W bstate :=
    let* (w', p) := bs_new_pool w in Ok w' (mkBstate [p] 0).

  (** The loop of FixedSizePool.hpp:60-68 over the ints from number [k] on. *)
  Fixpoint bs_scan (k : nat) (l : list (list bool)) : option (nat * nat) :=
    match l with
    | [] => None
    | w :: t => match first_set w with Some b => Some (k, b) | None => bs_scan (S k) t end
    end.

  (** FixedSizePool.hpp:55-71; a null result is 0. *)
  Definition bs_alloc_in (p : bpool) : bpool * Z :=
    if bp_num p =? 0 then (p, 0)
    else match bs_scan 0 (bp_avail p) with
         | Some (k, b) =>
             (mkBpool (bp_head p) (bp_data p) (upd (upd negb b) k (bp_avail p)) (w32 (bp_num p - 1)),
              bp_data p + Z.of_nat (k * 32 + b) * obj)
         | None => (p, 0)
         end.

  (** The loop of FixedSizePool.hpp:104-108. *)
  Fixpoint bs_try (l : list bpool) : list bpool * Z :=
    match l with
    | [] => ([], 0)
    | p :: t =>
        let '(p', r) := bs_alloc_in p in
        if r =? 0 then let '(t', r') := bs_try t in (p' :: t', r') else (p' :: t, r)
    end.

  (** FixedSizePool.hpp:98-118. *)
  Fixpoint bs_allocate (fuel : nat) (sw : bstate * W) : outcome (bstate * W) Z :=
    match fuel with
    | O => NoFuel
    | S f =>
        let '(s, w) := sw in
        let '(l, r) := bs_try (bs_pools s) in
        if r =? 0
        then match bs_new_pool w with
             | Ok w' p => bs_allocate f (mkBstate (l ++ [p]) (bs_blocks s), w')
             | Throw w' e => Throw (mkBstate l (bs_blocks s), w') e
             | UB => UB | Abort => Abort | NoFuel => NoFuel
             end
        else Ok (mkBstate l (w64 (bs_blocks s + 1)), w) r
    end.

  (** FixedSizePool.hpp:123-125. *)
  Definition bp_owns (p : bpool) (ptr : Z) : bool :=
    (bp_data p <=? ptr) && (ptr <? bp_data p + bs_per * obj).

  (** FixedSizePool.hpp:126-139. *)
  Definition bs_free_in (p : bpool) (ptr : Z) : bpool :=
    let index := Z.to_nat ((ptr - bp_data p) / obj) in
    mkBpool (bp_head p) (bp_data p) (upd (upd negb (Nat.modulo index 32)) (Nat.div index 32) (bp_avail p))
            (w32 (bp_num p + 1)).

  Fixpoint bs_free_pools (ptr : Z) (l : list bpool) : option (list bpool) :=
    match l with
    | [] => None
    | p :: t =>
        if bp_owns p ptr then Some (bs_free_in p ptr :: t)
        else option_map (cons p) (bs_free_pools ptr t)
    end.

  (** FixedSizePool.hpp:120-145; [OutOfMemory] stands for [std::bad_alloc]. *)
  Definition bs_deallocate (ptr : Z) (sw : bstate * W) : outcome (bstate * W) unit :=
    let '(s, w) := sw in
    match bs_free_pools ptr (bs_pools s) with
    | Some l => Ok (mkBstate l (w64 (bs_blocks s - 1)), w) tt
    | None => Throw sw OutOfMemory
    end.

  (** [free] of a null pointer does nothing. *)
  Definition free (ptr n : Z) (w : W) : outcome W unit :=
    if ptr =? 0 then Ok w tt else p_dealloc P ptr n w.

  (** FixedSizePool.hpp:88-96.  The sizes given to [free] are those of the blocks. *)
  Fixpoint bs_destroy (l : list bpool) (w : W) : outcome W unit :=
    match l with
    | [] => Ok w tt
    | p :: t =>
        let* (w1, u1) := free (bp_data p) (w64 (bs_per * obj)) w in
        let* (w2, u2) := free (bp_head p) (w64 (pool_struct + Z.of_nat np * 4)) w1 in
        bs_destroy t w2
    end.

  (** FixedSizePool.hpp:147-173. *)
  Definition bs_current_size (s : bstate) : Z := w64 (bs_blocks s * obj).
  Definition bs_num_pools (s : bstate) : Z := Z.of_nat (length (bs_pools s)).
  Definition bs_actual_size (s : bstate) : Z := w64 (bs_num_pools s * bs_total).
End BlockPool.

(** ** Histories *)
Section Histories.
  Context (obj : Z) (np : nat) {W : Type} (P : Parent W) (Inv : W -> list region -> Prop) (fuel : nat).

  (** [malloc] of a new pool's structure and data both succeed in [w]. *)
  Definition room (w : W) : Prop :=
    exists w1 h, p_alloc P (32 + Z.of_nat np * 4) w = Ok w1 h /\
    exists w2 d, p_alloc P (Z.of_nat np * 32 * obj) w1 = Ok w2 d.

  (** [bshist A s w]: after some history the objects [A] are handed out.  While an object was free or
      else [malloc] had room; others may use [malloc] in between. *)
  Inductive bshist : list Z -> bstate -> W -> Prop :=
  | bh_start w w' s : Inv w [] -> room w -> bs_init obj np P w = Ok w' s -> bshist [] s w'
  | bh_alloc A s w s' w' p : bshist A s w ->
      Z.of_nat (length A) < Z.of_nat np * 32 * bs_num_pools s \/ room w -> bs_allocate obj np P fuel (s, w) = Ok (s', w') p ->
      bshist (p :: A) s' w'
  | bh_free A1 A2 p s w s' w' : bshist (A1 ++ p :: A2) s w -> bs_deallocate obj np p (s, w) = Ok (s', w') tt ->
      bshist (A1 ++ A2) s' w'
  | bh_env A s w w' : bshist A s w -> (forall L, Inv w L -> Inv w' L) -> bshist A s w'.
End Histories.
