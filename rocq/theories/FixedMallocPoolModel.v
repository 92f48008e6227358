(** Model of util::FixedMallocPool (src/umpire/util/FixedMallocPool.cpp), the pool that stores
    the library's own records.  A free slot holds the number of the next free slot in its
    first word, so the model has a memory: [fm_mem a] is the 32-bit word last written at address
    [a], [None] if none was; reading [None] is undefined behaviour.  Slots are at least 8 bytes
    in every use, so a word written at the start of one slot is never part of another. *)
From Verif Require Import Base.

(** FixedMallocPool.hpp:46-52. *)
Record fmpool : Type := mkFm {
  fm_data : Z;
  fm_next : Z;       (** 0: null *)
  fm_ninit : Z;      (** [num_initialized], unsigned int *)
  fm_nfree : Z
}.

Section FixedMallocPool.
  Context (obj per : Z)              (** [m_obj_bytes], [m_obj_per_pool] *)
          {W : Type} (P : Parent W). (** [malloc]/[free]; an exception stands for a null result *)

  (** FixedMallocPool.cpp:24-27. *)
  Definition fm_addr (p : fmpool) (i : Z) : Z := fm_data p + i * obj.
  (** FixedMallocPool.cpp:29-32. *)
  Definition fm_index (p : fmpool) (a : Z) : Z := w32 ((a - fm_data p) / obj).

  (** FixedMallocPool.cpp:34-40: the result of [malloc] is not checked. *)
  Definition fm_new_pool (w : W) : outcome W fmpool :=
    match p_alloc P (w64 (obj * per)) w with
    | Ok w' d => Ok w' (mkFm d d 0 per)
    | Throw w' _ => Ok w' (mkFm 0 0 0 per)
    | UB => UB | Abort => Abort | NoFuel => NoFuel
    end.

  Record fmstate : Type := mkFmState {
    fm_pools : list fmpool;
    fm_mem : fmap Z
  }.

  (** FixedMallocPool.cpp:42-46. *)
  Definition fm_init (w : W) : outcome W fmstate :=
    let* (w', p) := fm_new_pool w in Ok w' (mkFmState [p] fempty).

  (** FixedMallocPool.cpp:59-75; a write to a null block is undefined behaviour. *)
  Definition fm_alloc_in_pool (p : fmpool) (m : fmap Z) : outcome (fmpool * fmap Z) Z :=
    let take (p : fmpool) (m : fmap Z) : outcome (fmpool * fmap Z) Z :=
      if 0 <? fm_nfree p then
        let nfree := fm_nfree p - 1 in
        if nfree =? 0 then Ok (mkFm (fm_data p) 0 (fm_ninit p) nfree, m) (fm_next p)
        else match m (fm_next p) with
             | Some i => Ok (mkFm (fm_data p) (fm_addr p i) (fm_ninit p) nfree, m) (fm_next p)
             | None => UB
             end
      else Ok (p, m) 0 in
    if fm_ninit p <? per
    then if fm_data p =? 0 then UB
         else let i := w32 (fm_ninit p + 1) in
              take (mkFm (fm_data p) (fm_next p) i (fm_nfree p)) (fset m (fm_addr p (fm_ninit p)) i)
    else take p m.

  (** FixedMallocPool.cpp:81-85 over the pools in reverse order. *)
  Fixpoint fm_try (l : list fmpool) (m : fmap Z) : outcome (list fmpool * fmap Z) Z :=
    match l with
    | [] => Ok ([], m) 0
    | p :: t =>
        match fm_alloc_in_pool p m with
        | Ok (p', m') r =>
            if r =? 0
            then match fm_try t m' with
                 | Ok (t', m'') r' => Ok (p' :: t', m'') r'
                 | Throw (t', m'') e => Throw (p' :: t', m'') e
                 | UB => UB | Abort => Abort | NoFuel => NoFuel
                 end
            else Ok (p' :: t, m') r
        | Throw (p', m') e => Throw (p' :: t, m') e
        | UB => UB | Abort => Abort | NoFuel => NoFuel
        end
    end.

  (** FixedMallocPool.cpp:77-103. *)
  Fixpoint fm_allocate (fuel : nat) (sw : fmstate * W) : outcome (fmstate * W) Z :=
    match fuel with
    | O => NoFuel
    | S f =>
        let '(s, w) := sw in
        match fm_try (rev (fm_pools s)) (fm_mem s) with
        | Ok (rp, m) r =>
            if r =? 0
            then match fm_new_pool w with
                 | Ok w' p => fm_allocate f (mkFmState (rev rp ++ [p]) m, w')
                 | Throw w' e => Throw (mkFmState (rev rp) m, w') e
                 | UB => UB | Abort => Abort | NoFuel => NoFuel
                 end
            else Ok (mkFmState (rev rp) m, w) r
        | Throw (rp, m) e => Throw (mkFmState (rev rp) m, w) e
        | UB => UB | Abort => Abort | NoFuel => NoFuel
        end
    end.

  (** FixedMallocPool.cpp:107-109 (data_bytes below 2^63). *)
  Definition fm_owns (p : fmpool) (ptr : Z) : bool :=
    (0 <=? ptr - fm_data p) && (ptr - fm_data p <? w64 (obj * per)).

  (** FixedMallocPool.cpp:105-124.  The second branch stores a [size_t]; only its lower word is
      ever read. *)
  Fixpoint fm_free_in (ptr : Z) (l : list fmpool) (m : fmap Z) : option (list fmpool * fmap Z) :=
    match l with
    | [] => None
    | p :: t =>
        if fm_owns p ptr
        then let v := if fm_next p =? 0 then w32 per else fm_index p (fm_next p) in
             Some (mkFm (fm_data p) ptr (fm_ninit p) (w64 (fm_nfree p + 1)) :: t, fset m ptr v)
        else match fm_free_in ptr t m with
             | Some (t', m') => Some (p :: t', m')
             | None => None
             end
    end.

  Definition fm_deallocate (ptr : Z) (sw : fmstate * W) : outcome (fmstate * W) unit :=
    let '(s, w) := sw in
    match fm_free_in ptr (fm_pools s) (fm_mem s) with
    | Some (pools, m) => Ok (mkFmState pools m, w) tt
    | None => Throw sw RuntimeError
    end.

  Definition fm_num_pools (s : fmstate) : Z := Z.of_nat (length (fm_pools s)).

  (** The owner of a slot writes to it: a word at its start. *)
  Definition fm_write (ptr v : Z) (s : fmstate) : fmstate := mkFmState (fm_pools s) (fset (fm_mem s) ptr v).
End FixedMallocPool.

(** ** Histories *)
Section Histories.
  Context (obj per : Z) {W : Type} (P : Parent W) (Inv : W -> list region -> Prop) (fuel : nat).

  (** [fmhist A s w]: after some history, in which the first [malloc] succeeded, the slots [A]
      are handed out.  Owners may overwrite their slots; others may use the parent in
      between. *)
  Inductive fmhist : list Z -> fmstate -> W -> Prop :=
  | fh_start w w' s d : Inv w [] -> p_alloc P (w64 (obj * per)) w = Ok w' d -> fm_init obj per P w = Ok w' s -> fmhist [] s w'
  | fh_alloc A s w s' w' p : fmhist A s w -> fm_allocate obj per P fuel (s, w) = Ok (s', w') p -> fmhist (p :: A) s' w'
  | fh_free A1 A2 p s w s' w' : fmhist (A1 ++ p :: A2) s w -> fm_deallocate obj per p (s, w) = Ok (s', w') tt ->
      fmhist (A1 ++ A2) s' w'
  | fh_write A s w p v : fmhist A s w -> In p A -> fmhist A (fm_write p v s) w
  | fh_env A s w w' : fmhist A s w -> (forall L, Inv w L -> Inv w' L) -> fmhist A s w'.
End Histories.
