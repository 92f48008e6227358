(** Model of FixedPool (src/umpire/strategy/FixedPool.cpp).  Logging and the
    assertions (compiled out with NDEBUG) are left out.  The [malloc] of the availability bits is
    taken to succeed. *)
From Verif Require Import Base StratModel.

(** FixedPool.hpp:62-72 [struct Pool].  [avail] is an array of [int], each given by its 32
    bits, least significant first; 1 (true) means available. *)
Record fpool : Type := mkFpool {
  fp_data : Z;
  fp_avail : list (list bool);
  fp_num : Z
}.

(** FixedPool.hpp:74-84. *)
Record fixedp : Type := mkFixed {
  fx_pools : list fpool;   (** [m_pool], a vector *)
  fx_cur : Z;              (** [m_current_bytes] *)
  fx_actual : Z;           (** [m_actual_bytes] *)
  fx_hwm : Z               (** [m_highwatermark] *)
}.

(** [x.(i) := f x.(i)] for a list [x]. *)
Fixpoint upd {A : Type} (f : A -> A) (i : nat) (l : list A) : list A :=
  match l, i with
  | [], _ => []
  | x :: t, O => f x :: t
  | x :: t, S j => x :: upd f j t
  end.

(** util/find_first_set.hpp:21-34 minus one: the position of the lowest bit set. *)
Fixpoint first_set (w : list bool) : option nat :=
  match w with
  | [] => None
  | true :: _ => Some 0%nat
  | false :: t => option_map S (first_set t)
  end.

Section FixedPool.
  Context (obj : Z)            (** [m_obj_bytes] *)
          (per : nat)          (** [m_obj_per_pool] *)
          (fuel : nat).

  (** FixedPool.cpp:46, 47. *)
  Definition fx_data_bytes : Z := w64 (obj * Z.of_nat per).
  Definition fx_ints : nat := Nat.div per 32 + 1.

  (** FixedPool.cpp:28-38: all bits set. *)
  Definition new_fpool (data : Z) : fpool :=
    mkFpool data (repeat (repeat true 32) fx_ints) (Z.of_nat per).

  (** FixedPool.cpp:95-99.  [m_avail_bytes] is the number of ints. *)
  Definition fx_new_pool {W : Type} (P : Parent W) (sw : fixedp * W) : outcome (fixedp * W) unit :=
    let '(s, w) := sw in
    match p_alloc P fx_data_bytes w with
    | Ok w' d =>
        Ok (mkFixed (fx_pools s ++ [new_fpool d]) (fx_cur s)
                    (w64 (fx_actual s + (Z.of_nat fx_ints + fx_data_bytes))) (fx_hwm s), w') tt
    | Throw w' e => Throw (s, w') e
    | UB => UB | Abort => Abort | NoFuel => NoFuel
    end.

  (** FixedPool.cpp:40-54, [noexcept]. *)
  Definition fx_init (W : Type) (P : Parent W) (w : W) : outcome W fixedp :=
    match fx_new_pool P (mkFixed [] 0 0 0, w) with
    | Ok sw _ => Ok (snd sw) (fst sw)
    | Throw _ _ => Abort
    | UB => UB | Abort => Abort | NoFuel => NoFuel
    end.

  (** The loop of FixedPool.cpp:106-118 over the ints from number [k] on: the position
      (int, bit) of the bit to clear. *)
  Fixpoint fp_scan (k : nat) (l : list (list bool)) : option (nat * nat) :=
    match l with
    | [] => None
    | w :: t =>
        match first_set w with
        | Some b => if Nat.ltb (k * 32 + b) per then Some (k, b) else fp_scan (S k) t
        | None => fp_scan (S k) t
        end
    end.

  (** FixedPool.cpp:101-122; a null result is 0. *)
  Definition alloc_in_pool (p : fpool) : fpool * Z :=
    if fp_num p =? 0 then (p, 0)
    else match fp_scan 0 (fp_avail p) with
         | Some (k, b) =>
             (mkFpool (fp_data p) (upd (upd negb b) k (fp_avail p)) (w64 (fp_num p - 1)),
              fp_data p + obj * Z.of_nat (k * 32 + b))
         | None => (p, 0)
         end.

  (** FixedPool.cpp:132-139 over the pools in reverse order. *)
  Fixpoint fx_try (l : list fpool) : list fpool * Z :=
    match l with
    | [] => ([], 0)
    | p :: t =>
        let '(p', r) := alloc_in_pool p in
        if r =? 0 then let '(t', r') := fx_try t in (p' :: t', r') else (p' :: t, r)
    end.

  (** FixedPool.cpp:124-150. *)
  Fixpoint fx_alloc (f : nat) {W : Type} (P : Parent W) (bytes : Z) (sw : fixedp * W)
    : outcome (fixedp * W) Z :=
    match f with
    | O => NoFuel
    | S f' =>
        let '(s, w) := sw in
        let '(rp, ptr) := fx_try (rev (fx_pools s)) in
        if ptr =? 0
        then let* (sw1, u) := fx_new_pool P (mkFixed (rev rp) (fx_cur s) (fx_actual s) (fx_hwm s), w) in
             fx_alloc f' P bytes sw1
        else let cur := w64 (fx_cur s + obj) in
             Ok (mkFixed (rev rp) cur (fx_actual s) (Z.max (fx_hwm s) cur), w) ptr
    end.
  Definition fx_allocate (W : Type) (P : Parent W) := fx_alloc fuel P.

  (** [offset] of FixedPool.cpp:156, 223: whether [ptr] lies in the pool's block
      (addresses are below 2^63, so the difference does not overflow). *)
  Definition fp_owns (p : fpool) (ptr : Z) : bool :=
    let offset := ptr - fp_data p in
    (0 <=? offset) && (offset <? (if fx_data_bytes <? 2 ^ 63 then fx_data_bytes else fx_data_bytes - M64)).

  (** FixedPool.cpp:158-168. *)
  Definition free_in_pool (p : fpool) (ptr : Z) : fpool :=
    let index := Z.to_nat ((ptr - fp_data p) / obj) in
    mkFpool (fp_data p) (upd (upd negb (Nat.modulo index 32)) (Nat.div index 32) (fp_avail p)) (w64 (fp_num p + 1)).

  Fixpoint fx_free_pools (ptr : Z) (l : list fpool) : option (list fpool) :=
    match l with
    | [] => None
    | p :: t =>
        if fp_owns p ptr then Some (free_in_pool p ptr :: t)
        else option_map (cons p) (fx_free_pools ptr t)
    end.

  (** FixedPool.cpp:152-175. *)
  Definition fx_deallocate (W : Type) (P : Parent W) (_ : Z) (ptr size : Z) (sw : fixedp * W)
    : outcome (fixedp * W) unit :=
    let '(s, w) := sw in
    match fx_free_pools ptr (fx_pools s) with
    | Some pools => Ok (mkFixed pools (w64 (fx_cur s - obj)) (fx_actual s) (fx_hwm s), w) tt
    | None => Throw sw RuntimeError
    end.

  (** FixedPool.cpp:177-187.  The blocks of unused pools are returned one after the other, then
      the pools are removed from the vector; [m_actual_bytes] is not changed. *)
  Definition fp_unused (p : fpool) : bool := Z.of_nat per =? fp_num p.

  Fixpoint fx_free_unused {W : Type} (P : Parent W) (l : list fpool) (w : W) : outcome W unit :=
    match l with
    | [] => Ok w tt
    | p :: t =>
        if fp_unused p
        then let* (w', u) := p_dealloc P (fp_data p) fx_data_bytes w in fx_free_unused P t w'
        else fx_free_unused P t w
    end.

  Definition fx_release (W : Type) (P : Parent W) (sw : fixedp * W) : outcome (fixedp * W) unit :=
    let '(s, w) := sw in
    match fx_free_unused P (fx_pools s) w with
    | Ok w' _ => Ok (mkFixed (filter (fun p => negb (fp_unused p)) (fx_pools s)) (fx_cur s) (fx_actual s) (fx_hwm s), w') tt
    | Throw w' e => Throw (s, w') e
    | UB => UB | Abort => Abort | NoFuel => NoFuel
    end.

  (** FixedPool.cpp:219-230. *)
  Definition fx_is_from_pool (ptr : Z) (s : fixedp) : bool := existsb (fun p => fp_owns p ptr) (fx_pools s).

  (** FixedPool.cpp:189-217. *)
  Definition fx_current_size (s : fixedp) : Z := fx_cur s.
  Definition fx_actual_size (s : fixedp) : Z := fx_actual s.
  Definition fx_num_pools (s : fixedp) : Z := Z.of_nat (length (fx_pools s)).

  Definition FixedPool : Strat :=
    mkStrat fixedp fx_init fx_allocate fx_deallocate fx_release no_coalesce.
End FixedPool.
