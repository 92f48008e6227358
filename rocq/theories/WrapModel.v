(** Models of the small strategies: SizeLimiter, MonotonicAllocationStrategy,
    SlotPool, AlignedAllocator and the pass-through strategies.  Logging, events and
    backtraces are left out. *)
From Verif Require Import Base AlignedModel StratModel.

(** ** SizeLimiter (src/umpire/strategy/SizeLimiter.cpp)

    State: [m_total_size]; [m_size_limit] is a constructor argument. *)
Section SizeLimiter.
  Context (limit : Z).

  Definition sl_init (W : Type) (P : Parent W) (w : W) : outcome W Z := Ok w 0.

  (** SizeLimiter.cpp:23-33.  When the parent throws, the bytes stay charged. *)
  Definition sl_allocate (W : Type) (P : Parent W) (bytes : Z) (sw : Z * W)
    : outcome (Z * W) Z :=
    let '(total, w) := sw in
    let total1 := w64 (total + bytes) in
    if limit <? total1
    then Throw (w64 (total1 - bytes), w) OutOfMemory
    else omap (pair total1) (fun p => p) (p_alloc P bytes w).

  (** SizeLimiter.cpp:35-39. *)
  Definition sl_deallocate (W : Type) (P : Parent W) (_ : Z) (ptr size : Z) (sw : Z * W)
    : outcome (Z * W) unit :=
    let '(total, w) := sw in
    let total1 := w64 (total - size) in
    omap (pair total1) (fun u => u) (p_dealloc P ptr size w).

  Definition SizeLimiter : Strat :=
    mkStrat Z sl_init sl_allocate sl_deallocate no_release no_coalesce.
End SizeLimiter.

(** ** MonotonicAllocationStrategy
    (src/umpire/strategy/MonotonicAllocationStrategy.cpp) *)
Record mono : Type := mkMono { mo_block : Z; mo_size : Z }.

Section Monotonic.
  Context (capacity : Z).

  (** MonotonicAllocationStrategy.cpp:16-24. *)
  Definition mo_init (W : Type) (P : Parent W) (w : W) : outcome W mono :=
    omap (fun w' => w') (fun b => mkMono b 0) (p_alloc P capacity w).

  (** MonotonicAllocationStrategy.cpp:31-44.  [m_size] is advanced before the
      check and not restored when it fails. *)
  Definition mo_allocate (W : Type) (P : Parent W) (bytes : Z) (sw : mono * W)
    : outcome (mono * W) Z :=
    let '(m, w) := sw in
    let ret := w64 (mo_block m + mo_size m) in
    let m1 := mkMono (mo_block m) (w64 (mo_size m + bytes)) in
    if capacity <? mo_size m1
    then Throw (m1, w) RuntimeError
    else Ok (m1, w) ret.

  (** MonotonicAllocationStrategy.cpp:46-48: nothing. *)
  Definition mo_deallocate (W : Type) (P : Parent W) (_ : Z) (ptr size : Z) (sw : mono * W)
    : outcome (mono * W) unit := Ok sw tt.

  (** MonotonicAllocationStrategy.cpp:50-60. *)
  Definition mo_current_size (m : mono) : Z := mo_size m.
  Definition mo_high_watermark : Z := capacity.

  (** MonotonicAllocationStrategy.cpp:26-29, the destructor. *)
  Definition mo_destroy (W : Type) (P : Parent W) (sw : mono * W) : outcome W unit :=
    p_dealloc P (mo_block (fst sw)) capacity (snd sw).

  Definition Monotonic : Strat :=
    mkStrat mono mo_init mo_allocate mo_deallocate no_release no_coalesce.
End Monotonic.

(** ** SlotPool (src/umpire/strategy/SlotPool.cpp)

    A slot is (pointer, length); the length is an [int64_t]: 0 never used, [n > 0]
    free, [-n] in use. *)
Definition slot : Type := (Z * Z)%type.

Section SlotPool.
  Context (nslots : nat).

  (** SlotPool.cpp:16-32. *)
  Definition sp_init (W : Type) (P : Parent W) (w : W) : outcome W (list slot) :=
    Ok w (repeat (0, 0) nslots).

  (** SlotPool.cpp:50 [static_cast<int64_t>(bytes)]. *)
  Definition to_int64 (n : Z) : Z := if n <? 2 ^ 63 then n else n - M64.

  (** The loop of SlotPool.cpp:57-68 from slot [l] on; [pre] are the slots already
      passed (in reverse).  A slot whose parent allocation throws keeps the negative length
      and a null pointer. *)
  Fixpoint sp_scan (W : Type) (P : Parent W) (n : Z) (pre l : list slot) (w : W)
    : outcome (list slot * W) Z :=
    match l with
    | [] => Ok (rev pre, w) 0
    | (ptr, len) :: t =>
        if len =? n then Ok (rev pre ++ (ptr, - len) :: t, w) ptr
        else if len =? 0 then
          match p_alloc P n w with
          | Ok w' p => Ok (rev pre ++ (p, - n) :: t, w') p
          | Throw w' e => Throw (rev pre ++ (ptr, - n) :: t, w') e
          | UB => UB
          | Abort => Abort
          | NoFuel => NoFuel
          end
        else sp_scan W P n ((ptr, len) :: pre) t w
    end.

  (** SlotPool.cpp:48-72. *)
  Definition sp_allocate (W : Type) (P : Parent W) (bytes : Z) (sw : list slot * W)
    : outcome (list slot * W) Z :=
    let n := to_int64 bytes in
    if n <? 0 then Throw sw RuntimeError
    else sp_scan W P n [] (fst sw) (snd sw).

  Fixpoint sp_flip (ptr : Z) (l : list slot) : list slot :=
    match l with
    | [] => []
    | (p, len) :: t => if p =? ptr then (p, - len) :: t else (p, len) :: sp_flip ptr t
    end.

  (** SlotPool.cpp:74-84.  An unknown pointer is ignored. *)
  Definition sp_deallocate (W : Type) (P : Parent W) (_ : Z) (ptr size : Z) (sw : list slot * W)
    : outcome (list slot * W) unit :=
    Ok (sp_flip ptr (fst sw), snd sw) tt.

  (** SlotPool.cpp:34-46, the destructor: the length is passed as a [size_t]. *)
  Fixpoint sp_destroy (W : Type) (P : Parent W) (l : list slot) (w : W) : outcome W unit :=
    match l with
    | [] => Ok w tt
    | (p, len) :: t =>
        if p =? 0 then sp_destroy W P t w
        else let* (w', u) := p_dealloc P p (w64 len) w in sp_destroy W P t w'
    end.

  Definition SlotPool : Strat :=
    mkStrat (list slot) sp_init sp_allocate sp_deallocate no_release no_coalesce.
End SlotPool.

(** ** AlignedAllocator (src/umpire/strategy/AlignedAllocator.cpp)

    State: the header words written below the returned pointers, as a map from the
    returned pointer to the word stored 8 bytes below it.  Simplification: the word is kept
    apart from the other memory contents; [al_header_safe] (WrapFacts.v) shows that the bytes of
    a live header lie inside the parent's allocation and outside every
    region handed to a client. *)
Section AlignedAllocator.
  Context (A : Z).

  Definition al_overhead : Z := 8 + A - 1.

  Definition al_init (W : Type) (P : Parent W) (w : W) : outcome W (fmap Z) := Ok w fempty.

  (** AlignedAllocator.cpp:31-43. *)
  Definition al_allocate (W : Type) (P : Parent W) (bytes : Z) (sw : fmap Z * W)
    : outcome (fmap Z * W) Z :=
    let '(hdr, w) := sw in
    let total := w64 (bytes + al_overhead) in
    match p_alloc P total w with
    | Ok w' ptr =>
        let buf := Z.land (w64 (ptr + al_overhead)) (align_mask A) in
        Ok (fset hdr buf ptr, w') buf
    | Throw w' e => Throw (hdr, w') e
    | UB => UB
    | Abort => Abort
    | NoFuel => NoFuel
    end.

  (** AlignedAllocator.cpp:45-54.  Reading a header that was never written is
      undefined. *)
  Definition al_deallocate (W : Type) (P : Parent W) (_ : Z) (ptr size : Z) (sw : fmap Z * W)
    : outcome (fmap Z * W) unit :=
    let '(hdr, w) := sw in
    match hdr ptr with
    | None => UB
    | Some base =>
        omap (pair (fdel hdr ptr)) (fun u => u) (p_dealloc P base (w64 (size + al_overhead)) w)
    end.

  Definition AlignedAllocator : Strat :=
    mkStrat (fmap Z) al_init al_allocate al_deallocate no_release no_coalesce.
End AlignedAllocator.

(** ** Pass-through strategies

    NamedAllocationStrategy.cpp:20-28 and ThreadSafeAllocator.cpp:23-31 hand every
    request to the parent (the mutex of ThreadSafeAllocator is modelled in
    ThreadModel.v). *)
Definition pt_init (W : Type) (P : Parent W) (w : W) : outcome W unit := Ok w tt.
Definition pt_allocate (W : Type) (P : Parent W) (bytes : Z) (sw : unit * W)
  : outcome (unit * W) Z :=
  omap (pair tt) (fun p => p) (p_alloc P bytes (snd sw)).
Definition pt_deallocate (W : Type) (P : Parent W) (_ : Z) (ptr size : Z) (sw : unit * W)
  : outcome (unit * W) unit :=
  omap (pair tt) (fun u => u) (p_dealloc P ptr size (snd sw)).
Definition PassThrough : Strat :=
  mkStrat unit pt_init pt_allocate pt_deallocate no_release no_coalesce.

(** ** Strategies that apply an operation to what the parent returned

    AllocationAdvisor.cpp:45-56, AllocationPrefetcher.cpp:26-38, NumaPolicy.cpp:47-61: the parent
    allocates, then an operation on the new memory (advice, prefetch, page migration) runs,
    which may throw.  The operation is external; [fails k p n] says whether its [k]-th use
    throws.  State: the number of uses.  When it throws, the parent's allocation is not
    returned. *)
Section Advised.
  Context (fails : nat -> Z -> Z -> bool).

  Definition ad_init (W : Type) (P : Parent W) (w : W) : outcome W nat := Ok w 0%nat.

  Definition ad_allocate (W : Type) (P : Parent W) (bytes : Z) (sw : nat * W)
    : outcome (nat * W) Z :=
    let '(k, w) := sw in
    match p_alloc P bytes w with
    | Ok w' p => if fails k p bytes then Throw (S k, w') RuntimeError else Ok (S k, w') p
    | Throw w' e => Throw (k, w') e
    | UB => UB
    | Abort => Abort
    | NoFuel => NoFuel
    end.

  Definition ad_deallocate (W : Type) (P : Parent W) (_ : Z) (ptr size : Z) (sw : nat * W)
    : outcome (nat * W) unit :=
    omap (pair (fst sw)) (fun u => u) (p_dealloc P ptr size (snd sw)).

  Definition Advised : Strat :=
    mkStrat nat ad_init ad_allocate ad_deallocate no_release no_coalesce.
End Advised.
