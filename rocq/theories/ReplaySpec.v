(** What it means that a replay repeats a program, independently of how the tool works. *)
From Coq Require Import String.
From Verif Require Import Base ReplayModel.
Local Open Scope string_scope.
Local Open Scope Z_scope.

(** Programs are lists of calls, newest first. *)

Definition is_creation (c : pcall) : bool :=
  match c with PMakeRes _ _ | PMake _ _ _ _ _ _ => true | _ => false end.

Definition creates (c : pcall) (r : Z) : bool :=
  match c with PMakeRes r' _ | PMake r' _ _ _ _ _ => r =? r' | _ => false end.

Fixpoint ncreated (H : list pcall) : Z :=
  match H with nil => 0 | c :: H => (if is_creation c then 1 else 0) + ncreated H end.

(** The allocator at address [r] is number [made H r]. *)
Fixpoint made (H : list pcall) (r : Z) : option Z :=
  match H with nil => None | c :: H => if creates c r then Some (ncreated H) else made H r end.

(** Number and class of the allocator last created under a name. *)
Fixpoint made_name (H : list pcall) (name : string) : option (Z * string) :=
  match H with
  | nil => None
  | PMakeRes _ n :: H => if String.eqb name n then Some (ncreated H, EmptyString) else made_name H name
  | PMake _ n cls _ _ _ :: H => if String.eqb name n then Some (ncreated H, cls) else made_name H name
  | _ :: H => made_name H name
  end.

Definition is_pool (cls : string) : Prop := cls = "QuickPool" \/ cls = "DynamicPoolList".

(** The first allocator is a memory resource. *)
Fixpoint starts_with_resource (H : list pcall) : Prop :=
  match H with
  | nil => False
  | c :: H => match c with
              | PMakeRes _ _ => ncreated H = 0 \/ starts_with_resource H
              | _ => starts_with_resource H
              end
  end.

(** The allocation at [p] of allocator [r] is live: it was returned, and not given back since. *)
Definition produces (c : pcall) (r p : Z) : bool :=
  match c with
  | PAlloc r' _ q | PNamed r' _ _ q => (r =? r') && (p =? q)
  | PRealloc r' _ _ _ (Some q) => (r =? r') && (p =? q)
  | _ => false
  end.
Definition consumes (c : pcall) (r p : Z) : bool :=
  match c with
  | PFree r' p' => (r =? r') && (p =? p')
  | PRealloc r' p' _ _ (Some _) => (r =? r') && (p =? p')
  | _ => false
  end.
Fixpoint holds (H : list pcall) (r p : Z) : bool :=
  match H with
  | nil => false
  | c :: H => if produces c r p then true else if consumes c r p then false else holds H r p
  end.

(** What may be recorded meanwhile: the calls of [reallocate] itself. *)
Definition inner_ok (c : pcall) : Prop :=
  match c with PAlloc _ _ _ | PFree _ _ | PCopy | PMove | PRegister | PDeregister | PMeta _ => True | _ => False end.

Definition short (s : string) : Prop := (Z.of_nat (String.length s) < 512)%Z.

(** Numbers of 64 bits; of an [int] that is not negative. *)
Definition num (a : arg) : Prop := match a with AN z => 0 <= z < 2 ^ 64 | AS _ => False end.
Definition int (a : arg) : Prop := match a with AN z => 0 <= z < 2 ^ 31 | AS _ => False end.
Definition str (a : arg) : Prop := match a with AS s => short s | AN _ => False end.

(** [params cls args args']: [args] are arguments of the class that the tool replays; the allocator is
    replayed with the arguments [args'], which are [args] without the heuristic. *)
Inductive params : string -> list arg -> list arg -> Prop :=
| pa_none cls : In cls ["AllocationPrefetcher"; "NamedAllocationStrategy"; "ThreadSafeAllocator"] -> params cls [] []
| pa_numa n : int n -> params "NumaPolicy" [n] [n]
| pa_one cls n : In cls ["MonotonicAllocationStrategy"; "SlotPool"; "SizeLimiter"] -> num n -> params cls [n] [n]
| pa_fixed1 n : num n -> params "FixedPool" [n] [n]
| pa_fixed2 n m : num n -> num m -> params "FixedPool" [n; m] [n; m]
| pa_pool cls l : is_pool cls -> (List.length l <= 3)%nat -> Forall num l -> (forall a, nth_error l 2 = Some a -> int a) ->
    params cls l l
| pa_pool_h cls l h : is_pool cls -> List.length l = 3%nat -> Forall num l -> (forall a, nth_error l 2 = Some a -> int a) ->
    params cls (l ++ [AS h]) l
| pa_mixed l : (List.length l <= 7)%nat -> Forall num l -> params "MixedPool" l l
| pa_mixed_h l h : List.length l = 7%nat -> Forall num l -> params "MixedPool" (l ++ [AS h]) l
| pa_advice a : str a -> params "AllocationAdvisor" [a] [a]
| pa_advice_id a d : str a -> int d -> params "AllocationAdvisor" [a; d] [a; d]
| pa_advice_acc a b : str a -> str b -> params "AllocationAdvisor" [a; b] [a; b]
| pa_advice_all a b d : str a -> str b -> int d -> params "AllocationAdvisor" [a; b; d] [a; b; d].

(** The call [c] may follow [H]: allocators exist and are never destroyed, an allocation is at an
    address at which its allocator has none, [reallocate] gets a live allocation or null and succeeds;
    the arguments of allocators are such as the tool replays; no names of 512 characters or more and fewer than 256 K allocators; no [memset], no named
    allocations, no pools named "..._base". *)
Definition may_follow (H : list pcall) (c : pcall) : Prop :=
  match c with
  | PMakeRes r name => 0 < r /\ made H r = None /\ short name /\ ncreated H + 1 < 256 * 1024
  | PMake r name cls base _ args =>
      0 < r /\ made H r = None /\ short name /\ short base /\ (exists args', params cls args args') /\
      ncreated H + 1 < 256 * 1024
  | PAlloc r n q => made H r <> None /\ 0 < q /\ holds H r q = false
  | PFree r p => made H r <> None /\ 0 <= p
  | PRealloc r p n inner (Some q) =>
      made H r <> None /\ (p = 0 \/ 0 < p /\ holds H r p = true) /\ 0 < q /\ (q = p \/ holds H r q = false) /\
      Forall inner_ok inner
  | PRealloc _ _ _ _ None => False
  | PNamed _ _ _ _ | PMemset => False
  | PDefault r | PRelease r => made H r <> None
  | PCoalesce name =>
      (forall s, name <> s ++ "_base") /\ starts_with_resource H /\
      forall k cls, made_name H name = Some (k, cls) -> is_pool cls
  | PCopy | PMove | PRegister | PDeregister | PMeta _ => True
  end.

Fixpoint program (H : list pcall) : Prop :=
  match H with nil => True | c :: H => program H /\ may_follow H c end.

(** [mirrors H L f]: the calls [L] of the tool, with the answers they got, repeat the calls of the
    program [H]; [f r p] is where the live allocation at [p] of allocator [r] is in the replay. *)
Inductive mirrors : list pcall -> list (rcall * Z) -> (Z -> Z -> option Z) -> Prop :=
| mi_nil f : (forall r p, f r p = None) -> mirrors [] [] f
| mi_res H L f r name a : mirrors H L f ->
    mirrors (PMakeRes r name :: H) ((RCreate (ncreated H) EmptyString name EmptyString true [], a) :: L) f
| mi_make H L f r name cls base tracked args args' a : mirrors H L f -> params cls args args' ->
    mirrors (PMake r name cls base tracked args :: H) ((RCreate (ncreated H) cls name base tracked args', a) :: L) f
| mi_alloc H L f f' r n q k q' : mirrors H L f -> made H r = Some k ->
    (forall r' p, f' r' p = if (r' =? r) && (p =? q) then Some q' else f r' p) ->
    mirrors (PAlloc r n q :: H) ((RAlloc k n, q') :: L) f'
| mi_free H L f f' r p k p' a : mirrors H L f -> made H r = Some k -> f r p = Some p' ->
    (forall r' x, f' r' x = if (r' =? r) && (x =? p) then None else f r' x) ->
    mirrors (PFree r p :: H) ((RFree k p', a) :: L) f'
| mi_stray H L f r p : mirrors H L f -> f r p = None -> mirrors (PFree r p :: H) L f
| mi_realloc H L f f' r p n inner q k p' q' : mirrors H L f -> made H r = Some k ->
    (p = 0 /\ p' = 0 \/ p <> 0 /\ f r p = Some p') ->
    (forall r' x, f' r' x = if (r' =? r) && (x =? q) then Some q'
                            else if (r' =? r) && (x =? p) then None else f r' x) ->
    mirrors (PRealloc r p n inner (Some q) :: H) ((RRealloc k p' n, q') :: L) f'
| mi_default H L f r k a : mirrors H L f -> made H r = Some k ->
    mirrors (PDefault r :: H) ((RDefault k, a) :: L) f
| mi_release H L f r k a : mirrors H L f -> made H r = Some k ->
    mirrors (PRelease r :: H) ((RRelease k, a) :: L) f
| mi_coalesce H L f name k cls a : mirrors H L f -> made_name H name = Some (k, cls) ->
    mirrors (PCoalesce name :: H) ((RCoalesce k, a) :: L) f
| mi_coalesce_inner H L f name : mirrors H L f -> made_name H name = None ->
    mirrors (PCoalesce name :: H) L f
| mi_quiet H L f c : mirrors H L f ->
    match c with PCopy | PMove | PRegister | PDeregister | PMeta _ => True | _ => False end ->
    mirrors (c :: H) L f.

(** The library answers or throws. *)
Definition orderly {W} (lib : rcall -> W -> outcome W Z) : Prop :=
  forall c w, (exists w' a, lib c w = Ok w' a) \/ (exists w' e, lib c w = Throw w' e).

(** ** Histogram: the sizes of allocations made and freed, newest first *)
Inductive hop := HAlloc (n : Z) | HFree (n : Z).

Definition hrun1 (o : hop) (h : thisto) : thisto :=
  match o with HAlloc n => h_increment n h | HFree n => h_decrement n h end.
Fixpoint hrun (l : list hop) : thisto := match l with nil => h_zero | o :: l => hrun1 o (hrun l) end.

(** Live allocations of sizes from [lo] below [hi]. *)
Fixpoint in_class (lo hi : Z) (l : list hop) : Z :=
  match l with
  | nil => 0
  | HAlloc n :: l => (if (lo <=? n) && (n <? hi) then 1 else 0) + in_class lo hi l
  | HFree n :: l => in_class lo hi l - (if (lo <=? n) && (n <? hi) then 1 else 0)
  end.
(** The most there ever were at once. *)
Fixpoint most (lo hi : Z) (l : list hop) : Z :=
  match l with nil => 0 | o :: l' => Z.max (in_class lo hi l) (most lo hi l') end.

(** Every deallocation is of something allocated. *)
Fixpoint balanced (l : list hop) : Prop :=
  match l with
  | nil => True
  | HAlloc n :: l => balanced l /\ 0 < n < 2 ^ 64
  | HFree n :: l => balanced l /\ (0 < n < 2 ^ 64) /\ 0 < in_class n (n + 1) l
  end.

(** Allocations and deallocations in all, and the largest size allocated. *)
Fixpoint nallocs (l : list hop) : Z := match l with nil => 0 | HAlloc _ :: l => 1 + nallocs l | HFree _ :: l => nallocs l end.
Fixpoint nfrees (l : list hop) : Z := match l with nil => 0 | HFree _ :: l => 1 + nfrees l | HAlloc _ :: l => nfrees l end.
Fixpoint largest (l : list hop) : Z := match l with nil => 0 | HAlloc n :: l => Z.max n (largest l) | HFree _ :: l => largest l end.
