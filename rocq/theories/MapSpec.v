(** Specification vocabulary for the pointer map and the allocation map, and the contract expected
    of a Judy array. *)
From Verif Require Import Base MapModel.

(** ** Finite maps from addresses *)

Definition dom {V : Type} (m : fmap V) (k : Z) : Prop := m k <> None.

(** [l] is a finite domain. *)
Definition keys_of {V : Type} (m : fmap V) (l : list Z) : Prop :=
  NoDup l /\ forall k, In k l <-> dom m k.

Fixpoint ascending (l : list Z) : Prop :=
  match l with
  | [] => True
  | x :: t => (forall y, In y t -> x < y) /\ ascending t
  end.

(** Bounds: [None] is no bound. *)
Definition gt_opt (lo : option Z) (x : Z) : Prop := match lo with Some a => a < x | None => True end.
Definition lt_opt (hi : option Z) (x : Z) : Prop := match hi with Some a => x < a | None => True end.

(** [k] is the least key above [lo] / the greatest below [hi]. *)
Definition least_above {V} (m : fmap V) (lo : option Z) (k : Z) (v : V) : Prop :=
  m k = Some v /\ gt_opt lo k /\ forall x, dom m x -> gt_opt lo x -> k <= x.
Definition greatest_below {V} (m : fmap V) (hi : option Z) (k : Z) (v : V) : Prop :=
  m k = Some v /\ lt_opt hi k /\ forall x, dom m x -> lt_opt hi x -> x <= k.

(** ** What MemoryMap needs of a Judy array

    [jrel j m c]: the array holds [m] and its cursor is [c]; [jloc j l k]: [l] is the cell of
    [k].  Going backwards is only required to work while the array is [jplain], which is
    kept as long as the keys present are [sparse]. *)
Inductive cursor : Type :=
| CTop               (* not positioned *)
| CPos (k : Z)       (* at the cell of [k] *)
| CGap (k : Z)       (* where [k] would be: only [judy_nxt] makes sense there *)
| CLost.             (* after a deletion *)

Definition above (c : cursor) : option Z := match c with CPos k | CGap k => Some k | _ => None end.

Definition addr_ok (k : Z) : Prop := 0 <= k < M64.

Record JudySpec {V : Type} (J : Judy V) (sparse : (Z -> Prop) -> Prop)
  (jrel : j_ty J -> fmap V -> cursor -> Prop) (jloc : j_ty J -> j_loc J -> Z -> Prop) (jplain : j_ty J -> Prop)
  : Prop := {
  js_sparse : forall P Q : Z -> Prop, (forall x, Q x -> P x) -> sparse P -> sparse Q;
  js_ext : forall j m m' c, (forall k, m k = m' k) -> jrel j m c -> jrel j m' c;
  js_dom : forall j m c k, jrel j m c -> dom m k -> addr_ok k;
  js_open : jrel (j_open J) fempty CTop /\ jplain (j_open J);
  js_key : forall j m, jrel j m CTop -> j_key J j 0 = 0;
  (* a cell *)
  js_read : forall j m c l k, jrel j m c -> jloc j l k -> dom m k /\ j_read J j l = m k;
  js_write : forall j m c l k v, jrel j m c -> jloc j l k ->
    jrel (j_write J j l v) (fset m k v) c /\ jloc (j_write J j l v) l k /\
    (jplain j -> jplain (j_write J j l v));
  (* judy_cell *)
  js_cell : forall j m c k, jrel j m c -> addr_ok k ->
    let '(j', l) := j_cell J k j in
    match m k with
    | Some _ => jrel j' m (CPos k) /\ jloc j' l k
    | None => j_read J j' l = None /\
              forall v, jrel (j_write J j' l v) (fset m k v) (CPos k) /\ jloc (j_write J j' l v) l k
    end /\
    (jplain j -> sparse (fun x => x = k \/ dom m x) ->
       jplain j' /\ forall v, jplain (j_write J j' l v));
  (* judy_slot: the cell returned for a missing key, if any, is empty *)
  js_slot : forall j m c k, jrel j m c -> addr_ok k ->
    let '(j', ol) := j_slot J k j in
    jrel j' m (match ol with Some _ => CPos k | None => CGap k end) /\ (jplain j -> jplain j') /\
    match m k, ol with
    | Some _, Some l => jloc j' l k
    | Some _, None => False
    | None, Some l => j_read J j' l = None
    | None, None => True
    end;
  (* judy_strt *)
  js_strt : forall j m c k, jrel j m c -> addr_ok k ->
    let '(j', ol) := j_strt J k j in
    (jplain j -> jplain j') /\
    match ol with
    | None => jrel j' m CTop /\ forall x, dom m x -> x < k
    | Some l =>
        (m k = None /\ j_read J j' l = None /\ jrel j' m (CPos k) /\ forall b, j_key J j' b = k) \/
        exists k' v, least_above m (Some (k - 1)) k' v /\ jrel j' m (CPos k') /\ jloc j' l k' /\ forall b, j_key J j' b = k'
    end;
  js_first : forall j m c, jrel j m c ->
    let '(j', ol) := j_first J j in
    (jplain j -> jplain j') /\
    match ol with
    | None => jrel j' m CTop /\ forall x, ~ dom m x
    | Some l => exists k v, least_above m None k v /\ jrel j' m (CPos k) /\ jloc j' l k /\ forall b, j_key J j' b = k
    end;
  js_nxt : forall j m c, jrel j m c -> c <> CLost ->
    let '(j', ol) := j_nxt J j in
    (jplain j -> jplain j') /\
    match ol with
    | None => jrel j' m CTop /\ forall x, dom m x -> ~ gt_opt (above c) x
    | Some l => exists k v, least_above m (above c) k v /\ jrel j' m (CPos k) /\ jloc j' l k /\ forall b, j_key J j' b = k
    end;
  js_prv : forall j m c, jrel j m c -> c <> CLost -> (forall k, c <> CGap k) -> jplain j ->
    let '(j', ol) := j_prv J j in
    jplain j' /\
    match ol with
    | None => jrel j' m CTop /\ forall x, dom m x -> ~ lt_opt (above c) x
    | Some l => exists k v, greatest_below m (above c) k v /\ jrel j' m (CPos k) /\ jloc j' l k /\ forall b, j_key J j' b = k
    end;
  js_prv_any : forall j m c, jrel j m c -> (forall k, c <> CGap k) -> jrel (fst (j_prv J j)) m CLost;
  js_del : forall j m k, jrel j m (CPos k) -> dom m k ->
    jrel (j_del J j) (fdel m k) CLost /\ (jplain j -> jplain (j_del J j))
}.

(** No more than 56 of the keys share all their bytes but the last: what the Judy array of judy.c
    needs to go backwards. *)
Definition sparse56 (P : Z -> Prop) : Prop :=
  forall w l, NoDup l -> (forall x, In x l -> P x /\ x / 256 = w) -> (length l <= 56)%nat.

(** ** Histories of a MemoryMap and its iterators

    [mhist J sparse m mm its]: [mm] was reached by calls after which its contents must be [m];
    [its] are the iterators positioned so far, by address. *)
Section Hist.
  Context {V : Type} (J : Judy V).

  Inductive mcall : Type :=
  | MInsert (k : Z) (v : V)
  | MFind (k : Z)
  | MFindOrBefore (k : Z)
  | MErase (k : Z)
  | MClear (fuel : nat)
  | MBegin (a : Z)
  | MNext (a : Z)
  | MCopy (a b : Z).            (* an iterator copy-constructed at [b] *)

  Record mstate : Type := mkMS { ms_spec : fmap V; ms_map : mmap J; ms_its : fmap (@miter V) }.

  Definition ms_init : mstate := mkMS fempty (mm_init J) fempty.

  (** One call.  What the contents must be afterwards is given by the specification side alone. *)
  Inductive mstep : mcall -> mstate -> mstate -> Prop :=
  | ms_insert k v m mm its mm' kv b : addr_ok k ->
      mm_insert J k v mm = (mm', kv, b) ->
      mstep (MInsert k v) (mkMS m mm its) (mkMS (match m k with Some _ => m | None => fset m k v end) mm' its)
  | ms_find k m mm its mm' kv : addr_ok k ->
      mm_find J k mm = (mm', kv) -> mstep (MFind k) (mkMS m mm its) (mkMS m mm' its)
  | ms_find_or_before k m mm its mm' kv : addr_ok k ->
      mm_find_or_before J k mm = (mm', kv) -> mstep (MFindOrBefore k) (mkMS m mm its) (mkMS m mm' its)
  | ms_erase k m mm its mm' : addr_ok k ->
      mm_erase J k mm = Ok mm' tt -> mstep (MErase k) (mkMS m mm its) (mkMS (fdel m k) mm' its)
  | ms_erase_throw k m mm its mm' e : addr_ok k ->
      mm_erase J k mm = Throw mm' e -> mstep (MErase k) (mkMS m mm its) (mkMS m mm' its)
  | ms_clear fuel m mm its mm' :
      mm_clear J fuel mm = Ok mm' tt -> mstep (MClear fuel) (mkMS m mm its) (mkMS fempty mm' its)
  | ms_begin a m mm its mm' it : a <> 0 ->
      mi_begin J a mm = (mm', it) -> mstep (MBegin a) (mkMS m mm its) (mkMS m mm' (fset its a it))
  | ms_next a m mm its mm' it it' : its a = Some it -> it_key it <> 0 ->
      mi_next J it mm = (mm', it') -> mstep (MNext a) (mkMS m mm its) (mkMS m mm' (fset its a it'))
  | ms_copy a b m mm its it : b <> 0 -> its a = Some it -> mm_oper mm <> b ->
      mstep (MCopy a b) (mkMS m mm its) (mkMS m mm (fset its b (mkIt b (it_key it) (it_val it)))).

  (** The states reached while the keys present always satisfy [ok]. *)
  Inductive mhist (ok : (Z -> Prop) -> Prop) : mstate -> Prop :=
  | mh_init : mhist ok ms_init
  | mh_step s c s' : mhist ok s -> mstep c s s' -> ok (dom (ms_spec s')) -> mhist ok s'.
End Hist.

(** ** Histories of an AllocationMap

    The specification is the list of live registrations, newest first. *)
Definition registry : Type := list (Z * arec).

(** The records at [k], newest first. *)
Definition records_at (k : Z) (g : registry) : list arec :=
  map snd (filter (fun x => fst x =? k) g).

Fixpoint drop_newest (k : Z) (g : registry) : registry :=
  match g with
  | [] => []
  | x :: t => if fst x =? k then t else x :: drop_newest k t
  end.

Definition registered (g : registry) (k : Z) : Prop := In k (map fst g).

(** The addresses that belong to a record: an empty allocation has its own address only. *)
Definition covers (r : arec) (x : Z) : Prop := r_ptr r <= x < r_ptr r + r_size r \/ x = r_ptr r.

(** Registrations that do not overlap, filed under their own address. *)
Definition tidy (g : registry) : Prop :=
  (forall k r, In (k, r) g -> k = r_ptr r /\ 0 <= r_size r /\ r_ptr r + r_size r < M64) /\
  pairwise (fun a b => forall x, ~ (covers (snd a) x /\ covers (snd b) x)) g.

Section AHist.
  Context (J : Judy (list arec)).

  Inductive acall : Type :=
  | AInsert (k : Z) (r : arec)
  | ARemove (k : Z)
  | AFind (p : Z)
  | AContains (p : Z)
  | AClear (fuel : nat)
  | ARecords (fuel : nat) (addr : Z)
  | ARecordsOf (fuel : nat) (addr addr' s : Z).

  (** The object after a call that returned or threw. *)
  Definition after {A : Type} (o : outcome (amap J) A) (a' : amap J) : Prop :=
    match o with Ok w _ => w = a' | Throw w _ => w = a' | _ => False end.

  Inductive astep : acall -> registry * amap J -> registry * amap J -> Prop :=
  | as_insert k r g a a' : addr_ok k -> after (am_insert J k r a) a' -> astep (AInsert k r) (g, a) ((k, r) :: g, a')
  | as_remove k g a a' : addr_ok k -> after (am_remove J k a) a' -> astep (ARemove k) (g, a) (drop_newest k g, a')
  | as_find p g a a' : addr_ok p -> after (am_find J p a) a' -> astep (AFind p) (g, a) (g, a')
  | as_contains p g a a' : addr_ok p -> after (am_contains J p a) a' -> astep (AContains p) (g, a) (g, a')
  | as_clear fuel g a a' : after (am_clear J fuel a) a' -> astep (AClear fuel) (g, a) ([], a')
  | as_records fuel addr g a a' : addr <> 0 -> after (am_records J fuel addr a) a' -> astep (ARecords fuel addr) (g, a) (g, a')
  | as_records_of fuel addr addr' s g a a' : addr <> 0 -> addr' <> 0 -> addr <> addr' ->
      after (am_records_of J fuel addr addr' s a) a' -> astep (ARecordsOf fuel addr addr' s) (g, a) (g, a').

  Inductive ahist (ok : (Z -> Prop) -> Prop) : registry * amap J -> Prop :=
  | ah_init : ahist ok ([], am_init J)
  | ah_step s c s' : ahist ok s -> astep c s s' -> ok (registered (fst s')) -> ahist ok s'.
End AHist.
