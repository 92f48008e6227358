(** Which collections of allocators and which requests the composition theorem is about,
    and what it claims. *)
From Verif Require Import Base AlignedFacts HeapModel StratModel WrapModel QuickPoolModel QuickPoolMain MixedPoolModel DynPoolModel DynPoolMain GlobalModel.

(** Largest request for which a strategy keeps its contract, given the same number for its
    parent; [None]: not to be used as a parent. *)
Definition kind_lim (k : kind) (limP : Z) : option Z :=
  match k with
  | KQuick cfg _ => Some (limP - 2 * cf_align cfg)
  | KSizeLimiter _ => Some limP
  | KAligned a => Some (limP - (8 + a - 1))
  | KPassThrough => Some limP
  | KAdvised _ => Some limP
  | KMonotonic _ => None
  | KSlotPool _ => None
  | KFixed obj _ _ => Some obj
  | KMixed cfg _ _ => Some (limP - 2 * cf_align (mc_quick cfg))
  | KDynamic _ => None
  | KDynamicKeep _ _ align => Some (limP - 2 * align)
  end.

(** Legal constructor arguments. *)
Definition kind_ok (k : kind) (limP : Z) : Prop :=
  match k with
  | KQuick cfg _ => qcfg_ok cfg limP
  | KAligned a => pow2_align a /\ 16 <= a
  | KMonotonic capacity => 0 < capacity <= limP
  | KFixed obj per _ => 0 < obj /\ (0 < per)%nat /\ obj * Z.of_nat per <= limP
  | KMixed cfg _ _ =>
      0 < mc_small cfg /\ 2 <= mc_mult cfg /\ mc_large cfg * mc_mult cfg < M64 /\ mc_max_initial cfg <= limP /\
      qcfg_ok (mc_quick cfg) limP
  | KDynamic cfg => dcfg_ok cfg limP
  | KDynamicKeep first next align => dcfg_ok (mkDcfg first next align dh_percent_0) limP
  | _ => True
  end.

Fixpoint climit (C : list nodecfg) (i : nat) : option Z :=
  match C with
  | [] => if Nat.eqb i 0 then Some (M64 - 1) else None
  | c :: C' =>
      if Nat.eqb i (S (length C')) then
        match climit C' (nc_parent c) with
        | Some limP => kind_lim (nc_kind c) limP
        | None => None
        end
      else climit C' i
  end.

Definition node_ok (C : list nodecfg) (c : nodecfg) : Prop :=
  exists limP, climit C (nc_parent c) = Some limP /\ kind_ok (nc_kind c) limP.

(** Requests the program may make: at most the strategy's limit; for a monotonic strategy,
    as long as its byte counter does not wrap around. *)
Definition kind_guard (k : kind) (limP : Z) : st_ty (strat_of k) -> Z -> Prop :=
  match k return st_ty (strat_of k) -> Z -> Prop with
  | KMonotonic _ => fun m n => 0 < n /\ mo_size m + n < M64
  | KSlotPool _ => fun _ n => 0 < n <= limP /\ n < M64
  | KDynamic cfg => fun _ n => 0 < n <= limP - 2 * dc_align cfg
  | k' => fun _ n => match kind_lim k' limP with Some lim => 0 < n <= lim | None => False end
  end.

Fixpoint user_guard (C : list nodecfg) (i : nat) (n : Z) : gworld C -> Prop :=
  match C return gworld C -> Prop with
  | [] => fun _ => i = 0%nat /\ 0 < n < M64
  | c :: C' => fun nw =>
      if Nat.eqb i (S (length C')) then
        match climit C' (nc_parent c) with
        | Some limP => kind_guard (nc_kind c) limP (snd (fst nw)) n
        | None => False
        end
      else user_guard C' i n (snd nw)
  end.

(** What allocator [i] is; [None]: the resource. *)
Definition kind_at (C : list nodecfg) (i : nat) : option kind :=
  match i with O => None | S j => option_map nc_kind (nth_error (rev C) j) end.

(** [deallocate] may coalesce the pool and throw when that fails. *)
Definition coalescing (k : option kind) : Prop :=
  match k with Some (KDynamic _) => True | _ => False end.

(** [X i]: the allocations the program holds from allocator [i]. *)
Definition holdings : Type := nat -> list region.
Definition hold (X : holdings) (i : nat) (l : list region) : holdings :=
  fun j => if Nat.eqb j i then l else X j.

(** What has happened so far: the allocators created, their joint state, and what the
    program holds.  A call that throws leaves the program with what it had, except that a
    deallocation that throws has given the memory back; a null result
    (SlotPool with no usable slot) is not an allocation. *)
Inductive ghist : forall C : list nodecfg, gworld C -> holdings -> Prop :=
| gh_start : forall oracle, ghist [] (stats0, mkHeap oracle 0 [] []) (fun _ => [])
| gh_create : forall C w X c w' v,
    ghist C w X -> node_ok C c -> gcreate C c w = Ok w' v -> ghist (c :: C) v X
| gh_create_throw : forall C w X c w' e,
    ghist C w X -> node_ok C c -> gcreate C c w = Throw w' e -> ghist C w' X
| gh_alloc : forall C w X i n w' p,
    ghist C w X -> user_guard C i n w -> p_alloc (guser C i) n w = Ok w' p -> p <> 0 ->
    ghist C w' (hold X i ((p, n) :: X i))
| gh_alloc_null : forall C w X i n w',
    ghist C w X -> user_guard C i n w -> p_alloc (guser C i) n w = Ok w' 0 -> ghist C w' X
| gh_alloc_throw : forall C w X i n w' e,
    ghist C w X -> user_guard C i n w -> p_alloc (guser C i) n w = Throw w' e -> ghist C w' X
| gh_free : forall C w X i p n l1 l2 w',
    ghist C w X -> X i = l1 ++ (p, n) :: l2 -> p_dealloc (guser C i) p n w = Ok w' tt ->
    ghist C w' (hold X i (l1 ++ l2))
| gh_free_throw : forall C w X i p n l1 l2 w' e,
    ghist C w X -> X i = l1 ++ (p, n) :: l2 -> p_dealloc (guser C i) p n w = Throw w' e ->
    ghist C w' (hold X i (l1 ++ l2))
| gh_release : forall C w X i w',
    ghist C w X -> grelease C i w = Ok w' tt -> ghist C w' X
| gh_release_throw : forall C w X i w' e,
    ghist C w X -> grelease C i w = Throw w' e -> ghist C w' X
| gh_coalesce : forall C w X i w',
    ghist C w X -> gcoalesce C i w = Ok w' tt -> ghist C w' X
| gh_coalesce_throw : forall C w X i w' e,
    ghist C w X -> gcoalesce C i w = Throw w' e -> ghist C w' X.

(** Everything the program holds, from all [n] allocators. *)
Definition all_held (X : holdings) (n : nat) : list region := flat_map X (seq 0 n).
