(** Histories of the whole system as the program sees it, and what it knows: the allocations it has
    made and not yet returned. *)
From Verif Require Import Base HeapModel StratModel QuickPoolModel GlobalModel GlobalSpec MapModel MapSpec SystemModel.

(** Allocators the program has access to: HOST and the strategies it created. *)
Definition usable (C : list nodecfg) (i : nat) : Prop := i = host_id \/ (4 <= i <= length C)%nat.

(** The allocation at address [p] is forgotten. *)
Fixpoint forget (p : Z) (g : list arec) : list arec :=
  match g with
  | [] => []
  | r :: t => if r_ptr r =? p then t else r :: forget p t
  end.

(** After a [deallocate] of [p] through allocator [i] that threw: an allocation of [i]'s at [p] is gone all
    the same. *)
Fixpoint gone (i : nat) (p : Z) (g : list arec) : list arec :=
  match g with
  | [] => []
  | r :: t => if (r_ptr r =? p) && (r_strat r =? Z.of_nat i) then t else r :: gone i p t
  end.

(** What the program reads off the allocators after a call: current size, high watermark and number of
    allocations of allocator [i], if it exists. *)
Definition snapshot : Type := nat -> option stats.
Definition snap (C : list nodecfg) (w : gworld C) : snapshot :=
  fun i => if Nat.leb i (length C)
           then Some (mkStats (current_size C i w) (high_watermark C i w) (allocation_count C i w)) else None.

Definition keyed (g : list arec) : Z -> Prop := fun x => exists r, In r g /\ r_ptr r = x.

(** Conditions on address sets that hold of smaller sets. *)
Definition monotone (ok : (Z -> Prop) -> Prop) : Prop :=
  ok (fun _ => False) /\ forall P Q : Z -> Prop, (forall x, Q x -> P x) -> ok P -> ok Q.

Section Hist.
  Context (J : Judy (list arec)).

  (** The state after a call that returned or threw. *)
  Definition left_by {C : list nodecfg} {A : Type} (o : outcome (sworld J C) A) (sw : sworld J C) : Prop :=
    match o with Ok s _ => s = sw | Throw s _ => s = sw | _ => False end.

  (** Calls that only look: lookup by pointer, size of an allocation, listings. *)
  Definition looks (a a' : amap J) : Prop :=
    (exists p, addr_ok p /\ (after J (am_find J p a) a' \/ after J (am_contains J p a) a')) \/
    (exists fuel addr, addr <> 0 /\ after J (am_records J fuel addr a) a') \/
    (exists fuel addr addr' s, addr <> 0 /\ addr' <> 0 /\ addr <> addr' /\ after J (am_records_of J fuel addr addr' s a) a').

  (** [shist ok C sw g q t]: the program created the allocators [C] in addition to those every program has,
      the state is [sw], the program's live allocations are [g], [q] are the allocators on top of which
      others were created or were tried to be created, and HOST once one of its allocations was resized by
      [realloc], and [t] is what could be read off the
      statistics after each call, newest first.  All addresses in use satisfy [ok] throughout. *)
  Inductive shist (ok : (Z -> Prop) -> Prop) :
    forall C : list nodecfg, sworld J (C ++ boot) -> list arec -> list nat -> list snapshot -> Prop :=
  | sh_start orc h1 v1 h2 v2 h3 (v3 : gworld boot) :
      gcreate [] (mkNode KPassThrough 0) (stats0, mkHeap orc 0 [] []) = Ok h1 v1 ->
      gcreate _ (mkNode KPassThrough 0) v1 = Ok h2 v2 ->
      gcreate _ (mkNode (KFixed 1 2048 2) null_id) v2 = Ok h3 v3 ->
      shist ok [] (v3, am_init J) [] [null_id; 0%nat] [snap boot v3]
  | sh_create C w a g q t c w' v :
      shist ok C (w, a) g q t -> node_ok (C ++ boot) c -> usable (C ++ boot) (nc_parent c) ->
      gcreate (C ++ boot) c w = Ok w' v ->
      shist ok (c :: C) (v, a) g (nc_parent c :: q) (snap (c :: C ++ boot) v :: t)
  | sh_create_throw C w a g q t c w' e :
      shist ok C (w, a) g q t -> node_ok (C ++ boot) c -> usable (C ++ boot) (nc_parent c) ->
      gcreate (C ++ boot) c w = Throw w' e ->
      shist ok C (w', a) g (nc_parent c :: q) (snap (C ++ boot) w' :: t)
  | sh_alloc C sw g q t i n nm sw' p :
      shist ok C sw g q t -> usable (C ++ boot) i -> n = 0 \/ user_guard (C ++ boot) i n (fst sw) ->
      sys_allocate J (C ++ boot) i n nm sw = Ok sw' p ->
      ok (keyed (mkRec p n (Z.of_nat i) nm :: g)) ->
      shist ok C sw' (mkRec p n (Z.of_nat i) nm :: g) q (snap (C ++ boot) (fst sw') :: t)
  | sh_alloc_throw C sw g q t i n nm sw' e :
      shist ok C sw g q t -> usable (C ++ boot) i -> n = 0 \/ user_guard (C ++ boot) i n (fst sw) ->
      sys_allocate J (C ++ boot) i n nm sw = Throw sw' e ->
      shist ok C sw' g q (snap (C ++ boot) (fst sw') :: t)
  | sh_free C sw g q t i p sw' :
      shist ok C sw g q t -> usable (C ++ boot) i -> addr_ok p ->
      sys_deallocate J (C ++ boot) i p sw = Ok sw' tt ->
      shist ok C sw' (forget p g) q (snap (C ++ boot) (fst sw') :: t)
  | sh_free_throw C sw g q t i p sw' e :
      shist ok C sw g q t -> usable (C ++ boot) i -> addr_ok p ->
      sys_deallocate J (C ++ boot) i p sw = Throw sw' e ->
      shist ok C sw' (gone i p g) q (snap (C ++ boot) (fst sw') :: t)
  | sh_rm_free C sw g q t p sw' :
      shist ok C sw g q t -> addr_ok p ->
      rm_deallocate J (C ++ boot) p sw = Ok sw' tt ->
      shist ok C sw' (forget p g) q (snap (C ++ boot) (fst sw') :: t)
  | sh_rm_free_throw C sw g q t p sw' e :
      shist ok C sw g q t -> addr_ok p ->
      rm_deallocate J (C ++ boot) p sw = Throw sw' e ->
      shist ok C sw' (forget p g) q (snap (C ++ boot) (fst sw') :: t)
  | sh_release C sw g q t i sw' :
      shist ok C sw g q t -> usable (C ++ boot) i -> left_by (sys_release J (C ++ boot) i sw) sw' ->
      shist ok C sw' g q (snap (C ++ boot) (fst sw') :: t)
  | sh_coalesce C sw g q t i sw' :
      shist ok C sw g q t -> usable (C ++ boot) i -> left_by (sys_coalesce J (C ++ boot) i sw) sw' ->
      shist ok C sw' g q (snap (C ++ boot) (fst sw') :: t)
  | sh_realloc C sw g q t r n sw' p :
      shist ok C sw g q t -> In r g -> r_strat r = Z.of_nat host_id -> r_size r <> 0 -> 0 < n < M64 ->
      sys_host_realloc J (C ++ boot) (r_ptr r) n sw = Ok sw' p ->
      ok (keyed (mkRec p n (Z.of_nat host_id) 0 :: forget (r_ptr r) g)) ->
      shist ok C sw' (mkRec p n (Z.of_nat host_id) 0 :: forget (r_ptr r) g) (host_id :: q) (snap (C ++ boot) (fst sw') :: t)
  | sh_look C w a g q t a' :
      shist ok C (w, a) g q t -> looks a a' -> shist ok C (w, a') g q t.
End Hist.

(** ** What the properties talk about *)

(** The live allocations made through allocator [i]. *)
Definition mine (i : nat) (g : list arec) : list arec := filter (fun r => r_strat r =? Z.of_nat i) g.
Definition bytes (g : list arec) : Z := fold_right Z.add 0 (map r_size g).

(** The memory an allocation occupies; one of zero bytes has an address of its own. *)
Definition rreg (r : arec) : region := (r_ptr r, if r_size r =? 0 then 1 else r_size r).

(** Strategy object and statistics of allocator [j] are the same. *)
Definition untouched (C : list nodecfg) (j : nat) (w w' : gworld C) : Prop :=
  gnode C j w' = gnode C j w /\ gstats C j w' = gstats C j w.

(** [getCurrentSize] and [getHighWatermark] are not overridden. *)
Definition own_stats (k : option kind) : Prop :=
  match k with Some (KFixed _ _ _) | Some (KMonotonic _) => False | _ => True end.

(** [allocate] returns memory or throws. *)
Definition never_null (k : option kind) : Prop :=
  match k with Some (KSlotPool _) => False | _ => True end.
