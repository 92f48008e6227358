(** The end of the program: [ResourceManager::~ResourceManager] (ResourceManager.cpp:77-92) destroys every
    allocator, and the destructors of the strategies give memory back to their parents.  The leak
    reports are left out. *)
From Verif Require Import Base HeapModel AlignedModel StratModel WrapModel QuickPoolModel QuickPoolStrat FixedPoolModel
  MixedPoolModel DynPoolModel GlobalModel.

(** QuickPool.cpp:212-241 with [m_is_destructing] set: an exception from the parent is ignored (:225-230)
    and the loop goes on. *)
Fixpoint q_destroy_loop {W : Type} (P : Parent W) (todo : list sm_entry) (sw : qpool * W) : outcome (qpool * W) unit :=
  match todo with
  | [] => Ok sw tt
  | e :: t =>
      let '(s, w) := sw in
      match q_chunks s (e_chunk e) with
      | None => UB
      | Some c =>
          if (c_size c =? c_csize c) && c_free c then
            let s1 := set_bytes s (w64 (q_actual s - c_csize c))
                                  (w64 (q_rel_bytes s - c_csize c))
                                  (q_actual_hwm s) in
            let s2 := set_blocks s1 (w64 (q_total_blocks s1 - 1))
                                    (w64 (q_rel_blocks s1 - 1)) in
            let go bw :=
              let s3 := set_base s2 (fst bw) in
              let s4 := set_chunks s3 (fdel (q_chunks s3) (e_chunk e)) in
              match sm_erase (e_tok e) (q_sizemap s4) with
              | None => UB
              | Some sm => q_destroy_loop P t (set_sizemap s4 sm, snd bw)
              end in
            match aligned_deallocate P (c_data c) (q_base s2) w with
            | Ok bw _ => go bw
            | Throw bw _ => go bw
            | UB => UB
            | Abort => Abort
            | NoFuel => NoFuel
            end
          else q_destroy_loop P t sw
      end
  end.

(** QuickPool.cpp:36-41. *)
Definition q_destroy {W : Type} (P : Parent W) (s : qpool) (w : W) : outcome W unit :=
  omap snd (fun u => u) (q_destroy_loop P (q_sizemap s) (s, w)).

(** DynamicSizePool.hpp:212-257 with [m_is_destructing] set (:236-241). *)
Fixpoint d_destroy_loop {W : Type} (P : Parent W) (keep todo : list dblock) (sw : dpool * W) : outcome (dpool * W) unit :=
  let '(s, w) := sw in
  match todo with
  | [] => Ok (dset_lists s (d_used s) (rev keep), w) tt
  | c :: t =>
      if d_whole c then
        let s1 := dset_actual s (w64 (d_actual s - d_size c)) (d_actual_hwm s)
                                (w64 (d_rel_blocks s - 1)) (w64 (d_total_blocks s - 1)) in
        match aligned_deallocate P (d_data c) (d_base s1) w with
        | Ok bw _ => d_destroy_loop P keep t (dset_base s1 (fst bw), snd bw)
        | Throw bw _ => d_destroy_loop P keep t (dset_base s1 (fst bw), snd bw)
        | UB => UB
        | Abort => Abort
        | NoFuel => NoFuel
        end
      else d_destroy_loop P (c :: keep) t sw
  end.

(** DynamicSizePool.hpp:297-302; DynamicPoolList has no destructor of its own. *)
Definition d_destroy {W : Type} (P : Parent W) (s : dpool) (w : W) : outcome W unit :=
  omap snd (fun u => u) (d_destroy_loop P [] (d_free s) (s, w)).

Section FixedPool.
  Context (obj : Z) (per : nat).

  (** FixedPool.cpp:60-70: is any slot of a block with missing slots marked as in use? *)
  Definition fx_leaked (s : fixedp) : bool :=
    existsb (fun p => negb (fp_unused per p) && existsb negb (concat (fp_avail p))) (fx_pools s).

  (** FixedPool.cpp:88-91. *)
  Fixpoint fx_free_all {W : Type} (P : Parent W) (l : list fpool) (w : W) : outcome W unit :=
    match l with
    | [] => Ok w tt
    | p :: t => let* (w', u) := p_dealloc P (fp_data p) (fx_data_bytes obj per) w in fx_free_all P t w'
    end.

  (** FixedPool.cpp:56-93: when a slot is still in use no block at all is given back. *)
  Definition fx_destroy {W : Type} (P : Parent W) (s : fixedp) (w : W) : outcome W unit :=
    if fx_leaked s then Ok w tt else fx_free_all P (fx_pools s) w.
End FixedPool.

(** MixedPool.hpp:70-75: the members are destroyed last to first, so the quick pool before the fixed
    pools, and those in the order of the vector. *)
Fixpoint mx_destroy_fixed {W : Type} (P : Parent W) (l : list mclass) (w : W) : outcome W unit :=
  match l with
  | [] => Ok w tt
  | c :: t => let* (w', u) := fx_destroy (cl_size c) (cl_per c) P (cl_pool c) w in mx_destroy_fixed P t w'
  end.
Definition mx_destroy {W : Type} (P : Parent W) (s : mixedp) (w : W) : outcome W unit :=
  let* (w', u) := q_destroy P (mp_quick s) w in mx_destroy_fixed P (mp_fixed s) w'.

(** The destructor of each strategy; the others have nothing of their own (AllocationStrategy.hpp:46). *)
Definition kind_destroy (k : kind) {W : Type} (P : Parent W) : st_ty (strat_of k) -> W -> outcome W unit :=
  match k return st_ty (strat_of k) -> W -> outcome W unit with
  | KQuick _ _ => q_destroy P
  | KMonotonic capacity => fun s w => mo_destroy capacity W P (s, w)
  | KSlotPool _ => sp_destroy W P
  | KFixed obj per _ => fx_destroy obj per P
  | KMixed _ _ _ => mx_destroy P
  | KDynamic _ => d_destroy P
  | KDynamicKeep _ _ _ => d_destroy P
  | _ => fun _ w => Ok w tt
  end.

(** Using an allocator that has been destroyed is undefined. *)
Definition gone_parent {W : Type} : Parent W := mkParent (fun _ _ => UB) (fun _ _ _ => UB).

(** Allocator [i] as seen by a strategy created on top of it, when the allocators in [dead] have been
    destroyed. *)
Fixpoint galive (dead : list nat) (C : list nodecfg) (i : nat) : Parent (gworld C) :=
  match C return Parent (gworld C) with
  | [] => if existsb (Nat.eqb 0) dead then gone_parent else host_internal
  | c :: C' =>
      if Nat.eqb i (S (length C'))
      then if existsb (Nat.eqb i) dead then gone_parent
           else internal (strat_of (nc_kind c)) (galive dead C' (nc_parent c))
      else lift_parent (galive dead C' i)
  end.

(** The destructor of allocator [i] runs. *)
Fixpoint gdestroy (dead : list nat) (C : list nodecfg) (i : nat) : gworld C -> outcome (gworld C) unit :=
  match C return gworld C -> outcome (gworld C) unit with
  | [] => fun w => Ok w tt
  | c :: C' => fun nw =>
      if Nat.eqb i (S (length C'))
      then omap (pair (fst nw)) (fun u => u)
                (kind_destroy (nc_kind c) (galive dead C' (nc_parent c)) (snd (fst nw)) (snd nw))
      else omap (pair (fst nw)) (fun u => u) (gdestroy dead C' i (snd nw))
  end.

(** [m_allocators]: every new allocator is put in front (ResourceManager.cpp:118-126,
    ResourceManager.inl:52). *)
Fixpoint galloc_list (C : list nodecfg) : list nat :=
  match C with
  | [] => [0%nat]
  | c :: C' => S (length C') :: galloc_list C'
  end.

(** ResourceManager.cpp:79-91: the allocators are destroyed in the order of the list.  An exception that
    leaves a destructor ends the program; the outcome [Throw] stands for that. *)
Fixpoint gdestroy_list (dead : list nat) (C : list nodecfg) (todo : list nat) (w : gworld C) : outcome (gworld C) unit :=
  match todo with
  | [] => Ok w tt
  | i :: t => let* (w', u) := gdestroy dead C i w in gdestroy_list (i :: dead) C t w'
  end.

Definition gteardown (C : list nodecfg) (w : gworld C) : outcome (gworld C) unit :=
  gdestroy_list [] C (galloc_list C) w.

(** The memory of the HOST resource. *)
Fixpoint host_heap (C : list nodecfg) : gworld C -> heap :=
  match C return gworld C -> heap with
  | [] => fun w => snd w
  | c :: C' => fun nw => host_heap C' (snd nw)
  end.
