(** Running concrete operations, used for the worked examples. *)
From Verif Require Import Base HeapModel StratModel GlobalModel MapModel JudyModel MapMain SystemModel SystemSpec SystemRun OpsModel.

Inductive mcall : Type :=
| MCopy (dst src n : Z)
| MMemset (p v n : Z)
| MRealloc (p n : Z)
| MReallocWith (p n : Z) (i : nat)
| MMove (p : Z) (i : nat).

(** Memory at the beginning, and what the allocators do to bytes that belong to nobody. *)
Definition mem0 : mem := fun x => x mod 251.
Definition scramble : nat -> mem -> mem := fun k m x => (m x + 7 * Z.of_nat k + 100) mod 256.

(** Result of a call: the pointer, 1 if there is none, or the exception. *)
Definition mresult : Type := (Z + exn)%type.

Section Run.
  Context (C : list nodecfg).
  Notation mworld := (mworld JR C).

  Definition mdone {A} (f : A -> Z) (o : outcome mworld A) : option (mworld * mresult) :=
    match o with Ok mw x => Some (mw, inl (f x)) | Throw mw e => Some (mw, inr e) | _ => None end.

  Definition mexec (c : mcall) (mw : mworld) : option (mworld * mresult) :=
    match c with
    | MCopy dst src n => mdone (fun _ => 1) (m_copy JR C dst src n mw)
    | MMemset p v n => mdone (fun _ => 1) (m_memset JR C p v n mw)
    | MRealloc p n => mdone (fun x => x) (m_reallocate JR C scramble host_id p n mw)
    | MReallocWith p n i => mdone (fun x => x) (m_reallocate_with JR C scramble p n i mw)
    | MMove p i => mdone (fun x => x) (m_move JR C scramble p i mw)
    end.

  Fixpoint mrun (l : list mcall) (mw : mworld) : option (mworld * list mresult) :=
    match l with
    | [] => Some (mw, [])
    | c :: l' => match mexec c mw with
                 | Some (mw1, x) => match mrun l' mw1 with Some (mw2, xs) => Some (mw2, x :: xs) | None => None end
                 | None => None
                 end
    end.
End Run.

(** Results, registered allocations (owner, address, size), current sizes of the allocators, bytes at [xs]. *)
Definition mview (l : list mcall) (xs : list Z) (C : list nodecfg) (sw : sworld JR (C ++ boot)) (g : list arec) (q : list nat) (t : list snapshot)
  : option (list mresult * list (Z * Z * Z) * list Z * list Z) :=
  match mrun (C ++ boot) l (mkM sw mem0 0 []) with
  | Some (mw, rs) =>
      match am_records JR 100 1 (snd (mw_sys mw)) with
      | Ok _ l => Some (rs, map (fun r => (r_strat r, r_ptr r, r_size r)) l,
                        map (fun i => current_size (C ++ boot) i (fst (mw_sys mw))) (seq 0 (S (length (C ++ boot)))), map (mw_mem mw) xs)
      | _ => None
      end
  | None => None
  end.

(** What becomes of the allocators in a reallocation to zero bytes. *)
Lemma realloc_zero_sys C noise p dflt (mw : mworld JR C) a1 a2 r s3 s4 e : p <> 0 ->
  am_find JR p (snd (mw_sys mw)) = Ok a1 r -> am_find JR p a1 = Ok a2 r -> r_strat r = Z.of_nat (Z.to_nat (r_strat r)) ->
  sys_deallocate JR C (Z.to_nat (r_strat r)) p (fst (mw_sys mw), a2) = Ok s3 tt ->
  sys_allocate JR C (Z.to_nat (r_strat r)) 0 0 s3 = Throw s4 e ->
  exists mw', m_reallocate JR C noise dflt p 0 mw = Throw mw' e /\ mw_sys mw' = s4.
Proof.
  intros Hp E1 E2 Hs E3 E4. unfold m_reallocate, m_reallocate_with, m_find. destruct (Z.eqb_spec p 0); [contradiction|].
  rewrite E1. cbn [omap bind mw_sys snd fst]. rewrite E2. cbn [omap bind]. rewrite <- Hs, Z.eqb_refl. cbn [negb].
  change (0 =? 0) with true. cbv iota. unfold m_call. cbn [mw_sys mw_calls mw_mem mw_log snd fst]. rewrite E3. cbn [omap bind mw_sys mw_calls mw_mem mw_log].
  rewrite E4. cbn [omap]. eexists. split; reflexivity.
Qed.
