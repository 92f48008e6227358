(** C73: what a call on an allocator can touch and what it can depend on.  For every set of allocators built on one
    another in any way, every state of theirs (reachable or not) and every call. *)
From Verif Require Import Base HeapModel StratModel WrapModel QuickPoolModel QuickPoolRun GlobalModel GlobalSpec GlobalRun MapModel MapSpec MapThms JudyModel JudyFacts
  MapMain MapRun SystemModel SystemSpec SystemMain SystemThms SystemRun IsoSpec IsoFacts.

(** C73: an allocation leaves every allocator as it was that is neither the one called nor one it takes memory from; only
    for zero bytes is the zero-byte pool used. *)
Theorem C73_alloc_touches :
  forall J C i n nm w m,
    ends (fun s' => forall j, (j <= length C)%nat -> ~ In j (used C i (n =? 0)) -> same_at C j w (fst s')) (sys_allocate J C i n nm (w, m)).
Proof. exact allocate_frame. Qed.
Print Assumptions C73_alloc_touches.

(** C73: the same for a deallocation; the zero-byte pool is changed only if the memory is its own. *)
Theorem C73_free_touches :
  forall J C i p w m,
    ends (fun s' => forall j, (j <= length C)%nat -> ~ In j (used C i (zero_owns C p w)) -> same_at C j w (fst s')) (sys_deallocate J C i p (w, m)).
Proof. exact deallocate_frame. Qed.
Print Assumptions C73_free_touches.

(** C73: the same for releasing and coalescing the memory of an allocator, and for the making of a new one. *)
Theorem C73_release_touches :
  forall C i w, ends (fun w' => forall j, (j <= length C)%nat -> ~ In j (chain C i) -> same_at C j w w') (grelease C i w).
Proof. exact release_frame. Qed.
Print Assumptions C73_release_touches.

Theorem C73_coalesce_touches :
  forall C i w, ends (fun w' => forall j, (j <= length C)%nat -> ~ In j (chain C i) -> same_at C j w w') (gcoalesce C i w).
Proof. exact coalesce_frame. Qed.
Print Assumptions C73_coalesce_touches.

Theorem C73_make_touches :
  forall C c w, ends (fun w' => forall j, (j <= length C)%nat -> ~ In j (chain C (nc_parent c)) -> same_at C j w w') (gcreate C c w).
Proof. exact create_frame. Qed.
Print Assumptions C73_make_touches.

(** C73: so an allocator changes only through calls on itself and on allocators built on top of it, however many calls
    are made and whether they succeed. *)
Theorem C73_run_touches :
  forall J C s0 L s, calls J C s0 L s -> forall j, (j <= length C)%nat -> ~ In j L -> same_at C j (fst s0) (fst s).
Proof. exact calls_frame. Qed.
Print Assumptions C73_run_touches.

(** C73: what an allocation does depends on the allocators of its chain and the registry only: from two states with the
    same ones it ends in the same way, with the same result, and they are the same again. *)
Theorem C73_alloc_depends :
  forall J C i n nm w1 w2 m, agree C (used C i (n =? 0)) w1 w2 ->
    alike (fun s1 s2 => agree C (used C i (n =? 0)) (fst s1) (fst s2) /\ snd s1 = snd s2)
      (sys_allocate J C i n nm (w1, m)) (sys_allocate J C i n nm (w2, m)).
Proof. exact allocate_same. Qed.
Print Assumptions C73_alloc_depends.

(** C73: a deallocation depends in addition on the zero-byte pool, which is always asked whether the memory is its own. *)
Theorem C73_free_depends :
  forall J C i p w1 w2 m, agree C (used C i true) w1 w2 -> (zero_id <= length C)%nat ->
    alike (fun s1 s2 => agree C (used C i true) (fst s1) (fst s2) /\ snd s1 = snd s2)
      (sys_deallocate J C i p (w1, m)) (sys_deallocate J C i p (w2, m)).
Proof. exact deallocate_same. Qed.
Print Assumptions C73_free_depends.

Theorem C73_release_depends :
  forall C i w1 w2, agree C (chain C i) w1 w2 -> alike (agree C (chain C i)) (grelease C i w1) (grelease C i w2).
Proof. exact release_same. Qed.
Print Assumptions C73_release_depends.

Theorem C73_coalesce_depends :
  forall C i w1 w2, agree C (chain C i) w1 w2 -> alike (agree C (chain C i)) (gcoalesce C i w1) (gcoalesce C i w2).
Proof. exact coalesce_same. Qed.
Print Assumptions C73_coalesce_depends.

(** An instance: allocator 4 is a fixed pool over HOST, 5 a size limiter over HOST, 6 a wrapper of 4.  Allocator 5 is not in
    the chain of 6.  A call on 6 that has to make the pool larger changes the counters of 6, 4 and HOST, and not those of 5. *)
Definition four : list ycall :=
  [YCreate (mkNode (KFixed 64 1 2) 1); YCreate (mkNode (KSizeLimiter 1000) 1); YCreate (mkNode KPassThrough 4); YAlloc 5 100; YAlloc 6 64].
Example C73_alloc_touches_ex :
  yobs any_addr bump four (fun C sw g q t =>
    match sys_allocate JR (C ++ boot) 6 64 0 sw with
    | Ok s' _ => Some (chain (C ++ boot) 6, map (fun i => (gstats (C ++ boot) i (fst sw), gstats (C ++ boot) i (fst s'))) [5; 6; 4; 1]%nat)
    | _ => None
    end) =
  Some ([6; 4; 1; 0]%nat,
        [(mkStats 100 100 1, mkStats 100 100 1); (mkStats 64 64 1, mkStats 128 128 2); (mkStats 64 64 1, mkStats 128 128 2);
         (mkStats 164 164 2, mkStats 228 228 3)]).
Proof. vm_compute. reflexivity. Qed.

(** Two calls on 5, the second of which throws, leave 4 and 6 alone. *)
Example C73_run_touches_ex :
  yobs any_addr bump four (fun C sw g q t =>
    match sys_allocate JR (C ++ boot) 5 10 0 sw with
    | Ok s1 _ => match sys_allocate JR (C ++ boot) 5 10000 0 s1 with
                 | Throw s2 e => Some (e, used (C ++ boot) 5 false, map (fun i => gstats (C ++ boot) i (fst s2)) [5; 6; 4; 1]%nat)
                 | _ => None
                 end
    | _ => None
    end) =
  Some (OutOfMemory, [5; 1; 0]%nat, [mkStats 110 110 2; mkStats 64 64 1; mkStats 64 64 1; mkStats 174 174 3]).
Proof. vm_compute. reflexivity. Qed.

(** Two states that differ in allocator 4, whose pool has one slot more in use, and agree on what 5 uses: an allocation on 5
    gives the same address in both. *)
Definition spare : list ycall :=
  [YCreate (mkNode (KFixed 64 2 2) 1); YCreate (mkNode (KSizeLimiter 1000) 1); YAlloc 5 100; YAlloc 4 64].
Example C73_depends_ex :
  yobs any_addr bump spare (fun C sw g q t =>
    match sys_allocate JR (C ++ boot) 4 64 0 sw with
    | Ok s' _ =>
        Some (gstats (C ++ boot) 4 (fst sw), gstats (C ++ boot) 4 (fst s'),
          match sys_allocate JR (C ++ boot) 5 10 0 (fst sw, snd sw), sys_allocate JR (C ++ boot) 5 10 0 (fst s', snd sw) with
          | Ok _ p, Ok _ p' => Some (p, p')
          | _, _ => None
          end)
    | _ => None
    end) = Some (mkStats 64 64 1, mkStats 128 128 2, Some (2336, 2336)).
Proof. vm_compute. reflexivity. Qed.
Example C73_depends_hyps :
  match ystart bump with
  | Some st =>
      match yrun any_addr spare st with
      | Some (existT _ C (sw, g, q, t)) =>
          match sys_allocate JR (C ++ boot) 4 64 0 sw with
          | Ok s' _ => agree (C ++ boot) (used (C ++ boot) 5 false) (fst sw) (fst s')
          | _ => False
          end
      | None => False
      end
  | None => False
  end.
Proof. vm_compute. intros j Hj _. repeat (destruct Hj as [<-|Hj]; [reflexivity|]). contradiction. Qed.
