(** C29-C34: copy, memset, reallocate and move of the resource manager on host memory, in every state the
    system can reach ([shist], SystemSpec.v), with any contents of memory and whatever malloc, free and the
    pools do to bytes outside the live allocations ([noise]).  [points ok g r p] (OpsSpec.v): [p] points
    into [r], to its beginning unless the addresses satisfy [sparse56].  [ts ++ t]: the operation adds
    observations [ts] to the history. *)
From Verif Require Import Base BaseFacts HeapModel StratModel WrapModel QuickPoolModel QuickPoolRun DynPoolModel DynPoolMain DynPoolRun GlobalModel GlobalSpec GlobalRun
  MapModel MapSpec MapThms AllocMapThms JudyModel JudyFacts MapMain MapRun SystemModel SystemSpec SystemMain SystemThms SystemRun
  OpsModel OpsSpec OpsThms OpsRun.

(** ** C29 *)

(** A successful reallocation of a live allocation: the result is registered with the new size and the same
    allocator and is not null, the old allocation is gone, the bytes up to the smaller of the two sizes are
    preserved, no other allocation is lost or changed, and only these bytes are read and written. *)
Theorem C29_reallocate :
  forall noise ok C (mw : mworld JR (C ++ boot)) g q t r n dflt, monotone ok -> shist JR ok C (mw_sys mw) g q t -> In r g -> 0 <= n ->
    n = 0 \/ user_guard (C ++ boot) (Z.to_nat (r_strat r)) n (fst (mw_sys mw)) ->
    post (m_reallocate JR (C ++ boot) noise dflt (r_ptr r) n mw)
      (fun mw' p => p <> 0 /\
         (ok (keyed (mkRec p n (r_strat r) 0 :: g)) ->
            exists ts, shist JR ok C (mw_sys mw') (mkRec p n (r_strat r) 0 :: forget (r_ptr r) g) (unclaimed r n q) (ts ++ t)) /\
         carried (mw_mem mw) (mw_mem mw') (r_ptr r) p (Z.min (r_size r) n) /\
         (forall r', In r' (forget (r_ptr r) g) -> kept (mw_mem mw) (mw_mem mw') r') /\
         forall x, In x (mw_log mw') -> In x (mw_log mw) \/ x = Write (p, Z.min (r_size r) n) \/ x = Read (r_ptr r, Z.min (r_size r) n))
      (fun _ _ => True).
Proof.
  intros noise ok C mw g q t r n dflt Hm Hh Hr Hn Hg.
  eapply post_impl; [| |exact (op_reallocate_ok noise ok C mw g q t r n dflt Hm Hh Hr Hn Hg)]; cbv beta; auto.
Qed.
Print Assumptions C29_reallocate.

(** The same when the allocator is named, provided it is the owner (see C30 for others). *)
Theorem C29_reallocate_with :
  forall noise ok C (mw : mworld JR (C ++ boot)) g q t r n i, monotone ok -> shist JR ok C (mw_sys mw) g q t -> In r g -> 0 <= n ->
    r_strat r = Z.of_nat i -> n = 0 \/ user_guard (C ++ boot) i n (fst (mw_sys mw)) ->
    post (m_reallocate_with JR (C ++ boot) noise (r_ptr r) n i mw)
      (fun mw' p => p <> 0 /\
         (ok (keyed (mkRec p n (r_strat r) 0 :: g)) ->
            exists ts, shist JR ok C (mw_sys mw') (mkRec p n (r_strat r) 0 :: forget (r_ptr r) g) (unclaimed r n q) (ts ++ t)) /\
         carried (mw_mem mw) (mw_mem mw') (r_ptr r) p (Z.min (r_size r) n) /\
         (forall r', In r' (forget (r_ptr r) g) -> kept (mw_mem mw) (mw_mem mw') r') /\
         forall x, In x (mw_log mw') -> In x (mw_log mw) \/ x = Write (p, Z.min (r_size r) n) \/ x = Read (r_ptr r, Z.min (r_size r) n))
      (fun _ _ => True).
Proof.
  intros noise ok C mw g q t r n i Hm Hh Hr Hn Ei Hg. assert (E : i = Z.to_nat (r_strat r)) by lia. rewrite E in *.
  eapply post_impl; [| |exact (op_with noise ok C mw g q t r n Hm Hh Hr Hn Hg)]; cbv beta; auto.
Qed.
Print Assumptions C29_reallocate_with.

(** Of the null pointer: an allocation by the default allocator. *)
Theorem C29_reallocate_null :
  forall noise ok C (mw : mworld JR (C ++ boot)) g q t n i, shist JR ok C (mw_sys mw) g q t -> usable (C ++ boot) i ->
    n = 0 \/ user_guard (C ++ boot) i n (fst (mw_sys mw)) ->
    post (m_reallocate JR (C ++ boot) noise i 0 n mw)
      (fun mw' p => p <> 0 /\
         (ok (keyed (mkRec p n (Z.of_nat i) 0 :: g)) -> exists ts, shist JR ok C (mw_sys mw') (mkRec p n (Z.of_nat i) 0 :: g) q (ts ++ t)) /\
         forall r, In r g -> kept (mw_mem mw) (mw_mem mw') r)
      (fun mw' e => (exists ts, shist JR ok C (mw_sys mw') g q (ts ++ t)) /\ forall r, In r g -> kept (mw_mem mw) (mw_mem mw') r).
Proof. exact op_reallocate_null. Qed.
Print Assumptions C29_reallocate_null.

(** HOST (1) has 64 bytes at 2080, a SizeLimiter (4) 50 bytes at 2160 and 0 bytes at 16.  Bytes start as
    their address modulo 251. *)
Definition trio : list ycall := [YAlloc 1 64; YCreate (mkNode (KSizeLimiter 1000) 1); YAlloc 4 50; YAlloc 4 0].

(** Growing, shrinking, from and to zero bytes, with [realloc] and without; the first bytes and the last
    preserved one. *)
Example C29_case :
  yobs any_addr bump trio (mview [MRealloc 2160 80] [2224; 2225; 2273; 2274]) =
    Some ([inl 2224], [(4, 16, 0); (1, 2080, 64); (4, 2224, 80)], [2192; 144; 2048; 1; 80],
          [2160 mod 251; 2161 mod 251; 2209 mod 251; (2274 mod 251 + 100) mod 256]) /\
  yobs any_addr bump trio (mview [MRealloc 2080 20] [2080; 2224; 2243]) =
    Some ([inl 2224], [(4, 16, 0); (4, 2160, 50); (1, 2224, 20)], [2118; 114; 2048; 1; 50],
          [172; 2080 mod 251; 2099 mod 251]) /\
  yobs any_addr bump trio (mview [MRealloc 16 10; MRealloc 2160 0; MRealloc 0 5] []) =
    Some ([inl 2224; inl 16; inl 2240], [(4, 16, 0); (1, 2080, 64); (4, 2224, 10); (1, 2240, 5)], [2127; 79; 2048; 1; 10], []).
Proof. vm_compute. auto. Qed.

(** The hypotheses of C29_reallocate hold of each of the three allocations. *)
Example C29_case_hypotheses :
  exists C sw g q t, shist JR any_keys C sw g q t /\ monotone any_keys /\
    In (mkRec 2160 50 4 0) g /\ In (mkRec 2080 64 1 0) g /\ In (mkRec 16 0 4 0) g /\
    user_guard (C ++ boot) 4 80 (fst sw) /\ user_guard (C ++ boot) 1 20 (fst sw).
Proof.
  destruct (yobs_hist any_addr any_keys any_addr_ok bump trio
              (fun C sw g q t => Some (g, user_guardb (C ++ boot) 4 80 (fst sw), user_guardb (C ++ boot) 1 20 (fst sw)))
              ([mkRec 16 0 4 0; mkRec 2160 50 4 0; mkRec 2080 64 1 0], true, true)) as (C & sw & g & q & t & Hh & E).
  - intros d [H|[H|[H|[H|[]]]]]; inversion H; subst; exact I.
  - vm_compute. reflexivity.
  - injection E as -> E1 E2. exists C, sw, [mkRec 16 0 4 0; mkRec 2160 50 4 0; mkRec 2080 64 1 0], q, t.
    split; [exact Hh|]. split; [exact any_keys_monotone|]. split; [cbn; auto|]. split; [cbn; auto|]. split; [cbn; auto|].
    split; apply user_guardb_ok; assumption.
Qed.

(** ** C30 *)

(** A reallocation to more than zero bytes that throws has no effect on the live allocations and their
    contents, unless it used [realloc] or the allocator is a DynamicPoolList that coalesces. *)
Theorem C30_failed_reallocate :
  forall noise ok C (mw : mworld JR (C ++ boot)) g q t r n dflt, monotone ok -> shist JR ok C (mw_sys mw) g q t -> In r g -> 0 < n ->
    user_guard (C ++ boot) (Z.to_nat (r_strat r)) n (fst (mw_sys mw)) -> by_libc r = false ->
    ~ coalescing (kind_at (C ++ boot) (Z.to_nat (r_strat r))) ->
    post (m_reallocate JR (C ++ boot) noise dflt (r_ptr r) n mw)
      (fun _ _ => True)
      (fun mw' e => (exists ts, shist JR ok C (mw_sys mw') g q (ts ++ t)) /\ (forall r', In r' g -> kept (mw_mem mw) (mw_mem mw') r')).
Proof.
  intros noise ok C mw g q t r n dflt Hm Hh Hr Hn Hg Hl Hc. assert (Hn' : 0 <= n) by lia.
  eapply post_impl; [| |exact (op_reallocate_ok noise ok C mw g q t r n dflt Hm Hh Hr Hn' (or_intror Hg))]; cbv beta; [auto|].
  intros mw' e H. rewrite Hl in H. destruct (Z.eqb_spec n 0); [lia|]. destruct H as [H|[H _]]; [exact H|contradiction].
Qed.
Print Assumptions C30_failed_reallocate.

(** A reallocation with an allocator that is not the owner, or of an address inside an allocation, always
    throws and has no effect. *)
Theorem C30_rejected :
  forall noise ok C (mw : mworld JR (C ++ boot)) g q t r p n i, shist JR ok C (mw_sys mw) g q t -> points ok g r p ->
    usable (C ++ boot) i -> p <> r_ptr r \/ r_strat r <> Z.of_nat i ->
    exists mw' ts, m_reallocate_with JR (C ++ boot) noise p n i mw = Throw mw' RuntimeError /\
      shist JR ok C (mw_sys mw') g q (ts ++ t) /\ (forall r', In r' g -> kept (mw_mem mw) (mw_mem mw') r') /\ mw_log mw' = mw_log mw.
Proof. exact op_with_rejected. Qed.
Print Assumptions C30_rejected.

Theorem C30_interior :
  forall noise ok C (mw : mworld JR (C ++ boot)) g q t r p n dflt, shist JR ok C (mw_sys mw) g q t -> points ok g r p -> p <> r_ptr r ->
    exists mw' ts, m_reallocate JR (C ++ boot) noise dflt p n mw = Throw mw' RuntimeError /\
      shist JR ok C (mw_sys mw') g q (ts ++ t) /\ (forall r', In r' g -> kept (mw_mem mw) (mw_mem mw') r') /\ mw_log mw' = mw_log mw.
Proof. exact op_reallocate_interior. Qed.
Print Assumptions C30_interior.

(** Of an address in no allocation. *)
Theorem C30_unknown :
  forall noise ok C (mw : mworld JR (C ++ boot)) g q t p n i, shist JR ok C (mw_sys mw) g q t -> (forall P, ok P -> sparse56 P) ->
    addr_ok p -> p <> 0 -> (forall r, In r g -> ~ covers r p) ->
    exists mw' ts, m_reallocate JR (C ++ boot) noise i p n mw = Throw mw' UnknownPointer /\
      m_reallocate_with JR (C ++ boot) noise p n i mw = Throw mw' UnknownPointer /\
      shist JR ok C (mw_sys mw') g q (ts ++ t) /\ mw_mem mw' = mw_mem mw /\ mw_log mw' = mw_log mw.
Proof. exact op_reallocate_unknown. Qed.
Print Assumptions C30_unknown.

(** When [realloc] fails, or the allocation of zero bytes after the deallocation, all other allocations and
    their contents are unaffected. *)
Theorem C30_others_survive :
  forall noise ok C (mw : mworld JR (C ++ boot)) g q t r n dflt, monotone ok -> shist JR ok C (mw_sys mw) g q t -> In r g -> 0 <= n ->
    n = 0 \/ user_guard (C ++ boot) (Z.to_nat (r_strat r)) n (fst (mw_sys mw)) ->
    post (m_reallocate JR (C ++ boot) noise dflt (r_ptr r) n mw)
      (fun _ _ => True) (fun mw' e => forall r', In r' (forget (r_ptr r) g) -> kept (mw_mem mw) (mw_mem mw') r').
Proof. exact op_others_survive. Qed.
Print Assumptions C30_others_survive.

(** The SizeLimiter refuses 2000 bytes, everything is as before; so are the reallocation of 2080 by the
    wrong allocator and of the interior pointers 2170 and 2090. *)
Example C30_case :
  yobs any_addr bump trio (mview [MRealloc 2160 2000; MReallocWith 2080 10 4; MRealloc 2170 10; MRealloc 2170 0; MReallocWith 2090 0 1; MRealloc 5000 1] [2160; 2209; 2080; 2143]) =
    Some ([inr OutOfMemory; inr RuntimeError; inr RuntimeError; inr RuntimeError; inr RuntimeError; inr UnknownPointer],
          [(4, 16, 0); (1, 2080, 64); (4, 2160, 50)], [2162; 114; 2048; 1; 50],
          [2160 mod 251; 2209 mod 251; 2080 mod 251; 2143 mod 251]).
Proof. vm_compute. reflexivity. Qed.

(** C30 does not hold of HOST: when [realloc] fails the record of the allocation is already removed
    (HostReallocateOperation.cpp:34-41).  The allocation of 64 bytes at 2080 is live, [realloc] to 800 bytes
    fails, and Umpire no longer knows the address; HOST still counts its 64 bytes. *)
Theorem C30_realloc_failure_refuted :
  exists C sw g q t mw', shist JR any_keys C sw g q t /\ In (mkRec 2080 64 1 0) g /\
    m_reallocate JR (C ++ boot) scramble host_id 2080 800 (mkM sw mem0 0 []) = Throw mw' RuntimeError /\
    (exists a', am_find JR 2080 (snd (mw_sys mw')) = Throw a' UnknownPointer) /\ current_size (C ++ boot) host_id (fst (mw_sys mw')) = 64.
Proof.
  destruct (yobs_hist any_addr any_keys any_addr_ok (bump_failing [2%nat]) [YAlloc 1 64]
              (fun C sw g q t =>
                 match m_reallocate JR (C ++ boot) scramble host_id 2080 800 (mkM sw mem0 0 []) with
                 | Throw mw' RuntimeError =>
                     match am_find JR 2080 (snd (mw_sys mw')) with
                     | Throw _ UnknownPointer => Some (g, current_size (C ++ boot) host_id (fst (mw_sys mw')))
                     | _ => None
                     end
                 | _ => None
                 end)
              ([mkRec 2080 64 1 0], 64)) as (C & sw & g & q & t & Hh & E).
  - intros d [H|[]]; discriminate H.
  - vm_compute. reflexivity.
  - destruct (m_reallocate JR (C ++ boot) scramble host_id 2080 800 (mkM sw mem0 0 [])) as [|mw' []| | |] eqn:E1; try discriminate.
    destruct (am_find JR 2080 (snd (mw_sys mw'))) as [|a' []| | |] eqn:E2; try discriminate. injection E as E3 E4.
    exists C, sw, g, q, t, mw'. split; [exact Hh|]. split; [rewrite E3; now left|]. split; [exact E1|]. split; [eauto|exact E4].
Qed.
Print Assumptions C30_realloc_failure_refuted.

(** Nor of reallocation to zero bytes, where the allocation is returned before a new one is attempted
    (ResourceManager.cpp:681-684): with the 2048 addresses for allocations of zero bytes in use and no more
    memory to be had, the call throws and the 64 bytes are gone. *)
Theorem C30_zero_bytes_refuted :
  exists C sw g q t mw', shist JR any_keys C sw g q t /\ In (mkRec 2080 64 1 0) g /\
    m_reallocate JR (C ++ boot) scramble host_id 2080 0 (mkM sw mem0 0 []) = Throw mw' OutOfMemory /\
    exists a', am_find JR 2080 (snd (mw_sys mw')) = Throw a' UnknownPointer.
Proof.
  destruct (yobs_hist any_addr any_keys any_addr_ok (bump_failing [2%nat]) (YAlloc 1 64 :: repeat (YAlloc 1 0) 2048)
              (fun C sw g q t =>
                 match am_find JR 2080 (snd sw) with
                 | Ok a1 r1 =>
                   match am_find JR 2080 a1 with
                   | Ok a2 r2 =>
                     match sys_deallocate JR (C ++ boot) (Z.to_nat (r_strat r2)) 2080 (fst sw, a2) with
                     | Ok s3 _ =>
                       match sys_allocate JR (C ++ boot) (Z.to_nat (r_strat r2)) 0 0 s3 with
                       | Throw s4 OutOfMemory =>
                         match am_find JR 2080 (snd s4) with
                         | Throw _ UnknownPointer => Some (r1, r2, filter (fun r => r_ptr r =? 2080) g)
                         | _ => None
                         end
                       | _ => None
                       end
                     | _ => None
                     end
                   | _ => None
                   end
                 | _ => None
                 end)
              (mkRec 2080 64 1 0, mkRec 2080 64 1 0, [mkRec 2080 64 1 0])) as (C & sw & g & q & t & Hh & E).
  - intros d [H|H]; [discriminate H|]. apply repeat_spec in H. discriminate H.
  - vm_compute. reflexivity.
  - destruct (am_find JR 2080 (snd sw)) as [a1 r1| | | |] eqn:E1; try discriminate.
    destruct (am_find JR 2080 a1) as [a2 r2| | | |] eqn:E2; try discriminate.
    destruct (sys_deallocate JR (C ++ boot) (Z.to_nat (r_strat r2)) 2080 (fst sw, a2)) as [s3 []| | | |] eqn:E3; try discriminate.
    destruct (sys_allocate JR (C ++ boot) (Z.to_nat (r_strat r2)) 0 0 s3) as [|s4 []| | |] eqn:E4; try discriminate.
    destruct (am_find JR 2080 (snd s4)) as [|a5 []| | |] eqn:E5; try discriminate. injection E as -> -> E6.
    destruct (realloc_zero_sys (C ++ boot) scramble 2080 host_id (mkM sw mem0 0 []) a1 a2 (mkRec 2080 64 1 0) s3 s4 OutOfMemory
                ltac:(discriminate) E1 E2 eq_refl E3 E4) as (mw' & E7 & <-).
    exists C, sw, g, q, t, mw'. split; [exact Hh|]. split; [|split; [exact E7|eauto]].
    apply (proj1 (proj1 (filter_In (fun r => r_ptr r =? 2080) (mkRec 2080 64 1 0) g) ltac:(rewrite E6; now left))).
Qed.
Print Assumptions C30_zero_bytes_refuted.

(** Nor of a DynamicPoolList that coalesces, whose [deallocate] can throw (C16_deallocate_no_throw_refuted): the
    contents have been copied and the allocation given back by then (GenericReallocateOperation.cpp:23-31).  Here
    two allocations of 64 bytes fill a block each; the second is reallocated to 200 bytes.  The call throws, its
    address is unknown from then on, and an allocation of 200 bytes is live whose address no one was told. *)
Theorem C30_dynamic_refuted :
  exists C sw g q t mw' r p, shist JR any_keys C sw g q t /\ In r g /\ r_size r = 64 /\ by_libc r = false /\
    user_guard (C ++ boot) (Z.to_nat (r_strat r)) 200 (fst sw) /\
    m_reallocate JR (C ++ boot) scramble host_id (r_ptr r) 200 (mkM sw mem0 0 []) = Throw mw' OutOfMemory /\
    (exists a', am_find JR (r_ptr r) (snd (mw_sys mw')) = Throw a' UnknownPointer) /\
    exists a', am_find JR p (snd (mw_sys mw')) = Ok a' (mkRec p 200 (r_strat r) 0).
Proof.
  set (again := fun C (sw : sworld JR (C ++ boot)) =>
         match m_reallocate JR (C ++ boot) scramble host_id 2176 200 (mkM sw mem0 0 []) with
         | Throw mw' OutOfMemory =>
             match am_find JR 2176 (snd (mw_sys mw')), am_find JR 2272 (snd (mw_sys mw')) with
             | Throw _ UnknownPointer, Ok _ r => Some (mw', r)
             | _, _ => None
             end
         | _ => None
         end).
  destruct (yobs_hist any_addr any_keys any_addr_ok (bump_failing [4; 5]%nat)
              [YCreate (mkNode (KDynamic (mkDcfg 64 64 16 (dh_blocks_releasable 2))) 1); YAlloc 4 64; YAlloc 4 64; YFree 4 2080]
              (fun C sw g q t => option_map (fun x => (g, user_guardb (C ++ boot) 4 200 (fst sw), snd x)) (again C sw))
              ([mkRec 2176 64 4 0], true, mkRec 2272 200 4 0)) as (C & sw & g & q & t & Hh & E).
  - intros d [H|[H|[H|[H|[]]]]]; inversion H; subst. apply dheur_ok_all.
  - vm_compute. reflexivity.
  - destruct (again C sw) as [[mw' r]|] eqn:E1; [|discriminate]. unfold again in E1. cbn [option_map snd] in E. injection E as -> E2 ->.
    destruct (m_reallocate JR (C ++ boot) scramble host_id 2176 200 (mkM sw mem0 0 [])) as [|mw1 []| | |] eqn:E3; try discriminate.
    destruct (am_find JR 2176 (snd (mw_sys mw1))) as [|a' []| | |] eqn:E4; try discriminate.
    destruct (am_find JR 2272 (snd (mw_sys mw1))) as [a2 r2| | | |] eqn:E5; try discriminate. injection E1 as -> ->.
    exists C, sw, [mkRec 2176 64 4 0], q, t, mw', (mkRec 2176 64 4 0), 2272.
    split; [exact Hh|]. split; [now left|]. split; [reflexivity|]. split; [reflexivity|]. split; [now apply user_guardb_ok|].
    split; [exact E3|]. split; eauto.
Qed.
Print Assumptions C30_dynamic_refuted.

(** All that can happen in that case: the call had no effect, or has done everything but return the address. *)
Theorem C30_failed_dynamic :
  forall noise ok C (mw : mworld JR (C ++ boot)) g q t r n dflt, monotone ok -> shist JR ok C (mw_sys mw) g q t -> In r g -> 0 < n ->
    user_guard (C ++ boot) (Z.to_nat (r_strat r)) n (fst (mw_sys mw)) -> by_libc r = false ->
    post (m_reallocate JR (C ++ boot) noise dflt (r_ptr r) n mw) (fun _ _ => True)
      (fun mw' e => (forall r', In r' (forget (r_ptr r) g) -> kept (mw_mem mw) (mw_mem mw') r') /\
         ((exists ts, shist JR ok C (mw_sys mw') g q (ts ++ t)) \/
          exists p, ok (keyed (mkRec p n (r_strat r) 0 :: g)) ->
            exists ts, shist JR ok C (mw_sys mw') (mkRec p n (r_strat r) 0 :: forget (r_ptr r) g) q (ts ++ t))).
Proof. exact op_reallocate_any. Qed.
Print Assumptions C30_failed_dynamic.

(** ** C31 *)

(** After a reallocation by an allocator other than HOST (or to or from zero bytes): its current size has
    changed by the difference of the two sizes, the number of its allocations not at all, and the
    watermark is still above the current size. *)
Theorem C31_reallocate_statistics :
  forall noise C (mw : mworld JR (C ++ boot)) g q t r n dflt, shist JR any_keys C (mw_sys mw) g q t -> In r g -> 0 <= n ->
    n = 0 \/ user_guard (C ++ boot) (Z.to_nat (r_strat r)) n (fst (mw_sys mw)) ->
    by_libc r = false \/ n = 0 ->
    ~ In (Z.to_nat (r_strat r)) q -> never_null (kind_at (C ++ boot) (Z.to_nat (r_strat r))) -> own_stats (kind_at (C ++ boot) (Z.to_nat (r_strat r))) ->
    post (m_reallocate JR (C ++ boot) noise dflt (r_ptr r) n mw)
      (fun mw' p => let i := Z.to_nat (r_strat r) in
         current_size (C ++ boot) i (fst (mw_sys mw')) = current_size (C ++ boot) i (fst (mw_sys mw)) - r_size r + n /\
         allocation_count (C ++ boot) i (fst (mw_sys mw')) = allocation_count (C ++ boot) i (fst (mw_sys mw)) /\
         current_size (C ++ boot) i (fst (mw_sys mw')) <= high_watermark (C ++ boot) i (fst (mw_sys mw')))
      (fun _ _ => True).
Proof. exact op_stats. Qed.
Print Assumptions C31_reallocate_statistics.

(** The hypotheses hold of the 50 bytes of the SizeLimiter above, whose reallocation to 80 is in C29_case. *)
Example C31_case :
  exists C sw g q t, shist JR any_keys C sw g q t /\ In (mkRec 2160 50 4 0) g /\ user_guard (C ++ boot) 4 80 (fst sw) /\
    by_libc (mkRec 2160 50 4 0) = false /\ ~ In 4%nat q /\ never_null (kind_at (C ++ boot) 4) /\ own_stats (kind_at (C ++ boot) 4).
Proof.
  destruct (yobs_hist any_addr any_keys any_addr_ok bump trio
              (fun C sw g q t => Some (C, g, q, user_guardb (C ++ boot) 4 80 (fst sw)))
              ([mkNode (KSizeLimiter 1000) 1], [mkRec 16 0 4 0; mkRec 2160 50 4 0; mkRec 2080 64 1 0], [1; 2; 0]%nat, true)) as (C & sw & g & q & t & Hh & E).
  - intros d [H|[H|[H|[H|[]]]]]; inversion H; subst; exact I.
  - vm_compute. reflexivity.
  - injection E as -> -> -> E1.
    exists [mkNode (KSizeLimiter 1000) 1], sw, [mkRec 16 0 4 0; mkRec 2160 50 4 0; mkRec 2080 64 1 0], [1; 2; 0]%nat, t.
    split; [exact Hh|]. split; [cbn; auto|]. split; [now apply user_guardb_ok|]. split; [reflexivity|].
    split; [intros [H|[H|[H|[]]]]; discriminate H|]. split; exact I.
Qed.

(** C31 does not hold of HOST, whose statistics [realloc] does not reach (HostReallocateOperation.cpp:34-43).
    With 20 bytes allocated and reallocated to 64, HOST still reports 20; when they are returned, its
    current size wraps around to 2^64 - 44.  Nothing else has been allocated from HOST. *)
Theorem C31_host_refuted :
  exists C sw g q t mw' p sw'', shist JR any_keys C sw g q t /\ g = [mkRec 2080 20 1 0] /\ current_size (C ++ boot) host_id (fst sw) = 20 /\
    m_reallocate JR (C ++ boot) scramble host_id 2080 64 (mkM sw mem0 0 []) = Ok mw' p /\
    current_size (C ++ boot) host_id (fst (mw_sys mw')) = 20 /\
    sys_deallocate JR (C ++ boot) host_id p (mw_sys mw') = Ok sw'' tt /\
    current_size (C ++ boot) host_id (fst sw'') = M64 - 44.
Proof.
  destruct (yobs_hist any_addr any_keys any_addr_ok bump [YAlloc 1 20]
              (fun C sw g q t =>
                 match m_reallocate JR (C ++ boot) scramble host_id 2080 64 (mkM sw mem0 0 []) with
                 | Ok mw' p =>
                     match sys_deallocate JR (C ++ boot) host_id p (mw_sys mw') with
                     | Ok sw'' _ => Some (g, current_size (C ++ boot) host_id (fst sw), current_size (C ++ boot) host_id (fst (mw_sys mw')),
                                          current_size (C ++ boot) host_id (fst sw''))
                     | _ => None
                     end
                 | _ => None
                 end)
              ([mkRec 2080 20 1 0], 20, 20, M64 - 44)) as (C & sw & g & q & t & Hh & E).
  - intros d [H|[]]; discriminate H.
  - vm_compute. reflexivity.
  - destruct (m_reallocate JR (C ++ boot) scramble host_id 2080 64 (mkM sw mem0 0 [])) as [mw' p| | | |] eqn:E1; try discriminate.
    destruct (sys_deallocate JR (C ++ boot) host_id p (mw_sys mw')) as [sw'' []| | | |] eqn:E2; try discriminate. injection E as E3 E4 E5 E6.
    exists C, sw, g, q, t, mw', p, sw''. repeat (split; [assumption|]). exact E6.
Qed.
Print Assumptions C31_host_refuted.

(** ** C32 *)

(** A copy of a range that fits: exactly the bytes of the destination range change, they become the bytes of
    the source range, nothing else is read or written, and nothing happens to the allocators.  Size zero
    means the rest of the source allocation. *)
Theorem C32_copy :
  forall ok C (mw : mworld JR (C ++ boot)) g q t rs rd src dst size, shist JR ok C (mw_sys mw) g q t ->
    points ok g rs src -> points ok g rd dst -> 0 <= size -> wanted rs src size <= rest rd dst ->
    wanted rs src size = 0 \/ disj (dst, wanted rs src size) (src, wanted rs src size) ->
    exists mw' ts, m_copy JR (C ++ boot) dst src size mw = Ok mw' tt /\
      shist JR ok C (mw_sys mw') g q (ts ++ t) /\ fst (mw_sys mw') = fst (mw_sys mw) /\
      carried (mw_mem mw) (mw_mem mw') src dst (wanted rs src size) /\
      only (mw_mem mw) (mw_mem mw') (dst, wanted rs src size) /\
      mw_log mw' = Write (dst, wanted rs src size) :: Read (src, wanted rs src size) :: mw_log mw.
Proof. exact op_copy. Qed.
Print Assumptions C32_copy.

(** A copy that does not fit in the rest of the destination is refused without effect. *)
Theorem C32_copy_rejected :
  forall ok C (mw : mworld JR (C ++ boot)) g q t rs rd src dst size, shist JR ok C (mw_sys mw) g q t ->
    points ok g rs src -> points ok g rd dst -> rest rd dst < wanted rs src size ->
    exists mw' ts, m_copy JR (C ++ boot) dst src size mw = Throw mw' RuntimeError /\
      shist JR ok C (mw_sys mw') g q (ts ++ t) /\ fst (mw_sys mw') = fst (mw_sys mw) /\
      mw_mem mw' = mw_mem mw /\ mw_log mw' = mw_log mw.
Proof. exact op_copy_rejected. Qed.
Print Assumptions C32_copy_rejected.

(** Addresses in no allocation are refused without effect. *)
Theorem C32_copy_unknown :
  forall ok C (mw : mworld JR (C ++ boot)) g q t src dst size, shist JR ok C (mw_sys mw) g q t -> (forall P, ok P -> sparse56 P) ->
    addr_ok src -> addr_ok dst -> (forall r, In r g -> ~ covers r src) \/ (forall r, In r g -> ~ covers r dst) ->
    exists mw' ts, m_copy JR (C ++ boot) dst src size mw = Throw mw' UnknownPointer /\
      shist JR ok C (mw_sys mw') g q (ts ++ t) /\ fst (mw_sys mw') = fst (mw_sys mw) /\
      mw_mem mw' = mw_mem mw /\ mw_log mw' = mw_log mw.
Proof. exact op_copy_unknown. Qed.
Print Assumptions C32_copy_unknown.

(** Copies between the beginnings, between interior addresses, of everything, too much, and unknown. *)
Example C32_case :
  yobs addr16 bump trio (mview [MCopy 2160 2080 3] [2160; 2162; 2163]) =
    Some ([inl 1], [(4, 16, 0); (1, 2080, 64); (4, 2160, 50)], [2162; 114; 2048; 1; 50], [2080 mod 251; 2082 mod 251; 2163 mod 251]) /\
  yobs addr16 bump trio (mview [MCopy 2094 2161 0; MCopy 2160 2080 0; MCopy 2161 2080 50; MCopy 2160 5000 1; MCopy 5000 2160 1; MCopy 16 2160 1; MCopy 2160 16 0]
                               [2093; 2094; 2142; 2143; 2160]) =
    Some ([inl 1; inr RuntimeError; inr RuntimeError; inr UnknownPointer; inr UnknownPointer; inr RuntimeError; inl 1],
          [(4, 16, 0); (1, 2080, 64); (4, 2160, 50)], [2162; 114; 2048; 1; 50],
          [2093 mod 251; 2161 mod 251; 2209 mod 251; 2143 mod 251; 2160 mod 251]).
Proof. vm_compute. auto. Qed.

(** The hypotheses of C32_copy for the interior copy. *)
Example C32_case_hypotheses :
  exists C sw g q t, shist JR aligned16 C sw g q t /\ (forall P, aligned16 P -> sparse56 P) /\
    points aligned16 g (mkRec 2160 50 4 0) 2161 /\ points aligned16 g (mkRec 2080 64 1 0) 2094 /\
    wanted (mkRec 2160 50 4 0) 2161 0 <= rest (mkRec 2080 64 1 0) 2094 /\ disj (2094, 49) (2161, 49).
Proof.
  destruct (yobs_hist addr16 aligned16 addr16_ok bump trio (fun C sw g q t => Some g)
              [mkRec 16 0 4 0; mkRec 2160 50 4 0; mkRec 2080 64 1 0]) as (C & sw & g & q & t & Hh & E).
  - intros d [H|[H|[H|[H|[]]]]]; inversion H; subst; exact I.
  - vm_compute. reflexivity.
  - injection E as ->. exists C, sw, [mkRec 16 0 4 0; mkRec 2160 50 4 0; mkRec 2080 64 1 0], q, t. split; [exact Hh|].
    split; [exact aligned16_sparse|]. unfold points, covers, wanted, rest, disj. cbn [In r_ptr r_size fst snd Z.eqb].
    pose proof aligned16_sparse. split; [split; [auto|right; split; [lia|auto]]|]. split; [split; [auto|right; split; [lia|auto]]|]. lia.
Qed.

(** The source is not checked (ResourceManager.cpp:384-408): 60 bytes from the allocation of 50 at 2160 into
    the one of 64 at 2080 are copied, reading ten bytes past its end. *)
Theorem C32_source_bound_refuted :
  exists C sw g q t mw', shist JR any_keys C sw g q t /\ In (mkRec 2160 50 4 0) g /\ In (mkRec 2080 64 1 0) g /\
    m_copy JR (C ++ boot) 2080 2160 60 (mkM sw mem0 0 []) = Ok mw' tt /\ In (Read (2160, 60)) (mw_log mw') /\
    ~ inside (2160, 60) (2160, 50).
Proof.
  destruct (yobs_hist any_addr any_keys any_addr_ok bump trio
              (fun C sw g q t => match m_copy JR (C ++ boot) 2080 2160 60 (mkM sw mem0 0 []) with Ok mw' _ => Some (g, mw_log mw') | _ => None end)
              ([mkRec 16 0 4 0; mkRec 2160 50 4 0; mkRec 2080 64 1 0], [Write (2080, 60); Read (2160, 60)])) as (C & sw & g & q & t & Hh & E).
  - intros d [H|[H|[H|[H|[]]]]]; inversion H; subst; exact I.
  - vm_compute. reflexivity.
  - destruct (m_copy JR (C ++ boot) 2080 2160 60 (mkM sw mem0 0 [])) as [mw' []| | | |] eqn:E1; try discriminate. injection E as E2 E3.
    exists C, sw, g, q, t, mw'. split; [exact Hh|]. rewrite E2, E3. split; [cbn; auto|]. split; [cbn; auto|]. split; [exact E1|].
    split; [cbn; auto|]. unfold inside. cbn [fst snd]. lia.
Qed.
Print Assumptions C32_source_bound_refuted.

(** Copying within an allocation between overlapping ranges is undefined behaviour ([std::memcpy],
    HostCopyOperation.cpp:18), whatever the sizes. *)
Theorem C32_overlap_refuted :
  forall ok C (mw : mworld JR (C ++ boot)) g q t rs rd src dst size, shist JR ok C (mw_sys mw) g q t ->
    points ok g rs src -> points ok g rd dst -> 0 < wanted rs src size <= rest rd dst ->
    ~ disj (dst, wanted rs src size) (src, wanted rs src size) ->
    m_copy JR (C ++ boot) dst src size mw = UB.
Proof. exact op_copy_overlap. Qed.
Print Assumptions C32_overlap_refuted.

(** Eight bytes four bytes further in the allocation at 2080. *)
Example C32_overlap_case :
  yobs addr16 bump trio (fun C sw g q t => match m_copy JR (C ++ boot) 2084 2080 8 (mkM sw mem0 0 []) with UB => Some tt | _ => None end) = Some tt.
Proof. vm_compute. reflexivity. Qed.

(** ** C33 *)

(** Exactly the range is filled, or the call is refused without effect when the range does not fit. *)
Theorem C33_memset :
  forall ok C (mw : mworld JR (C ++ boot)) g q t r p v len, shist JR ok C (mw_sys mw) g q t -> points ok g r p -> 0 <= len ->
    exists mw' ts, shist JR ok C (mw_sys mw') g q (ts ++ t) /\ fst (mw_sys mw') = fst (mw_sys mw) /\
      (rest r p < wanted r p len -> m_memset JR (C ++ boot) p v len mw = Throw mw' RuntimeError /\ mw_mem mw' = mw_mem mw /\ mw_log mw' = mw_log mw) /\
      (wanted r p len <= rest r p ->
        m_memset JR (C ++ boot) p v len mw = Ok mw' tt /\ (forall i, 0 <= i < wanted r p len -> mw_mem mw' (p + i) = v mod 256) /\
        only (mw_mem mw) (mw_mem mw') (p, wanted r p len) /\ mw_log mw' = Write (p, wanted r p len) :: mw_log mw).
Proof. exact op_memset. Qed.
Print Assumptions C33_memset.

Theorem C33_memset_unknown :
  forall ok C (mw : mworld JR (C ++ boot)) g q t p v len, shist JR ok C (mw_sys mw) g q t -> (forall P, ok P -> sparse56 P) -> addr_ok p ->
    (forall r, In r g -> ~ covers r p) ->
    exists mw' ts, m_memset JR (C ++ boot) p v len mw = Throw mw' UnknownPointer /\ shist JR ok C (mw_sys mw') g q (ts ++ t) /\
      fst (mw_sys mw') = fst (mw_sys mw) /\ mw_mem mw' = mw_mem mw /\ mw_log mw' = mw_log mw.
Proof. exact op_memset_unknown. Qed.
Print Assumptions C33_memset_unknown.

Example C33_case :
  yobs addr16 bump trio (mview [MMemset 2090 511 4; MMemset 2200 (-1) 0; MMemset 2200 3 11; MMemset 5000 1 1; MMemset 16 9 0] [2089; 2090; 2093; 2094; 2199; 2200; 2209; 2210]) =
    Some ([inl 1; inl 1; inr RuntimeError; inr UnknownPointer; inl 1],
          [(4, 16, 0); (1, 2080, 64); (4, 2160, 50)], [2162; 114; 2048; 1; 50],
          [2089 mod 251; 255; 255; 2094 mod 251; 2199 mod 251; 255; 255; 2210 mod 251]).
Proof. vm_compute. reflexivity. Qed.

(** ** C34 *)

(** A successful move to another allocator: a new allocation of the same size there with the same bytes, the
    old one returned to its owner, no other allocation touched.  One that throws has no effect, unless the owner is
    a DynamicPoolList that coalesces. *)
Theorem C34_move :
  forall noise ok C (mw : mworld JR (C ++ boot)) g q t r i, shist JR ok C (mw_sys mw) g q t -> In r g -> usable (C ++ boot) i ->
    r_strat r <> Z.of_nat i -> r_size r = 0 \/ user_guard (C ++ boot) i (r_size r) (fst (mw_sys mw)) ->
    post (m_move JR (C ++ boot) noise (r_ptr r) i mw)
      (fun mw' p => p <> 0 /\
         (ok (keyed (mkRec p (r_size r) (Z.of_nat i) 0 :: g)) ->
            exists ts, shist JR ok C (mw_sys mw') (mkRec p (r_size r) (Z.of_nat i) 0 :: forget (r_ptr r) g) q (ts ++ t)) /\
         carried (mw_mem mw) (mw_mem mw') (r_ptr r) p (r_size r) /\
         (forall r', In r' (forget (r_ptr r) g) -> kept (mw_mem mw) (mw_mem mw') r') /\
         mw_log mw' = Write (p, r_size r) :: Read (r_ptr r, r_size r) :: mw_log mw)
      (fun mw' e => ~ coalescing (kind_at (C ++ boot) (Z.to_nat (r_strat r))) ->
         (exists ts, shist JR ok C (mw_sys mw') g q (ts ++ t)) /\
         (forall r', In r' g -> kept (mw_mem mw) (mw_mem mw') r') /\ mw_log mw' = mw_log mw).
Proof.
  intros noise ok C mw g q t r i Hh Hr Hu Hs Hg.
  eapply post_impl; [| |exact (op_move noise ok C mw g q t r i Hh Hr Hu Hs Hg)]; cbv beta; [auto|].
  intros mw' e [H|[H _]] Hc; [exact H|contradiction].
Qed.
Print Assumptions C34_move.

(** From a DynamicPoolList that coalesces, a move that throws either has no effect or has moved the allocation all
    the same. *)
Theorem C34_move_dynamic :
  forall noise ok C (mw : mworld JR (C ++ boot)) g q t r i, shist JR ok C (mw_sys mw) g q t -> In r g -> usable (C ++ boot) i ->
    r_strat r <> Z.of_nat i -> r_size r = 0 \/ user_guard (C ++ boot) i (r_size r) (fst (mw_sys mw)) ->
    post (m_move JR (C ++ boot) noise (r_ptr r) i mw) (fun _ _ => True)
      (fun mw' e => (forall r', In r' (forget (r_ptr r) g) -> kept (mw_mem mw) (mw_mem mw') r') /\
         ((exists ts, shist JR ok C (mw_sys mw') g q (ts ++ t)) \/
          exists p, ok (keyed (mkRec p (r_size r) (Z.of_nat i) 0 :: g)) ->
            exists ts, shist JR ok C (mw_sys mw') (mkRec p (r_size r) (Z.of_nat i) 0 :: forget (r_ptr r) g) q (ts ++ t))).
Proof. exact op_move_any. Qed.
Print Assumptions C34_move_dynamic.

(** Such a move: the 64 bytes go to HOST, the call throws, and the caller is not told the new address. *)
Theorem C34_move_dynamic_refuted :
  exists C sw g q t mw' r p, shist JR any_keys C sw g q t /\ In r g /\ r_strat r <> Z.of_nat host_id /\
    m_move JR (C ++ boot) scramble (r_ptr r) host_id (mkM sw mem0 0 []) = Throw mw' OutOfMemory /\
    (exists a', am_find JR (r_ptr r) (snd (mw_sys mw')) = Throw a' UnknownPointer) /\
    exists a', am_find JR p (snd (mw_sys mw')) = Ok a' (mkRec p (r_size r) (Z.of_nat host_id) 0).
Proof.
  set (again := fun C (sw : sworld JR (C ++ boot)) =>
         match m_move JR (C ++ boot) scramble 2176 host_id (mkM sw mem0 0 []) with
         | Throw mw' OutOfMemory =>
             match am_find JR 2176 (snd (mw_sys mw')), am_find JR 2272 (snd (mw_sys mw')) with
             | Throw _ UnknownPointer, Ok _ r => Some (mw', r)
             | _, _ => None
             end
         | _ => None
         end).
  destruct (yobs_hist any_addr any_keys any_addr_ok (bump_failing [4; 5]%nat)
              [YCreate (mkNode (KDynamic (mkDcfg 64 64 16 (dh_blocks_releasable 2))) 1); YAlloc 4 64; YAlloc 4 64; YFree 4 2080]
              (fun C sw g q t => option_map (fun x => (g, snd x)) (again C sw))
              ([mkRec 2176 64 4 0], mkRec 2272 64 1 0)) as (C & sw & g & q & t & Hh & E).
  - intros d [H|[H|[H|[H|[]]]]]; inversion H; subst. apply dheur_ok_all.
  - vm_compute. reflexivity.
  - destruct (again C sw) as [[mw' r]|] eqn:E1; [|discriminate]. unfold again in E1. cbn [option_map snd] in E. injection E as -> ->.
    destruct (m_move JR (C ++ boot) scramble 2176 host_id (mkM sw mem0 0 [])) as [|mw1 []| | |] eqn:E3; try discriminate.
    destruct (am_find JR 2176 (snd (mw_sys mw1))) as [|a' []| | |] eqn:E4; try discriminate.
    destruct (am_find JR 2272 (snd (mw_sys mw1))) as [a2 r2| | | |] eqn:E5; try discriminate. injection E1 as -> ->.
    exists C, sw, [mkRec 2176 64 4 0], q, t, mw', (mkRec 2176 64 4 0), 2272.
    split; [exact Hh|]. split; [now left|]. split; [discriminate|]. split; [exact E3|]. split; eauto.
Qed.
Print Assumptions C34_move_dynamic_refuted.

(** To the allocator it is from: nothing happens. *)
Theorem C34_move_same :
  forall noise ok C (mw : mworld JR (C ++ boot)) g q t r p i, shist JR ok C (mw_sys mw) g q t -> points ok g r p -> r_strat r = Z.of_nat i ->
    exists mw' ts, m_move JR (C ++ boot) noise p i mw = Ok mw' p /\ shist JR ok C (mw_sys mw') g q (ts ++ t) /\
      fst (mw_sys mw') = fst (mw_sys mw) /\ mw_mem mw' = mw_mem mw /\ mw_log mw' = mw_log mw.
Proof. exact op_move_same. Qed.
Print Assumptions C34_move_same.

(** Of an address inside an allocation: refused. *)
Theorem C34_move_interior :
  forall noise ok C (mw : mworld JR (C ++ boot)) g q t r p i, shist JR ok C (mw_sys mw) g q t -> points ok g r p -> r_strat r <> Z.of_nat i ->
    p <> r_ptr r -> exists mw' ts, m_move JR (C ++ boot) noise p i mw = Throw mw' RuntimeError /\ shist JR ok C (mw_sys mw') g q (ts ++ t) /\
      fst (mw_sys mw') = fst (mw_sys mw) /\ mw_mem mw' = mw_mem mw /\ mw_log mw' = mw_log mw.
Proof. exact op_move_interior. Qed.
Print Assumptions C34_move_interior.

(** Both ways, of zero bytes, to the owner, and of an interior address; then one that the target refuses. *)
Example C34_case :
  yobs addr16 bump trio (mview [MMove 2160 1; MMove 2080 4; MMove 16 1; MMove 2288 4; MMove 2300 1] [2224; 2273; 2288; 2351]) =
    Some ([inl 2224; inl 2288; inl 17; inl 2288; inr RuntimeError], [(1, 17, 0); (1, 2224, 50); (4, 2288, 64)], [2162; 114; 2048; 1; 64],
          [2160 mod 251; 2209 mod 251; 2080 mod 251; 2143 mod 251]) /\
  yobs addr16 bump [YAlloc 1 64; YCreate (mkNode (KSizeLimiter 20) 1)] (mview [MMove 2080 4] [2080]) =
    Some ([inr OutOfMemory], [(1, 2080, 64)], [2112; 64; 2048; 0; 0], [2080 mod 251]).
Proof. vm_compute. auto. Qed.
