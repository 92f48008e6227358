(** C37: threads calling allocators at the same time (ConcModel.v).  Every schedule: any number of threads and calls,
    interleaved step by step in any order; the calls need not have returned. *)
From Verif Require Import Base BaseFacts HeapModel StratModel WrapModel QuickPoolModel QuickPoolRun GlobalModel GlobalSpec GlobalRun
  MapModel MapSpec MapThms JudyModel JudyFacts MapMain MapRun SystemModel SystemSpec SystemMain SystemThms SystemRun
  ConcModel ConcSpec ConcFacts ConcMain.

(** C37: calls on one thread-safe allocator are linearizable: what the threads see is what they would see had the calls been
    made one after the other, in an order that respects which call returned before which began.  Between the calls the
    state is the one the sequence leads to. *)
Theorem C37_linearizable :
  forall C i sw acts cfg, (forall t c, In (AInvoke t c) acts -> target c = i) ->
    crun (call_body JR (C ++ boot)) lock_of acts (c_init sw) = Some cfg ->
    exists L s, linear sys_call sw (c_hist cfg) L s /\ (c_owner cfg (Z.of_nat i) = None -> s = c_state cfg).
Proof. exact (fun C i sw acts cfg => lock_one C _ i sw acts cfg (call_body_alone JR (C ++ boot))). Qed.
Print Assumptions C37_linearizable.

(** C37: this does not depend on how the calls are cut into steps, as long as a call running alone does what SystemModel.v
    says. *)
Theorem C37_any_steps :
  forall C body i sw acts cfg, (forall c s s' r, alone (body c) s s' r -> sys_call c s s' r) ->
    (forall t c, In (AInvoke t c) acts -> target c = i) ->
    crun body lock_of acts (c_init sw) = Some cfg ->
    exists L s, linear (sys_call (J := JR) (C := C ++ boot)) sw (c_hist cfg) L s /\ (c_owner cfg (Z.of_nat i) = None -> s = c_state cfg).
Proof. exact (fun C body i sw acts cfg Hb => lock_one C body i sw acts cfg Hb). Qed.
Print Assumptions C37_any_steps.

(** C37: whatever makes a history linearizable, memory handed out by different calls and not given back does not overlap,
    and the state is one a single thread could have reached, with the allocations that are live after the calls. *)
Theorem C37_memory :
  forall C sw g q t H L s, shist JR any_keys C sw g q t -> linear sys_call sw H L s ->
    (forall k t c, In (Inv k t c) H -> legal (C ++ boot) c) ->
    (exists t', shist JR any_keys C s (live_after g L) q t') /\
    forall k k' r r', held L k r -> held L k' r' -> k <> k' -> disj (rreg r) (rreg r').
Proof.
  exact (fun C sw g q t H L s Hh Hl HL => conj
    (inturn_hist C sw g q t L s Hh (ln_turn _ _ _ _ _ Hl)
       (fun k c r Hi => match ln_called _ _ _ _ _ Hl k c r Hi with ex_intro _ t1 Ht => HL k t1 c Ht end))
    (linear_disjoint C sw g q t H L s Hh Hl HL)).
Qed.
Print Assumptions C37_memory.

(** C37: never two threads in the critical section of one allocator. *)
Theorem C37_exclusive :
  forall C i sw acts cfg t u k c p k' c' p', (forall t c, In (AInvoke t c) acts -> target c = i) ->
    crun (call_body JR (C ++ boot)) lock_of acts (c_init sw) = Some cfg ->
    c_place cfg t = Inside k c p -> c_place cfg u = Inside k' c' p' -> t = u.
Proof.
  exact (fun C i sw acts cfg t u k c p k' c' p' Hi E =>
    conc_exclusive (call_body JR (C ++ boot)) (fun _ => Z.of_nat i) (Z.of_nat i) (fun _ => eq_refl) sys_call (call_body_alone JR (C ++ boot)) sw acts cfg t u k c p k' c' p'
      (eq_trans (eq_sym (proj1 (crun_same _ lock_of (Z.of_nat i) acts (c_init sw)
         (fun t c H => f_equal Z.of_nat (Hi t c H)) (init_same lock_of (Z.of_nat i) sw)))) E)).
Qed.
Print Assumptions C37_exclusive.

(** C37: no deadlock, also after calls that threw: while a call is pending some thread can go on, except where the call that
    holds the mutex ends the process. *)
Theorem C37_progress :
  forall C i sw g q t acts cfg u, shist JR any_keys C sw g q t ->
    (forall t c, In (AInvoke t c) acts -> target c = i /\ legal (C ++ boot) c) ->
    crun (call_body JR (C ++ boot)) lock_of acts (c_init sw) = Some cfg -> c_place cfg u <> Idle ->
    (exists a cfg', cexec (call_body JR (C ++ boot)) lock_of a cfg = Some cfg' /\ forall t c, a <> AInvoke t c) \/
    exists v k c p L s, c_place cfg v = Inside k c p /\ linear sys_call sw (c_hist cfg) L s /\ stops c s.
Proof. exact lock_progress. Qed.
Print Assumptions C37_progress.

(** Threads 1 and 2 allocate from one thread-safe allocator over a FixedPool.  The second has to wait while the first is
    between its steps; the first frees what it got while the second is running. *)
Definition one_lock : list ycall := [YCreate (mkNode (KFixed 64 64 1) 1); YCreate (mkNode KPassThrough 4)].
Example C37_case :
  yobs any_addr bump one_lock (fun C sw g q t =>
    option_map (fun cfg => (rev (c_hist cfg), gstats (C ++ boot) 5 (fst (c_state cfg))))
      (crun (call_body JR (C ++ boot)) lock_of
         [AInvoke 1 (TAlloc 5 16 0); AInvoke 2 (TAlloc 5 8 0); ALock 1; AStep 1; AStep 1; AStep 1; AStep 1; AStep 1; AUnlock 1; ALock 2; AStep 2; AReturn 1;
          AInvoke 1 (TFree 5 2080); AStep 2; AStep 2; AStep 2; AStep 2; AUnlock 2; ALock 1; AStep 1; AReturn 2; AStep 1; AStep 1; AStep 1; AUnlock 1; AReturn 1]
         (c_init sw))) =
  Some ([Inv 0 1 (TAlloc 5 16 0); Inv 1 2 (TAlloc 5 8 0); Res 0 (RPtr 2080); Inv 2 1 (TFree 5 2080); Res 1 (RPtr 2144); Res 2 RUnit], mkStats 8 24 1) /\
  yobs any_addr bump one_lock (fun C sw g q t =>
    option_map (fun cfg => c_hist cfg)
      (crun (call_body JR (C ++ boot)) lock_of [AInvoke 1 (TAlloc 5 16 0); AInvoke 2 (TAlloc 5 8 0); ALock 1; AStep 1; ALock 2] (c_init sw))) = None.
Proof. vm_compute. split; reflexivity. Qed.

(** C37 does not extend to two thread-safe allocators over one pool: each has a mutex of its own, and nothing protects the
    pool.  Both threads get the same memory, which no order of the calls explains. *)
Definition two_locks : list ycall := [YCreate (mkNode (KFixed 64 64 1) 1); YCreate (mkNode KPassThrough 4); YCreate (mkNode KPassThrough 4)].
Theorem C37_shared_pool_refuted :
  exists C sw g q t acts cfg, shist JR any_keys C sw g q t /\ (forall t c, In (AInvoke t c) acts -> legal (C ++ boot) c) /\
    (forall c s s' r, alone (racing_body JR (C ++ boot) c) s s' r -> sys_call c s s' r) /\
    crun (racing_body JR (C ++ boot)) lock_of acts (c_init sw) = Some cfg /\
    (exists p, In (Res 0 (RPtr p)) (c_hist cfg) /\ In (Res 1 (RPtr p)) (c_hist cfg)) /\
    forall L s, ~ linear sys_call sw (c_hist cfg) L s.
Proof.
  set (acts := [AInvoke 1 (TAlloc 5 16 0); AInvoke 2 (TAlloc 6 16 0); ALock 1; ALock 2; AStep 1; AStep 2; AStep 1; AStep 2; AStep 1; AStep 2;
                AUnlock 1; AUnlock 2; AReturn 1; AReturn 2] : list (act tcall)).
  destruct (yobs_hist any_addr any_keys any_addr_ok bump two_locks
              (fun C sw g q t => option_map (fun cfg => (C, c_hist cfg)) (crun (racing_body JR (C ++ boot)) lock_of acts (c_init sw)))
              ([mkNode KPassThrough 4; mkNode KPassThrough 4; mkNode (KFixed 64 64 1) 1],
               [Res 1 (RPtr 2080); Res 0 (RPtr 2080); Inv 1 2 (TAlloc 6 16 0); Inv 0 1 (TAlloc 5 16 0)])) as (C & sw & g & q & t & Hh & E).
  - intros d [H|[H|[H|[]]]]; inversion H; subst; exact I.
  - vm_compute. reflexivity.
  - destruct (crun (racing_body JR (C ++ boot)) lock_of acts (c_init sw)) as [cfg|] eqn:Ec; [|discriminate]. cbn [option_map] in E. injection E as EC EH.
    assert (HL : forall t c, In (AInvoke t c) acts -> legal (C ++ boot) c).
    { rewrite EC. intros t1 c1 [H|[H|H]]; [injection H as <- <-|injection H as <- <-|exfalso; cbn [In] in H; repeat (destruct H as [H|H]; [discriminate|]); exact H];
        (split; [right; cbn; lia|right; intros w; apply user_guardb_ok; reflexivity]). }
    exists C, sw, g, q, t, acts, cfg. split; [exact Hh|]. split; [exact HL|]. split; [apply racing_body_alone|]. split; [exact Ec|]. rewrite EH. split; [exists 2080; cbn [In]; auto|].
    intros L s Hl. assert (Hleg : forall k t c, In (Inv k t c) (c_hist cfg) -> legal (C ++ boot) c).
    { intros k1 t1 c1 H1. destruct (crun_invoked _ _ acts _ _ Ec k1 t1 c1 H1) as [[]|H2]. exact (HL t1 c1 H2). }
    rewrite <- EH in Hl. pose proof (linear_disjoint C sw g q t _ L s Hh Hl Hleg) as HD. rewrite EH in Hl. clear - Hl HD.
    assert (Hc : forall k c r, In (k, c, r) L -> (k = 0%nat /\ c = TAlloc 5 16 0) \/ (k = 1%nat /\ c = TAlloc 6 16 0)).
    { intros k c r Hi. destruct (ln_called _ _ _ _ _ Hl k c r Hi) as (t1 & [H|[H|[H|[H|[]]]]]); try discriminate; injection H as <- <- <-; auto. }
    assert (Hheld : forall k i, In (k, TAlloc i 16 0, RPtr 2080) L -> held L k (mkRec 2080 16 (Z.of_nat i) 0)).
    { intros k i Hi. apply in_split in Hi as (a & b & ->). exists a, b, i. split; [reflexivity|]. split; [reflexivity|].
      intros k' j x Hj. destruct (Hc k' (TFree j 2080) x) as [[_ H]|[_ H]]; [apply in_or_app; now left|discriminate|discriminate]. }
    destruct (ln_result _ _ _ _ _ Hl 0%nat (RPtr 2080)) as (c0 & H0); [cbn [In]; auto|]. destruct (ln_result _ _ _ _ _ Hl 1%nat (RPtr 2080)) as (c1 & H1); [cbn [In]; auto|].
    destruct (Hc _ _ _ H0) as [[_ ->]|[H _]]; [|discriminate]. destruct (Hc _ _ _ H1) as [[H _]|[_ ->]]; [discriminate|].
    specialize (HD 0%nat 1%nat _ _ (Hheld _ _ H0) (Hheld _ _ H1) ltac:(discriminate)). unfold disj, rreg in HD. cbn in HD. lia.
Qed.
Print Assumptions C37_shared_pool_refuted.

(** C37 does not extend to a deallocation through the wrong allocator: the record is taken out of the registry while the
    owner of the memory looks for it (Inspector.cpp:44-52).  Both calls throw and the owner's memory is leaked until it is
    tried again, though in every order of the calls the owner succeeds. *)
Theorem C37_wrong_owner_refuted :
  exists C sw g q t acts cfg r, shist JR any_keys C sw g q t /\ (forall t c, In (AInvoke t c) acts -> legal (C ++ boot) c) /\
    crun (call_body JR (C ++ boot)) lock_of acts (c_init sw) = Some cfg /\
    In r g /\ r_strat r = 4 /\ In (Inv 1 2 (TFree 4 (r_ptr r))) (c_hist cfg) /\ In (Res 1 (RExn RuntimeError)) (c_hist cfg) /\
    forall L s, ~ linear sys_call sw (c_hist cfg) L s.
Proof.
  set (acts := [AInvoke 1 (TFree 5 2080); AInvoke 2 (TFree 4 2080); ALock 1; ALock 2; AStep 1; AStep 2; AStep 1;
                AUnlock 1; AUnlock 2; AReturn 1; AReturn 2] : list (act tcall)).
  destruct (yobs_hist any_addr any_keys any_addr_ok bump [YCreate (mkNode KPassThrough 1); YCreate (mkNode KPassThrough 1); YAlloc 4 16]
              (fun C sw g q t => option_map (fun cfg => (C, g, c_hist cfg)) (crun (call_body JR (C ++ boot)) lock_of acts (c_init sw)))
              ([mkNode KPassThrough 1; mkNode KPassThrough 1], [mkRec 2080 16 4 0],
               [Res 1 (RExn RuntimeError); Res 0 (RExn RuntimeError); Inv 1 2 (TFree 4 2080); Inv 0 1 (TFree 5 2080)])) as (C & sw & g & q & t & Hh & E).
  - intros d [H|[H|[H|[]]]]; inversion H; subst; exact I.
  - vm_compute. reflexivity.
  - destruct (crun (call_body JR (C ++ boot)) lock_of acts (c_init sw)) as [cfg|] eqn:Ec; [|discriminate]. cbn [option_map] in E. injection E as EC Eg EH.
    assert (HL : forall t c, In (AInvoke t c) acts -> legal (C ++ boot) c).
    { rewrite EC. intros t1 c1 [H|[H|H]]; [injection H as <- <-|injection H as <- <-|exfalso; cbn [In] in H; repeat (destruct H as [H|H]; [discriminate|]); exact H];
        (split; [right; cbn; lia|unfold addr_ok, M64; lia]). }
    exists C, sw, g, q, t, acts, cfg, (mkRec 2080 16 4 0). split; [exact Hh|]. split; [exact HL|]. split; [exact Ec|]. rewrite EH, Eg.
    split; [now left|]. split; [reflexivity|]. split; [cbn [In r_ptr]; auto|]. split; [cbn [In]; auto|].
    intros L s Hl. assert (Hleg : forall k t c, In (Inv k t c) (c_hist cfg) -> legal (C ++ boot) c).
    { intros k1 t1 c1 H1. destruct (crun_invoked _ _ acts _ _ Ec k1 t1 c1 H1) as [[]|H2]. exact (HL t1 c1 H2). }
    rewrite EH in Hleg. assert (Hno : forall i, ~ coalescing (kind_at (C ++ boot) i)) by (rewrite EC; intros i; do 6 (destruct i as [|i]; [intros []|]); destruct i; intros []). clear - Hl Hleg Hh Eg Hno.
    assert (Hc : forall k c r, In (k, c, r) L -> (k = 0%nat /\ c = TFree 5 2080) \/ (k = 1%nat /\ c = TFree 4 2080)).
    { intros k c r Hi. destruct (ln_called _ _ _ _ _ Hl k c r Hi) as (t1 & [H|[H|[H|[H|[]]]]]); try discriminate; injection H as <- <- <-; auto. }
    destruct (ln_result _ _ _ _ _ Hl 0%nat (RExn RuntimeError)) as (c0 & H0); [cbn [In]; auto|]. destruct (ln_result _ _ _ _ _ Hl 1%nat (RExn RuntimeError)) as (c1 & H1); [cbn [In]; auto|].
    assert (He : forall k c r, In (k, c, r) L -> exists e, r = RExn e).
    { intros k c r Hi. assert (Hu : forall x y : nat * tcall * tres, In x L -> In y L -> id_of x = id_of y -> x = y).
      { pose proof (ln_once _ _ _ _ _ Hl) as Hn. clear -Hn. induction L as [|z L IH]; intros x y Hx Hy E; [contradiction|]. cbn [map] in Hn. inversion Hn as [|? ? Hz Hn']; subst.
        destruct Hx as [->|Hx], Hy as [->|Hy]; auto; [elim Hz; rewrite E; now apply in_map|elim Hz; rewrite <- E; now apply in_map]. }
      destruct (Hc k c r Hi) as [[-> _]|[-> _]]; [pose proof (Hu _ _ Hi H0 eq_refl) as H|pose proof (Hu _ _ Hi H1 eq_refl) as H]; injection H as _ ->; eauto. }
    destruct (Hc _ _ _ H1) as [[H _]|[_ ->]]; [discriminate|].
    apply (refused_absurd C sw g q t L s 1%nat (mkRec 2080 16 4 0) RuntimeError Hh (ln_turn _ _ _ _ _ Hl)); [|exact Hno|exact He|rewrite Eg; now left|exact H1].
    intros k c r Hi. destruct (ln_called _ _ _ _ _ Hl k c r Hi) as (t1 & Ht). exact (Hleg k t1 c Ht).
Qed.
Print Assumptions C37_wrong_owner_refuted.
