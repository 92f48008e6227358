(** Reallocate and move. *)
From Verif Require Import Base BaseFacts HeapModel StratModel StratFacts QuickPoolModel FixedPoolModel
  GlobalModel GlobalSpec GlobalFacts GlobalFrame MapModel MapSpec MapThms AllocMapThms JudyModel JudyFacts JudyUpdate MapMain
  SystemModel SystemSpec SystemFacts SystemMain SystemThms OpsModel OpsSpec OpsFacts.

Lemma kept_trans m1 m2 m3 r : kept m1 m2 r -> kept m2 m3 r -> kept m1 m3 r.
Proof. intros H1 H2 x Hx. rewrite H2, H1; auto. Qed.

Lemma shist_disj C sw g q t r r' : shist JR any_keys C sw (r :: g) q t -> In r' g -> disj (rreg r) (rreg r').
Proof. intros Hh Hr. destruct (sy_registered any_keys any_keys_monotone C sw _ q t Hh) as (_ & _ & _ & [Hd _] & _). auto. Qed.

Lemma only_kept m m' d n r r' : only m m' (d, n) -> d = r_ptr r -> n <= r_size r -> disj (rreg r) (rreg r') -> kept m m' r'.
Proof.
  intros Ho -> Hn Hd x Hx. apply Ho. cbn [fst snd]. unfold disj, rreg in Hd. cbn [fst snd] in Hd.
  destruct (Z.eqb_spec (r_size r) 0), (Z.eqb_spec (r_size r') 0); lia.
Qed.

Lemma forget_length p g : (length (forget p g) <= length g)%nat.
Proof. induction g as [|x g IH]; [auto|]. cbn [forget length]. destruct (r_ptr x =? p); cbn [length]; lia. Qed.

Section Ops.
  Context (noise : nat -> mem -> mem).
  Notation mworld C := (mworld JR (C ++ boot)).
  Notation leads := (leads).

  (** Into a new block, then the old one is given back: what reallocate and move do. *)
  Definition renewed (C : list nodecfg) (mw mw' : mworld C) (g : list arec) (q : list nat) (r : arec) (n strat p k : Z) : Prop :=
    p <> 0 /\
    leads C (mw_sys mw) g q (mw_sys mw') (mkRec p n strat 0 :: forget (r_ptr r) g) q (fun ok => ok (keyed (mkRec p n strat 0 :: g))) /\
    carried (mw_mem mw) (mw_mem mw') (r_ptr r) p k /\
    (forall r', In r' (forget (r_ptr r) g) -> kept (mw_mem mw) (mw_mem mw') r') /\
    mw_log mw' = Write (p, k) :: Read (r_ptr r, k) :: mw_log mw.

  Definition unharmed (C : list nodecfg) (mw mw' : mworld C) (g : list arec) (q : list nat) : Prop :=
    leads C (mw_sys mw) g q (mw_sys mw') g q (fun _ => True) /\
    (forall r, In r g -> kept (mw_mem mw) (mw_mem mw') r) /\ mw_log mw' = mw_log mw.

  Lemma quiet_unharmed C (mw mw' : mworld C) g q : quiet mw mw' g q -> unharmed C mw mw' g q.
  Proof. intros (A & B & D & E & F). split; [exact F|]. split; [|exact E]. intros r _ x _. now rewrite B. Qed.

  Lemma leads_then C s1 g1 q1 s2 g2 q2 s3 g3 q3 d : leads C s1 g1 q1 s2 g2 q2 d -> leads C s2 g2 q2 s3 g3 q3 (fun _ => True) ->
    leads C s1 g1 q1 s3 g3 q3 d.
  Proof.
    intros H1 H2. eapply leads_weaken; [|exact (leads_trans _ _ _ _ _ _ _ _ _ _ _ _ H1 H2)]. intros ok H. split; [exact H|exact I].
  Qed.

  Lemma then_leads C s1 g1 q1 s2 g2 q2 s3 g3 q3 d : leads C s1 g1 q1 s2 g2 q2 (fun _ => True) -> leads C s2 g2 q2 s3 g3 q3 d ->
    leads C s1 g1 q1 s3 g3 q3 d.
  Proof.
    intros H1 H2. eapply leads_weaken; [|exact (leads_trans _ _ _ _ _ _ _ _ _ _ _ _ H1 H2)]. intros ok H. split; [exact I|exact H].
  Qed.

  Lemma quiet_renewed C (m0 mw mw' : mworld C) g q r n strat p k : quiet m0 mw g q -> renewed C mw mw' g q r n strat p k ->
    renewed C m0 mw' g q r n strat p k.
  Proof.
    intros (A & B & D & E & F) (R1 & R2 & R3 & R4 & R5). rewrite B in *. rewrite E in *. split; [exact R1|]. split; [|auto].
    eapply then_leads; eauto.
  Qed.

  Lemma quiet_unharmed_trans C (m0 mw mw' : mworld C) g q : quiet m0 mw g q -> unharmed C mw mw' g q -> unharmed C m0 mw' g q.
  Proof.
    intros (A & B & D & E & F) (R1 & R2 & R3). rewrite B in *. rewrite E in *. split; [eapply then_leads; eauto|auto].
  Qed.

  (** The old block is given back with an exception: the new one stays, unknown to the caller. *)
  Definition leaked (C : list nodecfg) (mw mw' : mworld C) (g : list arec) (q : list nat) (r : arec) (n strat : Z) : Prop :=
    coalescing (kind_at (C ++ boot) (Z.to_nat (r_strat r))) /\
    (forall r', In r' (forget (r_ptr r) g) -> kept (mw_mem mw) (mw_mem mw') r') /\
    exists p, leads C (mw_sys mw) g q (mw_sys mw') (mkRec p n strat 0 :: forget (r_ptr r) g) q (fun ok => ok (keyed (mkRec p n strat 0 :: g))).

  Lemma quiet_leaked C (m0 mw mw' : mworld C) g q r n strat : quiet m0 mw g q -> leaked C mw mw' g q r n strat -> leaked C m0 mw' g q r n strat.
  Proof.
    intros (A & B & D & E & F) (R1 & R2 & p & R3). rewrite B in *. split; [exact R1|]. split; [exact R2|]. exists p. eapply then_leads; eauto.
  Qed.

  (** The common middle part. *)
  Lemma renew_ok C (mw : mworld C) g q t r i n size (free : sworld JR (C ++ boot) -> outcome (sworld JR (C ++ boot)) unit) :
    shist JR any_keys C (mw_sys mw) g q t -> In r g -> usable (C ++ boot) i ->
    n = 0 \/ user_guard (C ++ boot) i n (fst (mw_sys mw)) ->
    0 <= size -> wanted r (r_ptr r) size = Z.min (r_size r) n ->
    (forall m1 g1 t1, shist JR any_keys C (mw_sys m1) g1 q t1 -> In r g1 ->
       post (m_call JR (C ++ boot) noise free m1)
         (fun m2 _ => freed C m1 m2 g1 q r) (fun m2 _ => coalescing (kind_at (C ++ boot) (Z.to_nat (r_strat r))) /\ freed C m1 m2 g1 q r)) ->
    post (let* (mw1, p) := m_call JR (C ++ boot) noise (sys_allocate JR (C ++ boot) i n 0) mw in
          let* (mw2, u) := m_copy JR (C ++ boot) p (r_ptr r) size mw1 in
          let* (mw3, u) := m_call JR (C ++ boot) noise free mw2 in
          Ok mw3 p)
      (fun mw' p => renewed C mw mw' g q r n (Z.of_nat i) p (Z.min (r_size r) n))
      (fun mw' _ => unharmed C mw mw' g q \/ leaked C mw mw' g q r n (Z.of_nat i)).
  Proof.
    intros Hh Hr Hu Hg Hs Hw Hfree. apply post_bind.
    eapply post_impl; [| |exact (m_alloc_ok noise C mw g q t i n 0 Hh Hu Hg)]; cbv beta; [|intros mw' e H; left; exact H].
    intros m1 p (A & B & D & HL & HK & HG). set (nr := mkRec p n (Z.of_nat i) 0) in *.
    destruct (HL any_keys t Hh I) as (ts1 & H1).
    pose proof (live_facts _ _ _ _ _ nr H1 (or_introl eq_refl)) as (N1 & N2 & N3 & _). cbn [nr r_ptr r_size] in N1, N2, N3.
    pose proof (live_facts _ _ _ _ _ r H1 (or_intror Hr)) as (L1 & L2 & L3 & _).
    pose proof (shist_disj _ _ _ _ _ nr r H1 Hr) as Hd.
    assert (Ps : points any_keys (nr :: g) r (r_ptr r)) by (split; [now right|now left]).
    assert (Pd : points any_keys (nr :: g) nr p) by (split; [now left|now left]).
    assert (Hrest : rest nr p = n) by (unfold rest; cbn [nr r_ptr r_size]; lia).
    destruct (m_copy_ok any_keys C m1 (nr :: g) q (ts1 ++ t) r nr (r_ptr r) p size H1 Ps Pd Hs) as (m2 & E2 & HL2 & _ & Hcar & Honly & Hlog).
    { rewrite Hrest, Hw. lia. }
    { rewrite Hw. unfold disj, rreg in Hd |- *. cbn [nr fst snd r_ptr r_size] in Hd |- *.
      destruct (Z.eqb_spec n 0), (Z.eqb_spec (r_size r) 0); lia. }
    rewrite Hw in Hcar, Honly, Hlog. rewrite E2. cbn [bind]. apply post_bind.
    destruct (HL2 any_keys _ H1 I) as (ts2 & H2).
    assert (Ef : forget (r_ptr r) (nr :: g) = nr :: forget (r_ptr r) g).
    { cbn [forget]. replace (r_ptr nr =? r_ptr r) with false; [reflexivity|]. cbn [nr r_ptr]. pose proof (D r Hr). lia. }
    eapply post_impl; [| |exact (Hfree m2 (nr :: g) _ H2 (or_intror Hr))]; cbv beta.
    2: { intros m3 e0 (Hc & HL3 & HK3 & HG3). right. rewrite Ef in *. split; [exact Hc|]. split.
         - intros r' Hr'. eapply kept_trans; [|apply HK3; now right]. pose proof (in_forget _ _ _ Hr') as Hr2.
           eapply kept_trans; [apply HK, Hr2|].
           eapply (only_kept _ _ p _ nr); [exact Honly|reflexivity|cbn [nr r_size]; lia|exact (shist_disj _ _ _ _ _ nr r' H1 Hr2)].
         - exists p. eapply leads_then; [exact HL|]; eapply leads_then; [exact HL2|exact HL3]. }
    intros m3 [] (HL3 & HK3 & HG3). cbn [post].
    rewrite Ef in *. split; [exact B|]. split; [eapply leads_then; [exact HL|]; eapply leads_then; [exact HL2|exact HL3]|].
    split; [|split].
    - intros j Hj. rewrite (HK3 nr (or_introl eq_refl)) by (cbn [nr r_ptr r_size]; lia). rewrite (Hcar j Hj). apply (HK r Hr). lia.
    - intros r' Hr'. eapply kept_trans; [|apply HK3; now right]. pose proof (in_forget _ _ _ Hr') as Hr2.
      eapply kept_trans; [apply HK, Hr2|].
      eapply (only_kept _ _ p _ nr); [exact Honly|reflexivity|cbn [nr r_size]; lia|exact (shist_disj _ _ _ _ _ nr r' H1 Hr2)].
    - rewrite HG3, Hlog, HG. reflexivity.
  Qed.

  Lemma generic_ok C (mw : mworld C) g q t r n : shist JR any_keys C (mw_sys mw) g q t -> In r g -> n <> 0 ->
    user_guard (C ++ boot) (Z.to_nat (r_strat r)) n (fst (mw_sys mw)) -> 0 <= n ->
    post (m_realloc_generic JR (C ++ boot) noise (r_ptr r) r n mw)
      (fun mw' p => renewed C mw mw' g q r n (r_strat r) p (Z.min (r_size r) n))
      (fun mw' _ => unharmed C mw mw' g q \/ leaked C mw mw' g q r n (r_strat r)).
  Proof.
    intros Hh Hr Hn Hg Hn0. destruct (live_facts _ _ _ _ _ _ Hh Hr) as (A & B & D & E & F & G).
    unfold m_realloc_generic. eapply post_impl; [intros mw' p H; rewrite F; exact H|intros mw' e H; rewrite F; exact H|].
    apply (renew_ok C mw g q t r _ n (if n <? r_size r then n else r_size r)
             (sys_deallocate JR (C ++ boot) (Z.to_nat (r_strat r)) (r_ptr r)) Hh Hr G (or_intror Hg)).
    - destruct (n <? r_size r); lia.
    - unfold wanted, rest. destruct (Z.ltb_spec n (r_size r)).
      + destruct (Z.eqb_spec n 0); lia.
      + destruct (Z.eqb_spec (r_size r) 0); lia.
    - intros m1 g1 t1 H1 Hr1. exact (m_free_ok noise C m1 g1 q t1 r H1 Hr1).
  Qed.

  (** The C library's [realloc]. *)
  Definition resized (C : list nodecfg) (mw mw' : mworld C) (g : list arec) (q : list nat) (r : arec) (n p : Z) : Prop :=
    p <> 0 /\
    leads C (mw_sys mw) g q (mw_sys mw') (mkRec p n (r_strat r) 0 :: forget (r_ptr r) g) (host_id :: q)
      (fun ok => ok (keyed (mkRec p n (r_strat r) 0 :: forget (r_ptr r) g))) /\
    carried (mw_mem mw) (mw_mem mw') (r_ptr r) p (Z.min (r_size r) n) /\
    (forall r', In r' (forget (r_ptr r) g) -> kept (mw_mem mw) (mw_mem mw') r') /\
    mw_log mw' = Write (p, Z.min (r_size r) n) :: Read (r_ptr r, Z.min (r_size r) n) :: mw_log mw.

  (** The record is gone, the memory is not. *)
  Definition lost (C : list nodecfg) (mw mw' : mworld C) (g : list arec) (r : arec) (e : exn) : Prop :=
    e = RuntimeError /\ fst (mw_sys mw') = gtick (C ++ boot) (fst (mw_sys mw)) /\
    (forall r', In r' (forget (r_ptr r) g) -> kept (mw_mem mw) (mw_mem mw') r') /\
    exists g2, ahist JR any_keys (g2, snd (mw_sys mw')) /\ Permutation g2 (reg (forget (r_ptr r) g)).

  Lemma libc_ok C (mw : mworld C) g q t r n : shist JR any_keys C (mw_sys mw) g q t -> In r g -> r_strat r = Z.of_nat host_id ->
    r_size r <> 0 -> 0 < n < M64 ->
    post (m_realloc_host JR (C ++ boot) noise (r_ptr r) r n mw)
      (fun mw' p => resized C mw mw' g q r n p)
      (fun mw' e => lost C mw mw' g r e).
  Proof.
    intros Hh Hr Hst Hsz Hn. destruct (any_inv _ _ _ _ _ Hh) as (HS & _ & _ & HQ). unfold m_realloc_host. apply post_bind.
    unfold m_call. apply post_omap. cbn [mw_sys mw_mem mw_log mw_calls].
    pose proof (sys_host_realloc_ok JR sparse56 jrel jloc jplain judy_array_ok any_keys any_keys_monotone q C (fst (mw_sys mw)) (snd (mw_sys mw)) g r n HQ HS Hr Hst Hsz Hn) as HP.
    rewrite <- surjective_pairing in HP. eapply post_impl; [| |apply post_keep, HP]; cbv beta.
    - intros sw' p (E & A & B & D & _ & Hsi). cbn [post mw_sys mw_mem mw_log].
      assert (HL : leads C (mw_sys mw) g q sw' (mkRec p n (r_strat r) 0 :: forget (r_ptr r) g) (host_id :: q)
                     (fun ok => ok (keyed (mkRec p n (r_strat r) 0 :: forget (r_ptr r) g)))).
      { intros ok t' Hh' Ho. exists [snap (C ++ boot) (fst sw')]. rewrite Hst in *. eapply sh_realloc; eauto. }
      destruct (HL any_keys t Hh I) as (ts & H'). split; [exact B|]. split; [exact HL|]. split; [|split; [|reflexivity]].
      + intros j Hj. cbn [mw_mem]. replace ((p <=? p + j) && (p + j <? p + Z.min (r_size r) n)) with true by lia. f_equal. lia.
      + intros r' Hr' x Hx. cbn [mw_mem].
        pose proof (shist_disj _ _ _ _ _ (mkRec p n (r_strat r) 0) r' H' Hr') as Hd. unfold disj, rreg in Hd. cbn [fst snd r_ptr r_size] in Hd.
        replace ((p <=? x) && (x <? p + Z.min (r_size r) n)) with false.
        * eapply (settle_kept noise); [exact Hh|exact H'|eapply in_forget; exact Hr'|now right|exact Hx].
        * destruct (Z.eqb_spec n 0); [lia|]. destruct (Z.eqb_spec (r_size r') 0); lia.
    - intros sw' e (E & A & B & g2 & D1 & D2). unfold lost. cbn [mw_sys mw_mem]. split; [exact A|]. split; [exact B|]. split; [|eauto].
      intros r' Hr' x Hx. unfold settle. rewrite (proj2 (cover_ok _ _ _ _ _ x Hh)) by (exists r'; split; [eapply in_forget; eauto|exact Hx]).
      rewrite (proj2 (cover_reg _ g2 _ x D1 D2 (fun r0 H0 => proj1 (live_facts _ _ _ _ _ _ Hh (in_forget _ _ _ H0))) ltac:(pose proof (live_count _ _ _ _ _ Hh); pose proof (forget_length (r_ptr r) g); lia)))
        by (exists r'; auto). reflexivity.
  Qed.

  Lemma by_libc_true r : by_libc r = true -> r_strat r = Z.of_nat host_id /\ r_size r <> 0.
  Proof. unfold by_libc. intros H. apply andb_prop in H as [H1 H2]. split; [lia|]. destruct (Z.eqb_spec (r_size r) 0); [discriminate|auto]. Qed.

  (** [reallocate] of a live allocation with its own allocator. *)
  Lemma with_ok C (mw : mworld C) g q t r n : shist JR any_keys C (mw_sys mw) g q t -> In r g -> 0 <= n ->
    n = 0 \/ user_guard (C ++ boot) (Z.to_nat (r_strat r)) n (fst (mw_sys mw)) ->
    post (m_reallocate_with JR (C ++ boot) noise (r_ptr r) n (Z.to_nat (r_strat r)) mw)
      (fun mw' p => p <> 0 /\
         leads C (mw_sys mw) g q (mw_sys mw') (mkRec p n (r_strat r) 0 :: forget (r_ptr r) g) (unclaimed r n q)
           (fun ok => ok (keyed (mkRec p n (r_strat r) 0 :: (if by_libc r || (n =? 0) then forget (r_ptr r) g else g)))) /\
         carried (mw_mem mw) (mw_mem mw') (r_ptr r) p (Z.min (r_size r) n) /\
         (forall r', In r' (forget (r_ptr r) g) -> kept (mw_mem mw) (mw_mem mw') r') /\
         forall x, In x (mw_log mw') -> In x (mw_log mw) \/ x = Write (p, Z.min (r_size r) n) \/ x = Read (r_ptr r, Z.min (r_size r) n))
      (fun mw' e =>
         if n =? 0 then
           leads C (mw_sys mw) g q (mw_sys mw') (forget (r_ptr r) g) q (fun _ => True) /\
           (forall r', In r' (forget (r_ptr r) g) -> kept (mw_mem mw) (mw_mem mw') r')
         else if by_libc r then
           lost C mw mw' g r e
         else unharmed C mw mw' g q \/ leaked C mw mw' g q r n (r_strat r)).
  Proof.
    intros Hh Hr Hn0 Hg. destruct (live_facts _ _ _ _ _ _ Hh Hr) as (A & B & D & E & F & G).
    unfold m_reallocate_with. destruct (Z.eqb_spec (r_ptr r) 0); [lia|].
    assert (Hp : points any_keys g r (r_ptr r)) by (split; [exact Hr|now left]).
    destruct (m_find_ok any_keys C mw g q t r (r_ptr r) Hh Hp) as (m1 & E1 & Q1).
    rewrite E1. cbn [bind]. destruct (Z.eqb_spec (r_strat r) (Z.of_nat (Z.to_nat (r_strat r)))); [|lia]. cbn [negb].
    destruct (quiet_shist _ _ _ _ _ _ _ Q1 Hh) as (ts1 & H1). destruct Q1 as (Q1a & Q1b & Q1c & Q1d & Q1e).
    destruct (Z.eqb_spec n 0) as [En|En].
    - subst n. unfold unclaimed. cbn [Z.eqb negb]. rewrite andb_false_r, orb_true_r. apply post_bind.
      eapply post_impl; [| |exact (m_free_ok noise C m1 g q (ts1 ++ t) r H1 Hr)]; cbv beta.
      2: { intros m2 e0 (_ & HL2 & HK2 & _). split; [eapply then_leads; [exact Q1e|exact HL2]|]. intros r' Hr'. rewrite <- Q1b. apply HK2, Hr'. }
      intros m2 [] (HL2 & HK2 & HG2). destruct (HL2 any_keys _ H1 I) as (ts2 & H2).
      eapply post_impl; [| |exact (m_alloc_ok noise C m2 (forget (r_ptr r) g) q _ (Z.to_nat (r_strat r)) 0 0 H2 G (or_introl eq_refl))]; cbv beta.
      + intros m3 p (N1 & N2 & N3 & HL3 & HK3 & HG3). rewrite <- F in HL3. split; [exact N2|]. split; [|split; [|split]].
        * eapply then_leads; [exact Q1e|]. eapply then_leads; [exact HL2|exact HL3].
        * intros j Hj. lia.
        * intros r' Hr'. rewrite <- Q1b. eapply kept_trans; [apply HK2, Hr'|apply HK3, Hr'].
        * intros x Hx. left. rewrite HG3, HG2, Q1d in Hx. exact Hx.
      + intros m3 e' (HL3 & HK3 & HG3). split; [eapply then_leads; [exact Q1e|]; eapply then_leads; [exact HL2|exact HL3]|].
        intros r' Hr'. rewrite <- Q1b. eapply kept_trans; [apply HK2, Hr'|apply HK3, Hr'].
    - rewrite Z.eqb_refl. cbn [negb]. destruct Hg as [Hg|Hg]; [lia|].
      assert (Hc : negb (Nat.eqb (Z.to_nat (r_strat r)) host_id) || (r_size r =? 0) = negb (by_libc r)).
      { unfold by_libc. rewrite negb_andb, negb_involutive. f_equal. f_equal. destruct (Nat.eqb_spec (Z.to_nat (r_strat r)) host_id); lia. }
      rewrite Hc. unfold unclaimed. destruct (by_libc r) eqn:El; cbn [negb].
      + apply by_libc_true in El as [El1 El2]. destruct (Z.eqb_spec n 0) as [|_]; [lia|]. cbn [negb andb orb].
        assert (Hn : 0 < n < M64) by (rewrite El1, Nat2Z.id in Hg; eapply guard_host; exact Hg).
        eapply post_impl; [| |exact (libc_ok C m1 g q _ r n H1 Hr El1 El2 Hn)]; cbv beta.
        * intros m2 p (R1 & R2 & R3 & R4 & R5). rewrite Q1b, Q1d in *. split; [exact R1|]. split; [eapply then_leads; [exact Q1e|exact R2]|].
          split; [exact R3|]. split; [exact R4|]. intros x Hx. rewrite R5 in Hx. destruct Hx as [<-|[<-|Hx]]; auto.
        * intros m2 e' (R1 & R2 & R3 & R4). rewrite Q1a in R2. rewrite Q1b in R3. unfold lost. auto.
      + cbn [andb orb]. destruct (Z.eqb_spec n 0) as [|_]; [lia|].
        rewrite <- Q1a in Hg.
        eapply post_impl; [| |exact (generic_ok C m1 g q _ r n H1 Hr En Hg Hn0)]; cbv beta.
        * intros m2 p (R1 & R2 & R3 & R4 & R5). rewrite Q1b, Q1d in *. split; [exact R1|]. split; [eapply then_leads; [exact Q1e|exact R2]|].
          split; [exact R3|]. split; [exact R4|]. intros x Hx. rewrite R5 in Hx. destruct Hx as [<-|[<-|Hx]]; auto.
        * assert (Q : quiet mw m1 g q) by (unfold quiet; auto). intros m2 e' [R|R]; [left; eapply quiet_unharmed_trans; eauto|right; eapply quiet_leaked; eauto].
  Qed.

  (** ** In the form of Props_Ops.v *)

  Lemma keyed_forget (ok : (Z -> Prop) -> Prop) r p g : monotone ok -> ok (keyed (r :: g)) -> ok (keyed (r :: forget p g)).
  Proof.
    intros Hm. apply Hm. intros x (r' & [<-|Hr] & E).
    - exists r. split; [now left|exact E].
    - exists r'. split; [right; eapply in_forget; eauto|exact E].
  Qed.

  Definition abandoned (ok : (Z -> Prop) -> Prop) (C : list nodecfg) (mw mw' : mworld C) (g : list arec) (q : list nat) (t : list snapshot) (r : arec) (n strat : Z) : Prop :=
    coalescing (kind_at (C ++ boot) (Z.to_nat (r_strat r))) /\
    (forall r', In r' (forget (r_ptr r) g) -> kept (mw_mem mw) (mw_mem mw') r') /\
    exists p, ok (keyed (mkRec p n strat 0 :: g)) -> exists ts, shist JR ok C (mw_sys mw') (mkRec p n strat 0 :: forget (r_ptr r) g) q (ts ++ t).
  Lemma leaked_abandoned ok C (mw mw' : mworld C) g q t r n strat : shist JR ok C (mw_sys mw) g q t -> leaked C mw mw' g q r n strat ->
    abandoned ok C mw mw' g q t r n strat.
  Proof. intros Hh (A & B & p & D). split; [exact A|]. split; [exact B|]. exists p. exact (D ok t Hh). Qed.

  Lemma op_with ok C (mw : mworld C) g q t r n : monotone ok -> shist JR ok C (mw_sys mw) g q t -> In r g -> 0 <= n ->
    n = 0 \/ user_guard (C ++ boot) (Z.to_nat (r_strat r)) n (fst (mw_sys mw)) ->
    post (m_reallocate_with JR (C ++ boot) noise (r_ptr r) n (Z.to_nat (r_strat r)) mw)
      (fun mw' p => p <> 0 /\
         (ok (keyed (mkRec p n (r_strat r) 0 :: g)) ->
            exists ts, shist JR ok C (mw_sys mw') (mkRec p n (r_strat r) 0 :: forget (r_ptr r) g) (unclaimed r n q) (ts ++ t)) /\
         carried (mw_mem mw) (mw_mem mw') (r_ptr r) p (Z.min (r_size r) n) /\
         (forall r', In r' (forget (r_ptr r) g) -> kept (mw_mem mw) (mw_mem mw') r') /\
         forall x, In x (mw_log mw') -> In x (mw_log mw) \/ x = Write (p, Z.min (r_size r) n) \/ x = Read (r_ptr r, Z.min (r_size r) n))
      (fun mw' e =>
         if n =? 0 then
           (exists ts, shist JR ok C (mw_sys mw') (forget (r_ptr r) g) q (ts ++ t)) /\
           (forall r', In r' (forget (r_ptr r) g) -> kept (mw_mem mw) (mw_mem mw') r')
         else if by_libc r then lost C mw mw' g r e
         else (exists ts, shist JR ok C (mw_sys mw') g q (ts ++ t)) /\ (forall r', In r' g -> kept (mw_mem mw) (mw_mem mw') r') \/
              abandoned ok C mw mw' g q t r n (r_strat r)).
  Proof.
    intros Hm Hh Hr Hn Hg. eapply post_impl; [| |exact (with_ok C mw g q t r n (usable_any _ _ _ _ _ _ Hh) Hr Hn Hg)]; cbv beta.
    - intros mw' p (A & B & D & E & F). split; [exact A|]. split; [|auto]. intros Ho. apply (B ok t Hh).
      destruct (by_libc r || (n =? 0)); [apply keyed_forget; auto|exact Ho].
    - intros mw' e H. destruct (n =? 0); [destruct H as [H1 H2]; split; [exact (H1 ok t Hh I)|exact H2]|].
      destruct (by_libc r); [exact H|]. destruct H as [(H1 & H2 & _)|H]; [left; split; [exact (H1 ok t Hh I)|exact H2]|right].
      now apply leaked_abandoned.
  Qed.

  Lemma op_find_quiet ok C (mw : mworld C) g q t r : shist JR ok C (mw_sys mw) g q t -> In r g ->
    exists mw', m_find JR (C ++ boot) (r_ptr r) mw = Ok mw' r /\ quiet mw mw' g q.
  Proof. intros Hh Hr. eapply m_find_ok; [exact Hh|]. split; [exact Hr|now left]. Qed.

  (** [reallocate] without allocator is [reallocate] with the owner. *)
  Lemma op_reallocate ok C (mw : mworld C) g q t r n dflt : shist JR ok C (mw_sys mw) g q t -> In r g ->
    exists mw1 ts, m_reallocate JR (C ++ boot) noise dflt (r_ptr r) n mw = m_reallocate_with JR (C ++ boot) noise (r_ptr r) n (Z.to_nat (r_strat r)) mw1 /\
      shist JR ok C (mw_sys mw1) g q (ts ++ t) /\ fst (mw_sys mw1) = fst (mw_sys mw) /\ mw_mem mw1 = mw_mem mw /\ mw_log mw1 = mw_log mw.
  Proof.
    intros Hh Hr. destruct (op_find_quiet _ _ _ _ _ _ _ Hh Hr) as (m1 & E & Q). destruct (quiet_shist _ _ _ _ _ _ _ Q Hh) as (ts & H1).
    exists m1, ts. destruct Q as (A & B & _ & D & _). unfold m_reallocate.
    destruct (live_facts _ _ _ _ _ _ (usable_any _ _ _ _ _ _ Hh) Hr) as (P & _). destruct (Z.eqb_spec (r_ptr r) 0); [lia|].
    rewrite E. cbn [bind]. auto.
  Qed.

  Lemma ts_app {A} (P : list A -> Prop) ts t : (exists ts', P (ts' ++ (ts ++ t))) -> exists ts', P (ts' ++ t).
  Proof. intros (ts' & H). exists (ts' ++ ts). now rewrite <- app_assoc. Qed.

  Lemma op_reallocate_ok ok C (mw : mworld C) g q t r n dflt : monotone ok -> shist JR ok C (mw_sys mw) g q t -> In r g -> 0 <= n ->
    n = 0 \/ user_guard (C ++ boot) (Z.to_nat (r_strat r)) n (fst (mw_sys mw)) ->
    post (m_reallocate JR (C ++ boot) noise dflt (r_ptr r) n mw)
      (fun mw' p => p <> 0 /\
         (ok (keyed (mkRec p n (r_strat r) 0 :: g)) ->
            exists ts, shist JR ok C (mw_sys mw') (mkRec p n (r_strat r) 0 :: forget (r_ptr r) g) (unclaimed r n q) (ts ++ t)) /\
         carried (mw_mem mw) (mw_mem mw') (r_ptr r) p (Z.min (r_size r) n) /\
         (forall r', In r' (forget (r_ptr r) g) -> kept (mw_mem mw) (mw_mem mw') r') /\
         forall x, In x (mw_log mw') -> In x (mw_log mw) \/ x = Write (p, Z.min (r_size r) n) \/ x = Read (r_ptr r, Z.min (r_size r) n))
      (fun mw' e =>
         if n =? 0 then
           (exists ts, shist JR ok C (mw_sys mw') (forget (r_ptr r) g) q (ts ++ t)) /\
           (forall r', In r' (forget (r_ptr r) g) -> kept (mw_mem mw) (mw_mem mw') r')
         else if by_libc r then lost C mw mw' g r e
         else (exists ts, shist JR ok C (mw_sys mw') g q (ts ++ t)) /\ (forall r', In r' g -> kept (mw_mem mw) (mw_mem mw') r') \/
              abandoned ok C mw mw' g q t r n (r_strat r)).
  Proof.
    intros Hm Hh Hr Hn Hg. destruct (op_reallocate ok C mw g q t r n dflt Hh Hr) as (m1 & ts & -> & H1 & E1 & E2 & E3).
    rewrite <- E1 in Hg. rewrite <- E2, <- E3.
    eapply post_impl; [| |exact (op_with ok C m1 g q _ r n Hm H1 Hr Hn Hg)]; cbv beta.
    - intros mw' p (A & B & D). split; [exact A|]. split; [|exact D]. intros Ho. apply (ts_app _ ts), B, Ho.
    - intros mw' e H. destruct (n =? 0); [destruct H as [H1' H2]; split; [apply (ts_app _ ts), H1'|exact H2]|].
      destruct (by_libc r).
      2: { destruct H as [[H1' H2]|(A & B & p & D)]; [left; split; [apply (ts_app _ ts), H1'|exact H2]|right]. rewrite E2 in B.
           split; [exact A|]. split; [exact B|]. exists p. intros Ho. apply (ts_app _ ts), D, Ho. }
      destruct H as (L1 & L2 & L3 & L4). unfold lost. rewrite <- E1, <- E2. auto.
  Qed.

  Lemma op_reallocate_any ok C (mw : mworld C) g q t r n dflt : monotone ok -> shist JR ok C (mw_sys mw) g q t -> In r g -> 0 < n ->
    user_guard (C ++ boot) (Z.to_nat (r_strat r)) n (fst (mw_sys mw)) -> by_libc r = false ->
    post (m_reallocate JR (C ++ boot) noise dflt (r_ptr r) n mw) (fun _ _ => True)
      (fun mw' e => (forall r', In r' (forget (r_ptr r) g) -> kept (mw_mem mw) (mw_mem mw') r') /\
         ((exists ts, shist JR ok C (mw_sys mw') g q (ts ++ t)) \/
          exists p, ok (keyed (mkRec p n (r_strat r) 0 :: g)) ->
            exists ts, shist JR ok C (mw_sys mw') (mkRec p n (r_strat r) 0 :: forget (r_ptr r) g) q (ts ++ t))).
  Proof.
    intros Hm Hh Hr Hn Hg Hl. eapply post_impl; [| |exact (op_reallocate_ok ok C mw g q t r n dflt Hm Hh Hr ltac:(lia) (or_intror Hg))]; cbv beta; [auto|].
    intros mw' e H. rewrite Hl in H. destruct (Z.eqb_spec n 0); [lia|]. destruct H as [(A & B)|(_ & B & p & D)]; split; eauto.
    intros r' Hr'. apply B. eapply in_forget; eauto.
  Qed.

  Lemma op_others_survive ok C (mw : mworld C) g q t r n dflt : monotone ok -> shist JR ok C (mw_sys mw) g q t -> In r g -> 0 <= n ->
    n = 0 \/ user_guard (C ++ boot) (Z.to_nat (r_strat r)) n (fst (mw_sys mw)) ->
    post (m_reallocate JR (C ++ boot) noise dflt (r_ptr r) n mw)
      (fun _ _ => True) (fun mw' e => forall r', In r' (forget (r_ptr r) g) -> kept (mw_mem mw) (mw_mem mw') r').
  Proof.
    intros Hm Hh Hr Hn Hg. eapply post_impl; [| |exact (op_reallocate_ok ok C mw g q t r n dflt Hm Hh Hr Hn Hg)]; cbv beta; [auto|].
    intros mw' e H r' Hr'. destruct (n =? 0); [apply H, Hr'|]. destruct (by_libc r); [apply H, Hr'|].
    destruct H as [H|H]; apply H; [eapply in_forget; eauto|exact Hr'].
  Qed.

  (** Requests that cannot be met. *)
  Lemma op_with_rejected ok C (mw : mworld C) g q t r p n i : shist JR ok C (mw_sys mw) g q t -> points ok g r p ->
    usable (C ++ boot) i -> p <> r_ptr r \/ r_strat r <> Z.of_nat i ->
    exists mw' ts, m_reallocate_with JR (C ++ boot) noise p n i mw = Throw mw' RuntimeError /\
      shist JR ok C (mw_sys mw') g q (ts ++ t) /\ (forall r', In r' g -> kept (mw_mem mw) (mw_mem mw') r') /\ mw_log mw' = mw_log mw.
  Proof.
    intros Hh Hp Hu Hrej. destruct (m_find_ok _ _ _ _ _ _ _ _ Hh Hp) as (m1 & E & Q).
    pose proof (quiet_unharmed _ _ _ _ _ Q) as (U1 & U2 & U3). destruct (U1 ok t Hh I) as (ts1 & H1).
    pose proof (rest_ok _ _ _ _ _ _ _ _ Hh Hp) as (_ & _ & Hpos & _).
    unfold m_reallocate_with. destruct (Z.eqb_spec p 0); [lia|]. rewrite E. cbn [bind].
    destruct (Z.eqb_spec (r_strat r) (Z.of_nat i)) as [Es|Es]; cbn [negb]; [|exists m1, ts1; auto].
    destruct Hrej as [Hint|]; [|contradiction].
    destruct (Z.eqb_spec n 0) as [En|En].
    - assert (Hno : forall r', In r' g -> r_ptr r' = p -> r_strat r' <> Z.of_nat i).
      { intros r' Hr' Ep. pose proof Hp as [Hr [Hb|[Hc _]]]; [contradiction|].
        destruct (sy_registered any_keys any_keys_monotone _ _ _ _ _ (usable_any _ _ _ _ _ _ Hh)) as (_ & _ & _ & Hd & _).
        assert (Hne : r' <> r) by congruence.
        destruct (pairwise_in (fun a b => disj (rreg a) (rreg b)) (fun a b => disj_sym (rreg a) (rreg b)) g r' r Hd Hr' Hr) as [|Hd']; [contradiction|].
        pose proof (live_facts _ _ _ _ _ _ (usable_any _ _ _ _ _ _ Hh) Hr) as (L1 & L2 & _). unfold disj, rreg, covers in *. cbn [fst snd] in *.
        pose proof (live_facts _ _ _ _ _ _ (usable_any _ _ _ _ _ _ Hh) Hr') as (L1' & L2' & _).
        destruct (Z.eqb_spec (r_size r') 0), (Z.eqb_spec (r_size r) 0); lia. }
      destruct (look_points _ _ _ _ _ _ _ _ Hh Hp) as (Ha & _).
      destruct (m_free_wrong noise C m1 g q _ i p (usable_any _ _ _ _ _ _ H1) Hu Ha ltac:(lia) Hno) as (m2 & E2 & HL2 & HK2 & HG2).
      rewrite E2. cbn [bind]. destruct (HL2 ok _ H1 I) as (ts2 & H2). exists m2, (ts2 ++ ts1). split; [reflexivity|].
      rewrite <- app_assoc. split; [exact H2|]. split; [|congruence]. intros r' Hr'. eapply kept_trans; [apply U2|apply HK2]; auto.
    - destruct (Z.eqb_spec p (r_ptr r)); [contradiction|]. cbn [negb]. exists m1, ts1. auto.
  Qed.

  Lemma op_reallocate_interior ok C (mw : mworld C) g q t r p n dflt : shist JR ok C (mw_sys mw) g q t -> points ok g r p -> p <> r_ptr r ->
    exists mw' ts, m_reallocate JR (C ++ boot) noise dflt p n mw = Throw mw' RuntimeError /\
      shist JR ok C (mw_sys mw') g q (ts ++ t) /\ (forall r', In r' g -> kept (mw_mem mw) (mw_mem mw') r') /\ mw_log mw' = mw_log mw.
  Proof.
    intros Hh Hp Hi. destruct (m_find_ok _ _ _ _ _ _ _ _ Hh Hp) as (m1 & E & Q).
    pose proof (quiet_unharmed _ _ _ _ _ Q) as (U1 & U2 & U3). destruct (U1 ok t Hh I) as (ts1 & H1).
    pose proof (rest_ok _ _ _ _ _ _ _ _ Hh Hp) as (_ & _ & Hpos & _).
    unfold m_reallocate. destruct (Z.eqb_spec p 0); [lia|]. rewrite E. cbn [bind].
    destruct (live_facts _ _ _ _ _ _ (usable_any _ _ _ _ _ _ Hh) (proj1 Hp)) as (_ & _ & _ & _ & _ & G).
    destruct (op_with_rejected ok C m1 g q _ r p n _ H1 Hp G (or_introl Hi)) as (m2 & ts2 & E2 & H2 & K2 & L2).
    exists m2, (ts2 ++ ts1). split; [exact E2|]. rewrite <- app_assoc. split; [exact H2|]. split; [|congruence].
    intros r' Hr'. eapply kept_trans; [apply U2|apply K2]; auto.
  Qed.

  Lemma op_reallocate_unknown ok C (mw : mworld C) g q t p n i : shist JR ok C (mw_sys mw) g q t -> (forall P, ok P -> sparse56 P) ->
    addr_ok p -> p <> 0 -> (forall r, In r g -> ~ covers r p) ->
    exists mw' ts, m_reallocate JR (C ++ boot) noise i p n mw = Throw mw' UnknownPointer /\
      m_reallocate_with JR (C ++ boot) noise p n i mw = Throw mw' UnknownPointer /\
      shist JR ok C (mw_sys mw') g q (ts ++ t) /\ mw_mem mw' = mw_mem mw /\ mw_log mw' = mw_log mw.
  Proof.
    intros Hh Hs Ha H0 Hn. destruct (m_find_none _ _ _ _ _ _ _ Hh Hs Ha Hn) as (m1 & E & Q).
    destruct (quiet_shist _ _ _ _ _ _ _ Q Hh) as (ts1 & H1). destruct Q as (A & B & _ & D & _). exists m1, ts1.
    unfold m_reallocate, m_reallocate_with. destruct (Z.eqb_spec p 0); [lia|]. rewrite E. cbn [bind]. auto.
  Qed.

  (** The null pointer: an allocation. *)
  Lemma op_reallocate_null ok C (mw : mworld C) g q t n i : shist JR ok C (mw_sys mw) g q t -> usable (C ++ boot) i ->
    n = 0 \/ user_guard (C ++ boot) i n (fst (mw_sys mw)) ->
    post (m_reallocate JR (C ++ boot) noise i 0 n mw)
      (fun mw' p => p <> 0 /\
         (ok (keyed (mkRec p n (Z.of_nat i) 0 :: g)) -> exists ts, shist JR ok C (mw_sys mw') (mkRec p n (Z.of_nat i) 0 :: g) q (ts ++ t)) /\
         forall r, In r g -> kept (mw_mem mw) (mw_mem mw') r)
      (fun mw' e => (exists ts, shist JR ok C (mw_sys mw') g q (ts ++ t)) /\ forall r, In r g -> kept (mw_mem mw) (mw_mem mw') r).
  Proof.
    intros Hh Hu Hg. unfold m_reallocate, m_reallocate_with. cbn [Z.eqb].
    eapply post_impl; [| |exact (m_alloc_ok noise C mw g q t i n 0 (usable_any _ _ _ _ _ _ Hh) Hu Hg)]; cbv beta.
    - intros mw' p (A & B & D & E & F & G). split; [exact B|]. split; [|exact F]. exact (E ok t Hh).
    - intros mw' e (A & B & _). split; [exact (A ok t Hh I)|exact B].
  Qed.

  (** Statistics of an allocator other than HOST. *)
  Lemma bytes_forget i p g r : In r g -> r_ptr r = p -> r_strat r = Z.of_nat i -> NoDup (map r_ptr g) ->
    bytes (mine i g) = r_size r + bytes (mine i (forget p g)) /\ length (mine i g) = S (length (mine i (forget p g))).
  Proof.
    induction g as [|x g IH]; [intros []|]. intros Hr Hp Hs Hn. cbn [map] in Hn. inversion Hn as [|? ? Hx Hn']; subst. cbn [forget].
    destruct (Z.eqb_spec (r_ptr x) (r_ptr r)) as [Ex|Ex].
    - assert (Exr : x = r) by (destruct Hr as [|Hr]; [auto|]; elim Hx; rewrite Ex; now apply in_map). subst x.
      rewrite mine_cons. destruct (Z.eqb_spec (r_strat r) (Z.of_nat i)); [|contradiction]. rewrite bytes_cons. auto.
    - destruct Hr as [->|Hr]; [contradiction|]. destruct (IH Hr eq_refl Hs Hn') as [H1 H2]. rewrite !mine_cons.
      destruct (r_strat x =? Z.of_nat i); rewrite ?bytes_cons; cbn [length]; lia.
  Qed.

  Lemma op_stats C (mw : mworld C) g q t r n dflt : shist JR any_keys C (mw_sys mw) g q t -> In r g -> 0 <= n ->
    n = 0 \/ user_guard (C ++ boot) (Z.to_nat (r_strat r)) n (fst (mw_sys mw)) ->
    by_libc r = false \/ n = 0 ->
    ~ In (Z.to_nat (r_strat r)) q -> never_null (kind_at (C ++ boot) (Z.to_nat (r_strat r))) -> own_stats (kind_at (C ++ boot) (Z.to_nat (r_strat r))) ->
    post (m_reallocate JR (C ++ boot) noise dflt (r_ptr r) n mw)
      (fun mw' p => let i := Z.to_nat (r_strat r) in
         current_size (C ++ boot) i (fst (mw_sys mw')) = current_size (C ++ boot) i (fst (mw_sys mw)) - r_size r + n /\
         allocation_count (C ++ boot) i (fst (mw_sys mw')) = allocation_count (C ++ boot) i (fst (mw_sys mw)) /\
         current_size (C ++ boot) i (fst (mw_sys mw')) <= high_watermark (C ++ boot) i (fst (mw_sys mw')))
      (fun _ _ => True).
  Proof.
    intros Hh Hr Hn Hg Hl Hq H0 Ho. destruct (live_facts _ _ _ _ _ _ Hh Hr) as (A & B & D & E & F & G).
    eapply post_impl; [| |exact (op_reallocate_ok any_keys C mw g q t r n dflt any_keys_monotone Hh Hr Hn Hg)]; cbv beta; [|auto].
    intros mw' p (_ & H' & _). destruct (H' I) as (ts & H''). clear H'.
    assert (Eu : unclaimed r n q = q).
    { unfold unclaimed. destruct Hl as [->| ->]; [reflexivity|]. rewrite andb_comm. reflexivity. }
    rewrite Eu in H''. cbv zeta. set (i := Z.to_nat (r_strat r)) in *.
    assert (Hi : (i <= length (C ++ boot))%nat).
    { destruct G as [->|G]; [|lia]. rewrite app_length. cbn. unfold host_id. lia. }
    rewrite (sy_current_size any_keys any_keys_monotone _ _ _ _ _ i H'' Hi Hq H0 Ho),
      (sy_current_size any_keys any_keys_monotone _ _ _ _ _ i Hh Hi Hq H0 Ho),
      (sy_count any_keys any_keys_monotone _ _ _ _ _ i H'' Hi Hq H0), (sy_count any_keys any_keys_monotone _ _ _ _ _ i Hh Hi Hq H0).
    destruct (any_inv _ _ _ _ _ Hh) as (HS & _). destruct (bytes_forget i (r_ptr r) g r Hr eq_refl F (sinv_nodup _ _ _ _ _ _ HS)) as [Hb Hc].
    split; [|split].
    - rewrite mine_cons. cbn [r_strat]. destruct (Z.eqb_spec (r_strat r) (Z.of_nat i)); [|contradiction]. rewrite bytes_cons. cbn [r_size]. lia.
    - rewrite mine_cons. cbn [r_strat]. destruct (Z.eqb_spec (r_strat r) (Z.of_nat i)); [|contradiction]. cbn [length]. lia.
    - rewrite <- (sy_current_size any_keys any_keys_monotone _ _ _ _ _ i H'' Hi Hq H0 Ho).
      apply (sy_watermark any_keys any_keys_monotone _ _ _ _ _ i H'' Hi Hq H0 Ho).
  Qed.

  (** ** move *)
  Lemma op_move ok C (mw : mworld C) g q t r i : shist JR ok C (mw_sys mw) g q t -> In r g -> usable (C ++ boot) i ->
    r_strat r <> Z.of_nat i -> r_size r = 0 \/ user_guard (C ++ boot) i (r_size r) (fst (mw_sys mw)) ->
    post (m_move JR (C ++ boot) noise (r_ptr r) i mw)
      (fun mw' p => p <> 0 /\
         (ok (keyed (mkRec p (r_size r) (Z.of_nat i) 0 :: g)) ->
            exists ts, shist JR ok C (mw_sys mw') (mkRec p (r_size r) (Z.of_nat i) 0 :: forget (r_ptr r) g) q (ts ++ t)) /\
         carried (mw_mem mw) (mw_mem mw') (r_ptr r) p (r_size r) /\
         (forall r', In r' (forget (r_ptr r) g) -> kept (mw_mem mw) (mw_mem mw') r') /\
         mw_log mw' = Write (p, r_size r) :: Read (r_ptr r, r_size r) :: mw_log mw)
      (fun mw' e => (exists ts, shist JR ok C (mw_sys mw') g q (ts ++ t)) /\
         (forall r', In r' g -> kept (mw_mem mw) (mw_mem mw') r') /\ mw_log mw' = mw_log mw \/
         abandoned ok C mw mw' g q t r (r_size r) (Z.of_nat i)).
  Proof.
    intros Hh Hr Hu Hs Hg. destruct (op_find_quiet _ _ _ _ _ _ _ Hh Hr) as (m1 & E & Q).
    destruct (quiet_shist _ _ _ _ _ _ _ Q (usable_any _ _ _ _ _ _ Hh)) as (ts & H1).
    destruct (live_facts _ _ _ _ _ _ (usable_any _ _ _ _ _ _ Hh) Hr) as (L1 & L2 & _).
    unfold m_move. rewrite E. cbn [bind]. destruct (Z.eqb_spec (r_strat r) (Z.of_nat i)); [contradiction|].
    rewrite Z.eqb_refl. cbn [negb]. pose proof Q as (Q1 & _). rewrite <- Q1 in Hg.
    assert (Hw : wanted r (r_ptr r) 0 = Z.min (r_size r) (r_size r)) by (unfold wanted, rest; cbn [Z.eqb]; lia).
    eapply post_impl; [| |exact (renew_ok C m1 g q _ r i (r_size r) 0 (rm_deallocate JR (C ++ boot) (r_ptr r)) H1 Hr Hu Hg ltac:(lia) Hw
      (fun m2 g2 t2 H2 Hr2 => m_rm_free_ok noise C m2 g2 q t2 r H2 Hr2))]; cbv beta.
    - intros mw' p R. apply (quiet_renewed C mw m1 mw' g q _ _ _ _ _ Q) in R. rewrite Z.min_id in R.
      destruct R as (R1 & R2 & R3 & R4 & R5). split; [exact R1|]. split; [exact (R2 ok t Hh)|auto].
    - intros mw' e [R|R]; [left|right; eapply leaked_abandoned, quiet_leaked; eauto].
      apply (quiet_unharmed_trans C mw m1 mw' g q Q) in R. destruct R as (R1 & R2 & R3). split; [exact (R1 ok t Hh I)|auto].
  Qed.

  Lemma op_move_any ok C (mw : mworld C) g q t r i : shist JR ok C (mw_sys mw) g q t -> In r g -> usable (C ++ boot) i ->
    r_strat r <> Z.of_nat i -> r_size r = 0 \/ user_guard (C ++ boot) i (r_size r) (fst (mw_sys mw)) ->
    post (m_move JR (C ++ boot) noise (r_ptr r) i mw) (fun _ _ => True)
      (fun mw' e => (forall r', In r' (forget (r_ptr r) g) -> kept (mw_mem mw) (mw_mem mw') r') /\
         ((exists ts, shist JR ok C (mw_sys mw') g q (ts ++ t)) \/
          exists p, ok (keyed (mkRec p (r_size r) (Z.of_nat i) 0 :: g)) ->
            exists ts, shist JR ok C (mw_sys mw') (mkRec p (r_size r) (Z.of_nat i) 0 :: forget (r_ptr r) g) q (ts ++ t))).
  Proof.
    intros Hh Hr Hu Hs Hg. eapply post_impl; [| |exact (op_move ok C mw g q t r i Hh Hr Hu Hs Hg)]; cbv beta; [auto|].
    intros mw' e [(A & B & _)|(_ & B & p & D)]; split; eauto. intros r' Hr'. apply B. eapply in_forget; eauto.
  Qed.

  Lemma op_move_same ok C (mw : mworld C) g q t r p i : shist JR ok C (mw_sys mw) g q t -> points ok g r p -> r_strat r = Z.of_nat i ->
    exists mw' ts, m_move JR (C ++ boot) noise p i mw = Ok mw' p /\ shist JR ok C (mw_sys mw') g q (ts ++ t) /\
      fst (mw_sys mw') = fst (mw_sys mw) /\ mw_mem mw' = mw_mem mw /\ mw_log mw' = mw_log mw.
  Proof.
    intros Hh Hp Hs. destruct (m_find_ok _ _ _ _ _ _ _ _ Hh Hp) as (m1 & E & Q). destruct (quiet_shist _ _ _ _ _ _ _ Q Hh) as (ts & H1).
    exists m1, ts. destruct Q as (A & B & _ & D & _). unfold m_move. rewrite E. cbn [bind]. rewrite Hs, Z.eqb_refl. auto.
  Qed.

  Lemma op_move_interior ok C (mw : mworld C) g q t r p i : shist JR ok C (mw_sys mw) g q t -> points ok g r p -> r_strat r <> Z.of_nat i ->
    p <> r_ptr r -> exists mw' ts, m_move JR (C ++ boot) noise p i mw = Throw mw' RuntimeError /\ shist JR ok C (mw_sys mw') g q (ts ++ t) /\
      fst (mw_sys mw') = fst (mw_sys mw) /\ mw_mem mw' = mw_mem mw /\ mw_log mw' = mw_log mw.
  Proof.
    intros Hh Hp Hs Hi. destruct (m_find_ok _ _ _ _ _ _ _ _ Hh Hp) as (m1 & E & Q). destruct (quiet_shist _ _ _ _ _ _ _ Q Hh) as (ts & H1).
    exists m1, ts. destruct Q as (A & B & _ & D & _). unfold m_move. rewrite E. cbn [bind].
    destruct (Z.eqb_spec (r_strat r) (Z.of_nat i)); [contradiction|]. destruct (Z.eqb_spec p (r_ptr r)); [contradiction|]. cbn [negb]. auto.
  Qed.

  (** ** copy and memset *)
  Lemma op_copy ok C (mw : mworld C) g q t rs rd src dst size : shist JR ok C (mw_sys mw) g q t ->
    points ok g rs src -> points ok g rd dst -> 0 <= size -> wanted rs src size <= rest rd dst ->
    wanted rs src size = 0 \/ disj (dst, wanted rs src size) (src, wanted rs src size) ->
    exists mw' ts, m_copy JR (C ++ boot) dst src size mw = Ok mw' tt /\
      shist JR ok C (mw_sys mw') g q (ts ++ t) /\ fst (mw_sys mw') = fst (mw_sys mw) /\
      carried (mw_mem mw) (mw_mem mw') src dst (wanted rs src size) /\
      only (mw_mem mw) (mw_mem mw') (dst, wanted rs src size) /\
      mw_log mw' = Write (dst, wanted rs src size) :: Read (src, wanted rs src size) :: mw_log mw.
  Proof.
    intros Hh Hs Hd Hz Hn Ho. destruct (m_copy_ok ok C mw g q t rs rd src dst size Hh Hs Hd Hz Hn Ho) as (m & E & L & R).
    destruct (L ok t Hh I) as (ts & H). exists m, ts. auto.
  Qed.

  Lemma op_copy_rejected ok C (mw : mworld C) g q t rs rd src dst size : shist JR ok C (mw_sys mw) g q t ->
    points ok g rs src -> points ok g rd dst -> rest rd dst < wanted rs src size ->
    exists mw' ts, m_copy JR (C ++ boot) dst src size mw = Throw mw' RuntimeError /\
      shist JR ok C (mw_sys mw') g q (ts ++ t) /\ fst (mw_sys mw') = fst (mw_sys mw) /\
      mw_mem mw' = mw_mem mw /\ mw_log mw' = mw_log mw.
  Proof.
    intros Hh Hs Hd Hn. destruct (m_copy_find ok C mw g q t rs rd src dst size Hh Hs Hd) as (m & Q & ->).
    destruct (quiet_shist _ _ _ _ _ _ _ Q Hh) as (ts & H1). destruct Q as (A & B & _ & D & _).
    exists m, ts. destruct (Z.ltb_spec (rest rd dst) (wanted rs src size)); [auto|lia].
  Qed.

  Lemma op_copy_overlap ok C (mw : mworld C) g q t rs rd src dst size : shist JR ok C (mw_sys mw) g q t ->
    points ok g rs src -> points ok g rd dst -> 0 < wanted rs src size <= rest rd dst ->
    ~ disj (dst, wanted rs src size) (src, wanted rs src size) ->
    m_copy JR (C ++ boot) dst src size mw = UB.
  Proof.
    intros Hh Hs Hd Hn Ho. destruct (m_copy_find ok C mw g q t rs rd src dst size Hh Hs Hd) as (m & Q & ->).
    destruct (Z.ltb_spec (rest rd dst) (wanted rs src size)); [lia|]. unfold m_memcpy. unfold disj in Ho. cbn [fst snd] in Ho.
    replace ((0 <? wanted rs src size) && (dst <? src + wanted rs src size) && (src <? dst + wanted rs src size)) with true by lia. reflexivity.
  Qed.

  Lemma op_copy_unknown ok C (mw : mworld C) g q t src dst size : shist JR ok C (mw_sys mw) g q t -> (forall P, ok P -> sparse56 P) ->
    addr_ok src -> addr_ok dst -> (forall r, In r g -> ~ covers r src) \/ (forall r, In r g -> ~ covers r dst) ->
    exists mw' ts, m_copy JR (C ++ boot) dst src size mw = Throw mw' UnknownPointer /\
      shist JR ok C (mw_sys mw') g q (ts ++ t) /\ fst (mw_sys mw') = fst (mw_sys mw) /\
      mw_mem mw' = mw_mem mw /\ mw_log mw' = mw_log mw.
  Proof.
    intros Hh Hs Ha Hb Hn.
    assert (Hdec : (exists r, In r g /\ covers r src) \/ forall r, In r g -> ~ covers r src).
    { clear. induction g as [|x g IH]; [right; intros r []|]. destruct IH as [(r & Hr & Hc)|IH]; [left; exists r; split; [now right|exact Hc]|].
      assert (Hx : covers x src \/ ~ covers x src) by (unfold covers; lia). destruct Hx as [Hx|Hx]; [left; exists x; split; [now left|exact Hx]|].
      right. intros r [<-|Hr]; auto. }
    destruct Hdec as [(r & Hr & Hc)|Hno].
    - assert (Hp : points ok g r src) by (split; [exact Hr|right; auto]).
      destruct (m_find_ok _ _ _ _ _ _ _ _ Hh Hp) as (m1 & E1 & Q1). destruct (quiet_shist _ _ _ _ _ _ _ Q1 Hh) as (ts1 & H1).
      assert (Hd : forall r, In r g -> ~ covers r dst) by (destruct Hn as [Hn|Hn]; [elim (Hn r Hr Hc)|exact Hn]).
      destruct (m_find_none _ _ _ _ _ _ _ H1 Hs Hb Hd) as (m2 & E2 & Q2). pose proof (quiet_trans _ _ _ _ _ _ Q1 Q2) as Q.
      destruct (quiet_shist _ _ _ _ _ _ _ Q Hh) as (ts & H2). exists m2, ts. destruct Q as (A & B & _ & D & _).
      unfold m_copy. rewrite E1. cbn [bind]. rewrite E2. cbn [bind]. auto.
    - destruct (m_find_none _ _ _ _ _ _ _ Hh Hs Ha Hno) as (m1 & E1 & Q). destruct (quiet_shist _ _ _ _ _ _ _ Q Hh) as (ts & H1).
      exists m1, ts. destruct Q as (A & B & _ & D & _). unfold m_copy. rewrite E1. cbn [bind]. auto.
  Qed.

  Lemma op_memset ok C (mw : mworld C) g q t r p v len : shist JR ok C (mw_sys mw) g q t -> points ok g r p -> 0 <= len ->
    exists mw' ts, shist JR ok C (mw_sys mw') g q (ts ++ t) /\ fst (mw_sys mw') = fst (mw_sys mw) /\
      (rest r p < wanted r p len -> m_memset JR (C ++ boot) p v len mw = Throw mw' RuntimeError /\ mw_mem mw' = mw_mem mw /\ mw_log mw' = mw_log mw) /\
      (wanted r p len <= rest r p ->
        m_memset JR (C ++ boot) p v len mw = Ok mw' tt /\ (forall i, 0 <= i < wanted r p len -> mw_mem mw' (p + i) = v mod 256) /\
        only (mw_mem mw) (mw_mem mw') (p, wanted r p len) /\ mw_log mw' = Write (p, wanted r p len) :: mw_log mw).
  Proof.
    intros Hh Hp Hl. destruct (m_memset_ok ok C mw g q t r p v len Hh Hp Hl) as (m & L & A & B). destruct (L ok t Hh I) as (ts & H).
    exists m, ts. split; [exact H|]. split; [exact A|]. destruct (Z.ltb_spec (rest r p) (wanted r p len)).
    - split; [auto|lia].
    - split; [lia|auto].
  Qed.

  Lemma op_memset_unknown ok C (mw : mworld C) g q t p v len : shist JR ok C (mw_sys mw) g q t -> (forall P, ok P -> sparse56 P) -> addr_ok p ->
    (forall r, In r g -> ~ covers r p) ->
    exists mw' ts, m_memset JR (C ++ boot) p v len mw = Throw mw' UnknownPointer /\ shist JR ok C (mw_sys mw') g q (ts ++ t) /\
      fst (mw_sys mw') = fst (mw_sys mw) /\ mw_mem mw' = mw_mem mw /\ mw_log mw' = mw_log mw.
  Proof.
    intros Hh Hs Ha Hn. destruct (m_find_none _ _ _ _ _ _ _ Hh Hs Ha Hn) as (m1 & E & Q). destruct (quiet_shist _ _ _ _ _ _ _ Q Hh) as (ts & H1).
    exists m1, ts. destruct Q as (A & B & _ & D & _). unfold m_memset. rewrite E. cbn [bind]. auto.
  Qed.
End Ops.
