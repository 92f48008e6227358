From Verif Require Import Base BaseFacts HeapModel StratModel StratFacts QuickPoolModel FixedPoolModel
  GlobalModel GlobalSpec GlobalFacts GlobalFrame MapModel MapSpec MapThms AllocMapThms JudyModel JudyFacts JudyUpdate MapMain
  SystemModel SystemSpec SystemFacts SystemMain SystemThms OpsModel OpsSpec.

Lemma post_keep {W A} (o : outcome W A) ok thr : post o ok thr ->
  post o (fun w a => o = Ok w a /\ ok w a) (fun w e => o = Throw w e /\ thr w e).
Proof. destruct o; cbn; auto. Qed.

Lemma guard_host C (w : gworld (C ++ boot)) n : user_guard (C ++ boot) host_id n w -> 0 < n < M64.
Proof.
  induction C as [|c C IH].
  - cbn. unfold M64 in *. lia.
  - cbn [app user_guard]. destruct (Nat.eqb_spec host_id (S (length (C ++ boot)))) as [E|]; [|apply IH].
    rewrite app_length in E. cbn in E. unfold host_id in E. lia.
Qed.

Lemma usable_any ok C sw g q t : shist JR ok C sw g q t -> shist JR any_keys C sw g q t.
Proof. apply shist_mono. intros P _. exact I. Qed.

Lemma any_inv C sw g q t : shist JR any_keys C sw g q t -> all_inv JR any_keys q C sw g t.
Proof. apply (shist_inv JR sparse56 jrel jloc jplain judy_array_ok any_keys any_keys_monotone). Qed.

Lemma live_facts C sw g q t r : shist JR any_keys C sw g q t -> In r g ->
  0 < r_ptr r /\ 0 <= r_size r /\ r_ptr r + r_size r <= ASP /\ addr_ok (r_ptr r) /\
  r_strat r = Z.of_nat (Z.to_nat (r_strat r)) /\ usable (C ++ boot) (Z.to_nat (r_strat r)).
Proof.
  intros Hh Hr. destruct (any_inv _ _ _ _ _ Hh) as (HS & _). destruct (sinv_ptr _ _ _ _ _ _ r HS Hr) as (A & B & D).
  destruct (si_strat _ _ _ _ _ _ HS r Hr) as (E & F & G). repeat (split; [tauto || lia|]). exact E.
Qed.

(** The allocation map finds what [points] says. *)
Lemma look_points ok C sw g q t r p : shist JR ok C sw g q t -> points ok g r p ->
  addr_ok p /\ exists a', am_find JR p (snd sw) = Ok a' r.
Proof.
  intros Hh [Hr Hp]. pose proof (usable_any _ _ _ _ _ _ Hh) as Ha. destruct (any_inv _ _ _ _ _ Ha) as (HS & _).
  destruct Hp as [->|[Hc Hs]].
  - split; [apply (live_facts _ _ _ _ _ _ Ha Hr)|]. exact (find_live any_keys C (fst sw) (snd sw) g r HS Hr).
  - pose proof (shist_mono JR ok sparse56 C sw g q t Hs Hh) as H5.
    destruct (shist_inv JR sparse56 jrel jloc jplain judy_array_ok sparse56 sparse56_monotone C sw g q t H5) as (HS5 & _).
    destruct (si_reg _ _ _ _ _ _ HS5) as (g2 & Hg2 & HP). pose proof (sinv_tidy C _ _ g g2 HS5 HP) as Ht.
    destruct (live_facts _ _ _ _ _ _ Ha Hr) as (A & B & D & E & _).
    assert (Hp : addr_ok p) by (unfold addr_ok, covers in *; unfold ASP, M64 in *; lia).
    split; [exact Hp|]. destruct (at_lookup_tidy JR sparse56 jrel jloc jplain judy_array_ok g2 (snd sw) p Hg2 Ht Hp) as (a1 & res & Ef & R).
    assert (Er : res = Some r) by (apply R; split; [now apply (in_reg g)|exact Hc]). subst res.
    exists a1. unfold am_find. rewrite Ef. reflexivity.
Qed.

Lemma look_none ok C sw g q t p : shist JR ok C sw g q t -> (forall P, ok P -> sparse56 P) -> addr_ok p ->
  (forall r, In r g -> ~ covers r p) -> exists a', am_find JR p (snd sw) = Throw a' UnknownPointer.
Proof.
  intros Hh Hs Hp Hn. pose proof (shist_mono JR ok sparse56 C sw g q t Hs Hh) as H5.
  destruct (shist_inv JR sparse56 jrel jloc jplain judy_array_ok sparse56 sparse56_monotone C sw g q t H5) as (HS5 & _).
  destruct (si_reg _ _ _ _ _ _ HS5) as (g2 & Hg2 & HP). pose proof (sinv_tidy C _ _ g g2 HS5 HP) as Ht.
  destruct (at_lookup_tidy JR sparse56 jrel jloc jplain judy_array_ok g2 (snd sw) p Hg2 Ht Hp) as (a1 & res & Ef & R).
  destruct res as [r|].
  - destruct (proj1 (R r) eq_refl) as [Hk Hc]. apply (in_reg g) in Hk; [|exact HP]. elim (Hn r Hk Hc).
  - exists a1. unfold am_find. rewrite Ef. reflexivity.
Qed.

Lemma cover_reg g g2 a x : ahist JR any_keys (g2, a) -> Permutation g2 (reg g) -> (forall r, In r g -> 0 < r_ptr r) ->
  Z.of_nat (length g) < M64 ->
  covered JR a x = true <-> exists r, In r g /\ r_ptr r <= x < r_ptr r + r_size r.
Proof.
  intros Ha HP Hpos Hlen. assert (El : length g2 = length g) by (rewrite (Permutation_length HP); apply map_length).
  assert (H0 : ~ registered g2 0) by (intros Hr; apply (keyed_registered g g2 0 HP) in Hr as (r & Hr & E); specialize (Hpos r Hr); lia).
  unfold covered. rewrite (at_size JR sparse56 jrel jloc jplain judy_array_ok any_keys g2 a Ha), El, w64_small, Nat2Z.id by lia.
  destruct (at_records JR sparse56 jrel jloc jplain judy_array_ok any_keys g2 a (S (length g)) 1 Ha H0 ltac:(lia) ltac:(lia)) as (a' & l & E & Pl & _).
  assert (HQ : Permutation l g) by (rewrite Pl, HP; unfold reg; rewrite map_map; cbn [snd]; now rewrite map_id).
  rewrite E, existsb_exists. split; intros (r & Hr & Hx); exists r.
  - split; [eapply Permutation_in; eauto|lia].
  - split; [eapply Permutation_in; [apply Permutation_sym|]; eauto|lia].
Qed.

Lemma live_count C sw g q t : shist JR any_keys C sw g q t -> Z.of_nat (length g) < M64.
Proof.
  intros Hh. destruct (any_inv _ _ _ _ _ Hh) as (HS & _).
  pose proof (good_sum _ (si_good _ _ _ _ _ _ HS)) as H. rewrite map_map in H.
  assert (H' : Z.of_nat (length g) <= sumZ (map (fun x => snd (rreg x)) g)); [|unfold ASP, M64 in *; lia].
  pose proof (proj1 (si_good _ _ _ _ _ _ HS)) as Hw. clear -Hw. induction g as [|r g IH]; [cbn; lia|].
  cbn [map sumZ length]. specialize (IH (fun x Hx => Hw x (or_intror Hx))). specialize (Hw (rreg r) (or_introl eq_refl)).
  destruct Hw as (_ & Hw & _). lia.
Qed.

Lemma cover_ok C sw g q t x : shist JR any_keys C sw g q t ->
  covered JR (snd sw) x = true <-> exists r, In r g /\ r_ptr r <= x < r_ptr r + r_size r.
Proof.
  intros Hh. destruct (any_inv _ _ _ _ _ Hh) as (HS & _). destruct (si_reg _ _ _ _ _ _ HS) as (g2 & Ha & HP).
  apply (cover_reg g g2 (snd sw) x Ha HP); [|eapply live_count; eauto]. intros r Hr. apply (live_facts _ _ _ _ _ _ Hh Hr).
Qed.

Section Ops.
  Context (noise : nat -> mem -> mem).
  Notation mworld C := (mworld JR (C ++ boot)).

  Lemma settle_kept C sw g q t sw' g' q' t' k m r : shist JR any_keys C sw g q t -> shist JR any_keys C sw' g' q' t' ->
    In r g -> In r g' -> kept m (settle JR noise k (snd sw) (snd sw') m) r.
  Proof.
    intros H H' Hr Hr' x Hx. unfold settle.
    rewrite (proj2 (cover_ok _ _ _ _ _ x H)) by (exists r; auto).
    rewrite (proj2 (cover_ok _ _ _ _ _ x H')) by (exists r; auto). reflexivity.
  Qed.

  (** [leads C sw g q sw' g' q' side]: whatever history led to [sw], it goes on to [sw'] provided the
      addresses in use are fine. *)
  Definition leads (C : list nodecfg) (sw : sworld JR (C ++ boot)) (g : list arec) (q : list nat)
    (sw' : sworld JR (C ++ boot)) (g' : list arec) (q' : list nat) (side : ((Z -> Prop) -> Prop) -> Prop) : Prop :=
    forall ok t, shist JR ok C sw g q t -> side ok -> exists ts, shist JR ok C sw' g' q' (ts ++ t).

  Lemma leads_refl C sw g q : leads C sw g q sw g q (fun _ => True).
  Proof. intros ok t H _. now exists []. Qed.

  Lemma leads_trans C s1 g1 q1 s2 g2 q2 s3 g3 q3 d1 d2 : leads C s1 g1 q1 s2 g2 q2 d1 -> leads C s2 g2 q2 s3 g3 q3 d2 ->
    leads C s1 g1 q1 s3 g3 q3 (fun ok => d1 ok /\ d2 ok).
  Proof.
    intros H1 H2 ok t H [S1 S2]. destruct (H1 ok t H S1) as (ts & H'). destruct (H2 ok _ H' S2) as (ts' & H'').
    exists (ts' ++ ts). now rewrite <- app_assoc.
  Qed.

  Lemma leads_weaken C s1 g1 q1 s2 g2 q2 (d1 d2 : ((Z -> Prop) -> Prop) -> Prop) : (forall ok, d2 ok -> d1 ok) ->
    leads C s1 g1 q1 s2 g2 q2 d1 -> leads C s1 g1 q1 s2 g2 q2 d2.
  Proof. intros H H1 ok t Hh Hs. apply H1; auto. Qed.

  (** Looking changes only the cursor of the map. *)
  Definition quiet {C} (mw mw' : mworld C) (g : list arec) (q : list nat) : Prop :=
    fst (mw_sys mw') = fst (mw_sys mw) /\ mw_mem mw' = mw_mem mw /\ mw_calls mw' = mw_calls mw /\ mw_log mw' = mw_log mw /\
    leads C (mw_sys mw) g q (mw_sys mw') g q (fun _ => True).

  Lemma leads_look C (sw : sworld JR (C ++ boot)) g q a' p : addr_ok p -> after JR (am_find JR p (snd sw)) a' ->
    leads C sw g q (fst sw, a') g q (fun _ => True).
  Proof.
    intros Hp Ha ok t Hh _. exists []. destruct sw as [w a]. eapply sh_look; [exact Hh|]. left. exists p. auto.
  Qed.

  Lemma m_find_ok ok C (mw : mworld C) g q t r p : shist JR ok C (mw_sys mw) g q t -> points ok g r p ->
    exists mw', m_find JR (C ++ boot) p mw = Ok mw' r /\ quiet mw mw' g q.
  Proof.
    intros Hh Hp. destruct (look_points _ _ _ _ _ _ _ _ Hh Hp) as (Ha & a' & E).
    unfold m_find. rewrite E. cbn [omap]. eexists. split; [reflexivity|]. unfold quiet. cbn. repeat (split; [reflexivity|]).
    apply (leads_look C (mw_sys mw) g q a' p Ha). rewrite E. reflexivity.
  Qed.

  Lemma m_find_none ok C (mw : mworld C) g q t p : shist JR ok C (mw_sys mw) g q t -> (forall P, ok P -> sparse56 P) -> addr_ok p ->
    (forall r, In r g -> ~ covers r p) -> exists mw', m_find JR (C ++ boot) p mw = Throw mw' UnknownPointer /\ quiet mw mw' g q.
  Proof.
    intros Hh Hs Ha Hn. destruct (look_none _ _ _ _ _ _ _ Hh Hs Ha Hn) as (a' & E).
    unfold m_find. rewrite E. cbn [omap]. eexists. split; [reflexivity|]. unfold quiet. cbn. repeat (split; [reflexivity|]).
    apply (leads_look C (mw_sys mw) g q a' p Ha). rewrite E. reflexivity.
  Qed.

  Lemma quiet_trans C (m1 m2 m3 : mworld C) g q : quiet m1 m2 g q -> quiet m2 m3 g q -> quiet m1 m3 g q.
  Proof.
    intros (A & B & D & E & F) (A' & B' & D' & E' & F'). unfold quiet. rewrite A', B', D', E'. repeat (split; [assumption|]).
    eapply leads_weaken; [|exact (leads_trans _ _ _ _ _ _ _ _ _ _ _ _ F F')]. intros ok _. split; exact I.
  Qed.

  Lemma quiet_shist C (m1 m2 : mworld C) g q ok t : quiet m1 m2 g q -> shist JR ok C (mw_sys m1) g q t ->
    exists ts, shist JR ok C (mw_sys m2) g q (ts ++ t).
  Proof. intros (_ & _ & _ & _ & F) H. exact (F ok t H I). Qed.

  (** ** Calls on allocators *)

  Lemma m_alloc_ok C (mw : mworld C) g q t i n nm : shist JR any_keys C (mw_sys mw) g q t -> usable (C ++ boot) i ->
    n = 0 \/ user_guard (C ++ boot) i n (fst (mw_sys mw)) ->
    post (m_call JR (C ++ boot) noise (sys_allocate JR (C ++ boot) i n nm) mw)
      (fun mw' p => addr_ok p /\ p <> 0 /\ (forall r, In r g -> r_ptr r <> p) /\
         leads C (mw_sys mw) g q (mw_sys mw') (mkRec p n (Z.of_nat i) nm :: g) q (fun ok => ok (keyed (mkRec p n (Z.of_nat i) nm :: g))) /\
         (forall r, In r g -> kept (mw_mem mw) (mw_mem mw') r) /\ mw_log mw' = mw_log mw)
      (fun mw' e => leads C (mw_sys mw) g q (mw_sys mw') g q (fun _ => True) /\
         (forall r, In r g -> kept (mw_mem mw) (mw_mem mw') r) /\ mw_log mw' = mw_log mw).
  Proof.
    intros Hh Hu Hg. unfold m_call. apply post_omap. cbn [mw_sys mw_mem mw_log].
    eapply post_impl; [| |apply post_keep, (sy_alloc any_keys any_keys_monotone C (mw_sys mw) g q t i n nm Hh Hu Hg)]; cbv beta.
    - intros sw' p (E & A & B & D & _).
      assert (HL : leads C (mw_sys mw) g q sw' (mkRec p n (Z.of_nat i) nm :: g) q (fun ok => ok (keyed (mkRec p n (Z.of_nat i) nm :: g)))).
      { intros ok t' Hh' Ho. exists [snap (C ++ boot) (fst sw')]. eapply sh_alloc; eauto. }
      destruct (HL any_keys t Hh I) as (ts & H'). repeat (split; [assumption|]). split; [|reflexivity].
      intros r Hr. eapply settle_kept; [exact Hh|exact H'|exact Hr|now right].
    - intros sw' e (E & _).
      assert (HL : leads C (mw_sys mw) g q sw' g q (fun _ => True)).
      { intros ok t' Hh' Ho. exists [snap (C ++ boot) (fst sw')]. eapply sh_alloc_throw; eauto. }
      destruct (HL any_keys t Hh I) as (ts & H'). split; [exact HL|]. split; [|reflexivity].
      intros r Hr. eapply settle_kept; [exact Hh|exact H'|exact Hr|exact Hr].
  Qed.

  Lemma in_forget r p g : In r (forget p g) -> In r g.
  Proof.
    induction g as [|x g IH]; [auto|]. cbn [forget]. destruct (r_ptr x =? p); [now right|]. intros [->|H]; [now left|right; auto].
  Qed.

  Definition freed (C : list nodecfg) (mw mw' : mworld C) (g : list arec) (q : list nat) (r : arec) : Prop :=
    leads C (mw_sys mw) g q (mw_sys mw') (forget (r_ptr r) g) q (fun _ => True) /\
    (forall r', In r' (forget (r_ptr r) g) -> kept (mw_mem mw) (mw_mem mw') r') /\ mw_log mw' = mw_log mw.

  Lemma m_free_ok C (mw : mworld C) g q t r : shist JR any_keys C (mw_sys mw) g q t -> In r g ->
    post (m_call JR (C ++ boot) noise (sys_deallocate JR (C ++ boot) (Z.to_nat (r_strat r)) (r_ptr r)) mw)
      (fun mw' _ => freed C mw mw' g q r)
      (fun mw' _ => coalescing (kind_at (C ++ boot) (Z.to_nat (r_strat r))) /\ freed C mw mw' g q r).
  Proof.
    intros Hh Hr. unfold m_call. apply post_omap. cbn [mw_sys mw_mem mw_log].
    destruct (live_facts _ _ _ _ _ _ Hh Hr) as (A & B & D & E & F & G).
    eapply post_impl; [| |apply post_keep, (sy_right any_keys any_keys_monotone C (mw_sys mw) g q t r Hh Hr)]; cbv beta.
    - intros sw' [] (Eq & H'). split.
      + intros ok t' Hh' _. exists [snap (C ++ boot) (fst sw')]. eapply sh_free; eauto.
      + split; [|reflexivity]. intros r' Hr'. eapply settle_kept; [exact Hh|exact H'|eapply in_forget; eauto|exact Hr'].
    - intros sw' e (Eq & Hc & H'). split; [exact Hc|]. destruct (any_inv _ _ _ _ _ Hh) as (HS & _). split.
      + intros ok t' Hh' _. exists [snap (C ++ boot) (fst sw')].
        rewrite <- (gone_own (Z.to_nat (r_strat r)) (r_ptr r) g r (sinv_nodup _ _ _ _ _ _ HS) Hr eq_refl F). eapply sh_free_throw; eauto.
      + split; [|reflexivity]. intros r' Hr'. eapply settle_kept; [exact Hh|exact H'|eapply in_forget; eauto|exact Hr'].
  Qed.

  Lemma m_rm_free_ok C (mw : mworld C) g q t r : shist JR any_keys C (mw_sys mw) g q t -> In r g ->
    post (m_call JR (C ++ boot) noise (rm_deallocate JR (C ++ boot) (r_ptr r)) mw)
      (fun mw' _ => freed C mw mw' g q r)
      (fun mw' _ => coalescing (kind_at (C ++ boot) (Z.to_nat (r_strat r))) /\ freed C mw mw' g q r).
  Proof.
    intros Hh Hr. unfold m_call. apply post_omap. cbn [mw_sys mw_mem mw_log].
    destruct (live_facts _ _ _ _ _ _ Hh Hr) as (A & B & D & E & F & G).
    destruct (sy_rm_owner C (mw_sys mw) g q t r Hh Hr) as (a' & Er & Hh').
    assert (Hp : post (rm_deallocate JR (C ++ boot) (r_ptr r) (mw_sys mw))
      (fun sw' _ => shist JR any_keys C sw' (forget (r_ptr r) g) q (snap (C ++ boot) (fst sw') :: t))
      (fun sw' _ => coalescing (kind_at (C ++ boot) (Z.to_nat (r_strat r))) /\
         shist JR any_keys C sw' (forget (r_ptr r) g) q (snap (C ++ boot) (fst sw') :: t)))
      by (rewrite Er; apply (sy_right any_keys any_keys_monotone C _ g q t r Hh' Hr)).
    eapply post_impl; [| |apply post_keep, Hp]; cbv beta.
    - intros sw' [] (Eq & H'). split.
      + intros ok t' Hh2 _. exists [snap (C ++ boot) (fst sw')]. eapply sh_rm_free; eauto.
      + split; [|reflexivity]. intros r' Hr'. eapply settle_kept; [exact Hh|exact H'|eapply in_forget; eauto|exact Hr'].
    - intros sw' e (Eq & Hc & H'). split; [exact Hc|]. split.
      + intros ok t' Hh2 _. exists [snap (C ++ boot) (fst sw')]. eapply sh_rm_free_throw; eauto.
      + split; [|reflexivity]. intros r' Hr'. eapply settle_kept; [exact Hh|exact H'|eapply in_forget; eauto|exact Hr'].
  Qed.

  Lemma m_free_wrong C (mw : mworld C) g q t i p : shist JR any_keys C (mw_sys mw) g q t -> usable (C ++ boot) i -> addr_ok p -> p <> 0 ->
    (forall r, In r g -> r_ptr r = p -> r_strat r <> Z.of_nat i) ->
    exists mw', m_call JR (C ++ boot) noise (sys_deallocate JR (C ++ boot) i p) mw = Throw mw' RuntimeError /\
      leads C (mw_sys mw) g q (mw_sys mw') g q (fun _ => True) /\
      (forall r, In r g -> kept (mw_mem mw) (mw_mem mw') r) /\ mw_log mw' = mw_log mw.
  Proof.
    intros Hh Hu Ha Hp Hn. destruct (sy_wrong any_keys any_keys_monotone C (mw_sys mw) g q t i p Hh Hu Ha Hp Hn) as (a' & E & H' & _).
    unfold m_call. rewrite E. cbn [omap]. eexists. split; [reflexivity|]. cbn [mw_sys mw_mem mw_log]. split; [|split; [|reflexivity]].
    - intros ok t' Hh' _. exists [snap (C ++ boot) (fst (mw_sys mw))].
      pose proof (sh_free_throw JR ok C (mw_sys mw) g q t' i p (fst (mw_sys mw), a') RuntimeError Hh' Hu Ha E) as H. now rewrite (gone_other i p g Hn) in H.
    - intros r Hr. eapply settle_kept; [exact Hh|exact H'|exact Hr|exact Hr].
  Qed.

  (** ** Copy and memset *)

  Lemma rest_ok ok C sw g q t r p : shist JR ok C sw g q t -> points ok g r p ->
    w64 (r_size r - (p - r_ptr r)) = rest r p /\ 0 <= rest r p <= r_size r /\ 0 < p /\ p + rest r p <= ASP.
  Proof.
    intros Hh [Hr Hp]. destruct (live_facts _ _ _ _ _ _ (usable_any _ _ _ _ _ _ Hh) Hr) as (A & B & D & _).
    assert (H : 0 <= rest r p <= r_size r /\ 0 < p /\ p + rest r p <= ASP) by (unfold rest, covers in *; lia).
    split; [|exact H]. replace (r_size r - (p - r_ptr r)) with (rest r p) by (unfold rest; lia).
    apply w64_small. unfold ASP, M64 in *. lia.
  Qed.

  Lemma m_copy_find ok C (mw : mworld C) g q t rs rd src dst size : shist JR ok C (mw_sys mw) g q t ->
    points ok g rs src -> points ok g rd dst ->
    exists mw', quiet mw mw' g q /\ m_copy JR (C ++ boot) dst src size mw =
      (if rest rd dst <? wanted rs src size then Throw mw' RuntimeError else m_memcpy JR (C ++ boot) dst src (wanted rs src size) mw').
  Proof.
    intros Hh Hs Hd. destruct (m_find_ok _ _ _ _ _ _ _ _ Hh Hs) as (m1 & E1 & Q1). destruct (quiet_shist _ _ _ _ _ _ _ Q1 Hh) as (t1 & H1).
    destruct (m_find_ok _ _ _ _ _ _ _ _ H1 Hd) as (m2 & E2 & Q2). exists m2. split; [eapply quiet_trans; eauto|].
    unfold m_copy. rewrite E1. cbn [bind]. rewrite E2. cbn [bind].
    rewrite (proj1 (rest_ok _ _ _ _ _ _ _ _ Hh Hs)), (proj1 (rest_ok _ _ _ _ _ _ _ _ Hh Hd)). reflexivity.
  Qed.

  Lemma m_copy_ok ok C (mw : mworld C) g q t rs rd src dst size : shist JR ok C (mw_sys mw) g q t ->
    points ok g rs src -> points ok g rd dst -> 0 <= size -> wanted rs src size <= rest rd dst ->
    wanted rs src size = 0 \/ disj (dst, wanted rs src size) (src, wanted rs src size) ->
    exists mw', m_copy JR (C ++ boot) dst src size mw = Ok mw' tt /\
      leads C (mw_sys mw) g q (mw_sys mw') g q (fun _ => True) /\ fst (mw_sys mw') = fst (mw_sys mw) /\
      carried (mw_mem mw) (mw_mem mw') src dst (wanted rs src size) /\
      only (mw_mem mw) (mw_mem mw') (dst, wanted rs src size) /\
      mw_log mw' = Write (dst, wanted rs src size) :: Read (src, wanted rs src size) :: mw_log mw.
  Proof.
    intros Hh Hs Hd Hz Hn Ho. destruct (m_copy_find ok C mw g q t rs rd src dst size Hh Hs Hd) as (m1 & (A & B & D & E & F) & ->).
    destruct (Z.ltb_spec (rest rd dst) (wanted rs src size)); [lia|]. unfold m_memcpy.
    replace ((0 <? wanted rs src size) && (dst <? src + wanted rs src size) && (src <? dst + wanted rs src size)) with false.
    2: { unfold disj in Ho. cbn [fst snd] in Ho.
         assert (0 <= wanted rs src size) by (unfold wanted; destruct (Z.eqb_spec size 0); [apply (rest_ok _ _ _ _ _ _ _ _ Hh Hs)|lia]).
         destruct (Z.ltb_spec 0 (wanted rs src size)); [|reflexivity]. lia. }
    eexists. split; [reflexivity|]. cbn [mw_sys mw_mem mw_log]. split; [exact F|]. split; [exact A|]. rewrite B, E.
    split; [|split; [|reflexivity]].
    - intros i Hi. unfold mem_copy. replace ((dst <=? dst + i) && (dst + i <? dst + wanted rs src size)) with true by lia. f_equal. lia.
    - intros x Hx. cbn [fst snd] in Hx. unfold mem_copy. replace ((dst <=? x) && (x <? dst + wanted rs src size)) with false by lia. reflexivity.
  Qed.

  Lemma m_memset_ok ok C (mw : mworld C) g q t r p v len : shist JR ok C (mw_sys mw) g q t -> points ok g r p -> 0 <= len ->
    exists mw', leads C (mw_sys mw) g q (mw_sys mw') g q (fun _ => True) /\ fst (mw_sys mw') = fst (mw_sys mw) /\
      if rest r p <? wanted r p len
      then m_memset JR (C ++ boot) p v len mw = Throw mw' RuntimeError /\ mw_mem mw' = mw_mem mw /\ mw_log mw' = mw_log mw
      else m_memset JR (C ++ boot) p v len mw = Ok mw' tt /\ (forall i, 0 <= i < wanted r p len -> mw_mem mw' (p + i) = v mod 256) /\
        only (mw_mem mw) (mw_mem mw') (p, wanted r p len) /\ mw_log mw' = Write (p, wanted r p len) :: mw_log mw.
  Proof.
    intros Hh Hp Hl. destruct (m_find_ok _ _ _ _ _ _ _ _ Hh Hp) as (m1 & E1 & (A & B & D & E & F)).
    unfold m_memset. rewrite E1. cbn [bind]. rewrite (proj1 (rest_ok _ _ _ _ _ _ _ _ Hh Hp)). fold (wanted r p len).
    destruct (Z.ltb_spec (rest r p) (wanted r p len)).
    - exists m1. auto.
    - eexists. split; [|split; [|split; [reflexivity|]]]; cbn [mw_sys mw_mem mw_log]; [exact F|exact A|]. rewrite B, E.
      split; [|split; [|reflexivity]].
      + intros i Hi. unfold mem_fill. replace ((p <=? p + i) && (p + i <? p + wanted r p len)) with true by lia. reflexivity.
      + intros x Hx. cbn [fst snd] in Hx. unfold mem_fill. replace ((p <=? x) && (x <? p + wanted r p len)) with false by lia. reflexivity.
  Qed.
End Ops.
