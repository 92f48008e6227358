(** The properties of the system in the form in which they are stated in Props_System.v. *)
From Verif Require Import Base BaseFacts HeapModel StratModel StratFacts QuickPoolModel FixedPoolModel
  GlobalModel GlobalSpec GlobalFacts GlobalFrame MapModel MapSpec MapThms AllocMapThms JudyModel JudyFacts JudyUpdate MapMain
  SystemModel SystemSpec SystemFacts SystemMain.

Lemma any_keys_monotone : monotone any_keys.
Proof. split; [exact I|]. intros P Q _ _. exact I. Qed.
Lemma sparse56_monotone : monotone sparse56.
Proof.
  split; [|apply (js_sparse _ _ _ _ _ (judy_array_ok (V := list arec)))].
  intros w l _ Hl. destruct l as [|x l]; [cbn; lia|]. destruct (Hl x (or_introl eq_refl)) as [[] _].
Qed.
Lemma aligned16_monotone : monotone aligned16.
Proof. split; [intros x []|]. intros P Q H HP x Hx. apply HP, H, Hx. Qed.

Lemma shist_mono J (ok ok' : (Z -> Prop) -> Prop) C sw g q t : (forall P, ok P -> ok' P) -> shist J ok C sw g q t -> shist J ok' C sw g q t.
Proof.
  intros H Hh. induction Hh.
  - eapply sh_start; eauto.
  - eapply sh_create; eauto.
  - eapply sh_create_throw; eauto.
  - eapply sh_alloc; eauto.
  - eapply sh_alloc_throw; eauto.
  - eapply sh_free; eauto.
  - eapply sh_free_throw; eauto.
  - eapply sh_rm_free; eauto.
  - eapply sh_rm_free_throw; eauto.
  - eapply sh_release; eauto.
  - eapply sh_coalesce; eauto.
  - eapply sh_realloc; eauto.
  - eapply sh_look; eauto.
Qed.

Lemma omap_omap {W W1 W2 A A1 A2} (f : W -> W1) (f2 : W1 -> W2) (h : A -> A1) (h2 : A1 -> A2) (o : outcome W A) :
  omap f2 h2 (omap f h o) = omap (fun w => f2 (f w)) (fun a => h2 (h a)) o.
Proof. destruct o; reflexivity. Qed.

(** ** The registry *)
Section Thms.
  Context (ok : (Z -> Prop) -> Prop) (Hok : monotone ok).
  Notation inv_of := (shist_inv JR sparse56 jrel jloc jplain judy_array_ok ok Hok).

  Lemma find_live C w a g r : sinv JR ok C w a g -> In r g -> exists a', am_find JR (r_ptr r) a = Ok a' r.
  Proof.
    intros HS Hr. destruct (sinv_ptr _ _ _ _ _ _ r HS Hr) as (_ & _ & Hp). pose proof (sinv_nodup _ _ _ _ _ _ HS) as Hn.
    destruct (si_reg _ _ _ _ _ _ HS) as (g2 & Hh & HP). destruct (records_perm g2 g (r_ptr r) Hn HP) as [Hin _].
    destruct (at_find_exact JR sparse56 jrel jloc jplain judy_array_ok ok g2 a (r_ptr r) r [] Hh Hp (Hin r Hr eq_refl) eq_refl) as (a' & E).
    exists a'. unfold am_find. rewrite E. reflexivity.
  Qed.

  Lemma sy_registered C sw g q t : shist JR ok C sw g q t ->
    (forall r, In r g -> exists a', am_find JR (r_ptr r) (snd sw) = Ok a' r) /\
    am_size JR (snd sw) = Z.of_nat (length g) /\
    (forall fuel addr, (length g < fuel)%nat -> addr <> 0 -> exists a' l, am_records JR fuel addr (snd sw) = Ok a' l /\ Permutation l g) /\
    pairwise (fun r r' => disj (rreg r) (rreg r')) g /\
    forall r, In r g -> 0 < r_ptr r /\ 0 <= r_size r /\ usable (C ++ boot) (Z.to_nat (r_strat r)).
  Proof.
    intros Hh. destruct (inv_of C sw g q t Hh) as (HS & HL & HK & HQ).
    split; [intros r Hr; eapply find_live; eauto|].
    destruct (si_reg _ _ _ _ _ _ HS) as (g2 & Ha & HP).
    assert (El : length g2 = length g) by (rewrite (Permutation_length HP); apply map_length).
    assert (Hlen : Z.of_nat (length g) < ASP).
    { pose proof (good_sum _ (si_good _ _ _ _ _ _ HS)) as H. rewrite map_map in H.
      assert (H' : Z.of_nat (length g) <= sumZ (map (fun x => snd (rreg x)) g)); [|lia].
      pose proof (proj1 (si_good _ _ _ _ _ _ HS)) as Hw. clear -Hw. induction g as [|r g IH]; [cbn; lia|].
      cbn [map sumZ length]. specialize (IH (fun x Hx => Hw x (or_intror Hx))). specialize (Hw (rreg r) (or_introl eq_refl)).
      destruct Hw as (_ & Hw & _). lia. }
    split; [rewrite (at_size JR sparse56 jrel jloc jplain judy_array_ok ok g2 _ Ha), El; apply w64_small; unfold ASP, M64 in *; lia|].
    split.
    - intros fuel addr Hf Hadr.
      assert (H0 : ~ registered g2 0).
      { intros Hr. apply (keyed_registered g g2 0 HP) in Hr as (r & Hr & E). pose proof (sinv_ptr _ _ _ _ _ _ r HS Hr). lia. }
      destruct (at_records JR sparse56 jrel jloc jplain judy_array_ok ok g2 _ fuel addr Ha H0 ltac:(lia) Hadr) as (a' & l & E & Pl & _).
      exists a', l. split; [exact E|]. rewrite Pl, HP. unfold reg. rewrite map_map. cbn [snd]. now rewrite map_id.
    - split; [apply (proj1 (pairwise_map rreg disj g)), (si_good _ _ _ _ _ _ HS)|]. intros r Hr.
      pose proof (sinv_ptr _ _ _ _ _ _ r HS Hr). destruct (si_strat _ _ _ _ _ _ HS r Hr) as (A & B & C0). tauto.
  Qed.

  Lemma sy_wrong C sw g q t i p : shist JR ok C sw g q t -> usable (C ++ boot) i -> addr_ok p -> p <> 0 ->
    (forall r, In r g -> r_ptr r = p -> r_strat r <> Z.of_nat i) ->
    exists a', sys_deallocate JR (C ++ boot) i p sw = Throw (fst sw, a') RuntimeError /\
      shist JR ok C (fst sw, a') g q (snap (C ++ boot) (fst sw) :: t) /\
      forall r, In r g -> exists a'', am_find JR (r_ptr r) a' = Ok a'' r.
  Proof.
    intros Hh Hu Hp Hp0 Hw. destruct (inv_of C sw g q t Hh) as (HS & HL & HK & HQ). destruct sw as [w a]. cbn [fst snd] in *.
    destruct (sys_deallocate_wrong JR sparse56 jrel jloc jplain judy_array_ok ok Hok C w a g i p HS Hp Hp0 Hw) as (a' & E & HS').
    exists a'. split; [exact E|]. split.
    - pose proof (sh_free_throw JR ok C (w, a) g q t i p (w, a') RuntimeError Hh Hu Hp E) as H. now rewrite (gone_other i p g Hw) in H.
    - intros r Hr. eapply find_live; eauto.
  Qed.

  Lemma sy_right C sw g q t r : shist JR ok C sw g q t -> In r g ->
    post (sys_deallocate JR (C ++ boot) (Z.to_nat (r_strat r)) (r_ptr r) sw)
      (fun sw' _ => shist JR ok C sw' (forget (r_ptr r) g) q (snap (C ++ boot) (fst sw') :: t))
      (fun sw' _ => coalescing (kind_at (C ++ boot) (Z.to_nat (r_strat r))) /\
         shist JR ok C sw' (forget (r_ptr r) g) q (snap (C ++ boot) (fst sw') :: t)).
  Proof.
    intros Hh Hr. destruct (inv_of C sw g q t Hh) as (HS & HL & HK & HQ). destruct sw as [w a]. cbn [fst snd] in *.
    destruct (si_strat _ _ _ _ _ _ HS r Hr) as (Hu & H0 & _).
    pose proof (sys_deallocate_right JR sparse56 jrel jloc jplain judy_array_ok ok Hok q C w a g (Z.to_nat (r_strat r)) r HQ HS Hr ltac:(lia)) as H.
    destruct (sys_deallocate JR (C ++ boot) (Z.to_nat (r_strat r)) (r_ptr r) (w, a)) as [sw' []|sw' e| | |] eqn:E; cbn [post] in *; auto.
    - eapply sh_free; eauto. now apply (sinv_ptr _ _ _ _ _ _ r HS Hr).
    - split; [tauto|]. rewrite <- (gone_own (Z.to_nat (r_strat r)) (r_ptr r) g r (sinv_nodup _ _ _ _ _ _ HS) Hr eq_refl ltac:(lia)).
      eapply sh_free_throw; eauto. now apply (sinv_ptr _ _ _ _ _ _ r HS Hr).
  Qed.

  (** ** Statistics *)
  Lemma sy_current_size C sw g q t i : shist JR ok C sw g q t -> (i <= length (C ++ boot))%nat -> ~ In i q ->
    never_null (kind_at (C ++ boot) i) -> own_stats (kind_at (C ++ boot) i) ->
    current_size (C ++ boot) i (fst sw) = bytes (mine i g).
  Proof.
    intros Hh Hi Hq Hn Ho. destruct (inv_of C sw g q t Hh) as (HS & HL & HK & HQ). rewrite current_size_own by auto.
    now apply (HL i Hi).
  Qed.

  Lemma sy_count C sw g q t i : shist JR ok C sw g q t -> (i <= length (C ++ boot))%nat -> ~ In i q ->
    never_null (kind_at (C ++ boot) i) ->
    allocation_count (C ++ boot) i (fst sw) = Z.of_nat (length (mine i g)).
  Proof.
    intros Hh Hi Hq Hn. destruct (inv_of C sw g q t Hh) as (HS & HL & HK & HQ). now apply (HL i Hi).
  Qed.

  Lemma sy_watermark C sw g q t i : shist JR ok C sw g q t -> (i <= length (C ++ boot))%nat -> ~ In i q ->
    never_null (kind_at (C ++ boot) i) -> own_stats (kind_at (C ++ boot) i) ->
    current_size (C ++ boot) i (fst sw) <= high_watermark (C ++ boot) i (fst sw) /\
    (forall s st, In s t -> s i = Some st -> st_cur st <= high_watermark (C ++ boot) i (fst sw)) /\
    exists s st, In s t /\ s i = Some st /\ st_cur st = high_watermark (C ++ boot) i (fst sw).
  Proof.
    intros Hh Hi Hq Hn Ho. destruct (inv_of C sw g q t Hh) as (HS & HL & HK & HQ). rewrite current_size_own, high_watermark_own by auto.
    destruct (HL i Hi) as [_ H]. destruct (H Hq Hn) as (_ & _ & A & B). destruct (B Ho). auto.
  Qed.

  Lemma sy_watermark_grows C sw g q t i : shist JR ok C sw g q t -> (i <= length (C ++ boot))%nat -> own_stats (kind_at (C ++ boot) i) ->
    forall s st, In s t -> s i = Some st -> st_hwm st <= high_watermark (C ++ boot) i (fst sw).
  Proof.
    intros Hh Hi Ho. destruct (inv_of C sw g q t Hh) as (HS & HL & HK & HQ). rewrite high_watermark_own by auto.
    now apply (HL i Hi).
  Qed.

  (** ** Zero bytes *)
  Lemma sy_alloc C sw g q t i n nm : shist JR ok C sw g q t -> usable (C ++ boot) i -> n = 0 \/ user_guard (C ++ boot) i n (fst sw) ->
    post (sys_allocate JR (C ++ boot) i n nm sw)
      (fun sw' p => addr_ok p /\ p <> 0 /\ (forall r, In r g -> r_ptr r <> p) /\
         (ok (keyed (mkRec p n (Z.of_nat i) nm :: g)) -> exists a', am_find JR p (snd sw') = Ok a' (mkRec p n (Z.of_nat i) nm)))
      (fun sw' _ => forall r, In r g -> exists a', am_find JR (r_ptr r) (snd sw') = Ok a' r).
  Proof.
    intros Hh Hu Hg. destruct (inv_of C sw g q t Hh) as (HS & HL & HK & HQ). destruct sw as [w a]. cbn [fst snd] in *.
    pose proof (sys_allocate_ok JR sparse56 jrel jloc jplain judy_array_ok ok Hok q C w a g i n nm HQ HS Hu Hg) as H.
    eapply post_imp; [exact H| |].
    - cbv beta. intros sw' p (A & B & D & _ & E). split; [exact A|]. split; [exact B|]. split; [exact D|]. intros Ho. specialize (E Ho).
      exact (find_live C (fst sw') (snd sw') _ (mkRec p n (Z.of_nat i) nm) E (or_introl eq_refl)).
    - cbv beta. intros sw' e [A _] r Hr. eapply find_live; eauto.
  Qed.
End Thms.

(** *** Nothing but the zero-byte pool and the NULL resource is touched *)

Fixpoint gput (C : list nodecfg) : gworld (C ++ boot) -> gworld boot -> gworld (C ++ boot) :=
  match C return gworld (C ++ boot) -> gworld boot -> gworld (C ++ boot) with
  | [] => fun _ b => b
  | _ :: C' => fun w b => (fst w, gput C' (snd w) b)
  end.

Lemma graw_alloc_low C i n : (i <= 3)%nat -> forall w,
  p_alloc (graw (C ++ boot) i) n w = omap (gput C w) (fun p => p) (p_alloc (graw boot i) n (gdrop C w)).
Proof.
  intros Hi. induction C as [|c C IH]; intros w.
  - cbn [app gput gdrop]. destruct (p_alloc (graw boot i) n w); reflexivity.
  - cbn [app graw]. destruct (Nat.eqb_spec i (S (length (C ++ boot)))) as [E|E]; [rewrite app_length in E; cbn in E; lia|].
    cbn [lift_parent p_alloc gput gdrop]. rewrite IH, omap_omap. reflexivity.
Qed.

Lemma graw_free_low C i p n : (i <= 3)%nat -> forall w,
  p_dealloc (graw (C ++ boot) i) p n w = omap (gput C w) (fun u => u) (p_dealloc (graw boot i) p n (gdrop C w)).
Proof.
  intros Hi. induction C as [|c C IH]; intros w.
  - cbn [app gput gdrop]. destruct (p_dealloc (graw boot i) p n w); reflexivity.
  - cbn [app graw]. destruct (Nat.eqb_spec i (S (length (C ++ boot)))) as [E|E]; [rewrite app_length in E; cbn in E; lia|].
    cbn [lift_parent p_dealloc gput gdrop]. rewrite IH, omap_omap. reflexivity.
Qed.

Lemma gput_high C j : (4 <= j)%nat -> forall w b, gnode (C ++ boot) j (gput C w b) = gnode (C ++ boot) j w /\
  ((j <= length (C ++ boot))%nat -> gstats (C ++ boot) j (gput C w b) = gstats (C ++ boot) j w).
Proof.
  intros Hj. induction C as [|c C IH]; intros w b.
  - split; [|cbn; lia]. cbn [app gput]. unfold boot. cbn [gnode length]. destruct j as [|[|[|[|j]]]]; try lia. reflexivity.
  - cbn [app gput gnode gstats]. destruct (Nat.eqb_spec j (S (length (C ++ boot)))) as [E|E]; [auto|].
    destruct (IH (snd w) b) as [A B]. split; [exact A|]. cbn [length]. intros Hl. apply B. lia.
Qed.

Lemma gput_low C j : (j <= 3)%nat -> forall w b, gnode (C ++ boot) j (gput C w b) = gnode boot j b /\
  gstats (C ++ boot) j (gput C w b) = gstats boot j b.
Proof.
  intros Hj. induction C as [|c C IH]; intros w b; [split; reflexivity|].
  cbn [app gput gnode gstats]. destruct (Nat.eqb_spec j (S (length (C ++ boot)))) as [E|E]; [rewrite app_length in E; cbn in E; lia|]. apply IH.
Qed.

Lemma gput_drop C w : gput C w (gdrop C w) = w.
Proof. induction C as [|c C IH]; [reflexivity|]. cbn [gput gdrop]. rewrite IH. now destruct w. Qed.

Lemma host_node (b b' : gworld boot) : gnode boot 1 b = gnode boot 1 b'.
Proof. destruct b as [[? ?] [[? ?] [[? []] ?]]], b' as [[? ?] [[? ?] [[? []] ?]]]. reflexivity. Qed.

Lemma put_untouched C w b : gstats boot 1 b = gstats boot 1 (gdrop C w) ->
  forall j, usable (C ++ boot) j -> untouched (C ++ boot) j w (gput C w b).
Proof.
  intros H1 j [->|Hj].
  - unfold host_id. split.
    + rewrite (proj1 (gput_low C 1 ltac:(lia) w b)), gnode_drop by lia. apply host_node.
    + rewrite (proj2 (gput_low C 1 ltac:(lia) w b)), H1. rewrite <- (gput_drop C w) at 2.
      now rewrite (proj2 (gput_low C 1 ltac:(lia) w (gdrop C w))).
  - destruct (gput_high C j ltac:(lia) w b) as [A B]. split; [exact A|apply B; lia].
Qed.

Definition Q1 (j : nat) (s s' : stats) : Prop := j = 1%nat -> s' = s.
Lemma Q1_refl j s : Q1 j s s. Proof. intros _. reflexivity. Qed.
Lemma Q1_step j n s s' : has_child boot j -> Q1 j s s' -> Q1 j s (stats_add n s') /\ Q1 j s (stats_sub n s').
Proof. intros (c & Hc & E) _. split; intros ->; cbn in Hc; destruct Hc as [<-|[<-|[<-|[]]]]; discriminate. Qed.

Lemma untouched_upd C i f w j : (i <= length C)%nat -> (j <= length C)%nat -> j <> i ->
  untouched C j w (gupd C i f w).
Proof.
  intros Hi Hj Hne. split; [|rewrite (gstats_gupd C i j f Hi Hj); destruct (Nat.eqb_spec j i); [contradiction|reflexivity]].
  clear Hj. induction C as [|c C IH]; [reflexivity|]. cbn [gnode gupd length] in *.
  destruct (Nat.eqb_spec i (S (length C))) as [->|Ni].
  - destruct (Nat.eqb_spec j (S (length C))); [contradiction|reflexivity].
  - destruct (Nat.eqb_spec j (S (length C))); [reflexivity|]. cbn [snd]. apply IH. lia.
Qed.

Lemma gnode_upd C i f j : forall w, gnode C j (gupd C i f w) = gnode C j w.
Proof.
  induction C as [|c C IH]; intros w; [reflexivity|]. cbn [gnode gupd].
  destruct (Nat.eqb i (S (length C))); cbn [fst snd].
  - destruct (Nat.eqb j (S (length C))); reflexivity.
  - destruct (Nat.eqb j (S (length C))); [reflexivity|apply IH].
Qed.

Section Zero.
  Context (ok : (Z -> Prop) -> Prop) (Hok : monotone ok).
  Notation inv_of := (shist_inv JR sparse56 jrel jloc jplain judy_array_ok ok Hok).

  Lemma sy_zero_alloc C sw g q t i nm : shist JR ok C sw g q t -> usable (C ++ boot) i ->
    post (sys_allocate JR (C ++ boot) i 0 nm sw)
      (fun sw' p => forall j, usable (C ++ boot) j -> gnode (C ++ boot) j (fst sw') = gnode (C ++ boot) j (fst sw) /\
         gstats (C ++ boot) j (fst sw') = if Nat.eqb j i then stats_add 0 (gstats (C ++ boot) j (fst sw)) else gstats (C ++ boot) j (fst sw))
      (fun sw' _ => forall j, usable (C ++ boot) j -> untouched (C ++ boot) j (fst sw) (fst sw')).
  Proof.
    intros Hh Hu. destruct (inv_of C sw g q t Hh) as (HS & HL & HK & HQ). destruct sw as [w a]. cbn [fst snd] in *.
    pose proof HS as [S1 S2 S3 S4 S5 S6 S7]. destruct (peel C S1 S2 w (Xof g) S5) as (X' & G & E0 & E2 & E3 & HI).
    destruct (graw_alloc_steps Q1 boot Q1_refl Q1_step boot_config zero_id 1 (gdrop C w) X' G (zero_guard [] (gdrop C w))) as [_ Ha].
    pose proof (graw_nonnull boot boot_config zero_id 1 X' (gdrop C w) G (zero_guard [] (gdrop C w)) I) as Hnn.
    unfold sys_allocate. cbn [Z.eqb fst snd]. rewrite graw_alloc_low by (unfold zero_id; lia).
    destruct (p_alloc (graw boot zero_id) 1 (gdrop C w)) as [b p|b e| | |]; cbn [post omap bind fst snd] in *; auto.
    - pose proof Ha as Ha0. destruct Ha as [_ Ha]. pose proof (Ha 1%nat ltac:(cbn; lia) eq_refl) as H1.
      unfold sys_track, sys_register. destruct (Z.eqb_spec p 0); [contradiction|]. cbn [fst snd].
      destruct S3 as (g2 & S3 & HP).
      assert (Hap : addr_ok p).
      { destruct Ha0 as [HG _]. destruct (Z.eqb_spec p 0); [contradiction|]. pose proof (GInv_good _ _ _ _ zero_id boot_config HG ltac:(cbn; unfold zero_id; lia)) as [Hw _].
        rewrite hold_eq in Hw. specialize (Hw _ (or_introl eq_refl)). unfold wf_region, addr_ok, ASP, M64 in *. cbn [fst snd] in Hw. lia. }
      destruct (at_insert JR sparse56 jrel jloc jplain judy_array_ok ok g2 a p (mkRec p 0 (Z.of_nat i) nm) S3 Hap) as (a1 & Ei).
      rewrite Ei. cbn [omap bind post fst snd].
      intros j Hj. pose proof (put_untouched C w b H1 j Hj) as [A B]. rewrite gnode_upd. split; [exact A|].
      rewrite (gstats_gupd _ i j) by (now apply usable_le). rewrite B. destruct (Nat.eqb_spec j i) as [E|]; [|reflexivity]. now rewrite <- E, B.
    - destruct Ha as [_ Ha]. intros j Hj. apply put_untouched; auto. apply (Ha 1%nat); [cbn; lia|reflexivity].
  Qed.

  Lemma sy_zero_free C sw g q t r : shist JR ok C sw g q t -> In r g -> r_size r = 0 ->
    post (sys_deallocate JR (C ++ boot) (Z.to_nat (r_strat r)) (r_ptr r) sw)
      (fun sw' _ => forall j, usable (C ++ boot) j -> gnode (C ++ boot) j (fst sw') = gnode (C ++ boot) j (fst sw) /\
         gstats (C ++ boot) j (fst sw') = if Z.of_nat j =? r_strat r then stats_sub 0 (gstats (C ++ boot) j (fst sw)) else gstats (C ++ boot) j (fst sw))
      (fun _ _ => False).
  Proof.
    intros Hh Hr Hz. destruct (inv_of C sw g q t Hh) as (HS & HL & HK & HQ). destruct sw as [w a]. cbn [fst snd] in *.
    destruct (si_strat _ _ _ _ _ _ HS r Hr) as (Hu & Hs0 & _). set (i := Z.to_nat (r_strat r)) in *.
    assert (Es : r_strat r = Z.of_nat i) by (unfold i; lia).
    destruct (sinv_ptr _ _ _ _ _ _ r HS Hr) as (Hp1 & Hp2 & Hp3).
    destruct (remove_ok JR sparse56 jrel jloc jplain judy_array_ok ok Hok C w a g (r_ptr r) HS Hp3) as (a1 & Hin & _). destruct (Hin r Hr eq_refl) as (E & HR & _).
    unfold sys_deallocate, sys_untrack. destruct (Z.eqb_spec (r_ptr r) 0); [lia|]. cbn [fst snd]. rewrite E. cbn [omap bind fst snd].
    rewrite Es, Z.eqb_refl. cbn [bind fst snd]. rewrite Hz.
    set (w1 := gupd (C ++ boot) i (stats_sub 0) w).
    assert (HS1 : sinv JR ok C w1 a g) by (apply sinv_gupd; auto; now apply usable_le).
    rewrite (sinv_zero JR ok C w1 a g r HS1 Hr), Hz, Z.eqb_refl.
    pose proof HS1 as [S1 S2 S3 S4 S5 S6 S7]. destruct (peel C S1 S2 w1 (Xof g) S5) as (X' & G & E0 & E2 & E3 & HI).
    pose proof (sinv_nodup _ _ _ _ _ _ HS) as Hn.
    pose proof (Xof_perm _ _ zero_id (forget_perm r g Hn Hr)) as HPf. rewrite Xof_cons in HPf. unfold rnode, rreg in HPf. rewrite Hz, Z.eqb_refl, Nat.eqb_refl in HPf.
    change (X' 3%nat) with (X' zero_id) in E3. change (Xof g 3%nat) with (Xof g zero_id) in E3. rewrite <- E3 in HPf.
    pose proof (graw_free_steps Q1 boot Q1_refl Q1_step boot_config zero_id (r_ptr r) 1 _ (gdrop C w1) X' G ltac:(cbn; unfold zero_id; lia) HPf) as Hf.
    rewrite graw_free_low by (unfold zero_id; lia). rewrite omap_omap. apply post_omap. eapply post_imp; [exact Hf| |intros b u [[] _]].
    intros b u [_ HM]. cbn [fst snd]. intros j Hj. pose proof (put_untouched C w1 b (HM 1%nat ltac:(cbn; lia) eq_refl) j Hj) as [A B].
    rewrite A, B. unfold w1. rewrite gnode_upd. split; [reflexivity|]. rewrite (gstats_gupd _ i j) by (now apply usable_le).
    destruct (Nat.eqb_spec j i) as [Ej|Ej], (Z.eqb_spec (Z.of_nat j) (Z.of_nat i)); try lia; [now rewrite Ej|reflexivity].
  Qed.
End Zero.

(** ** Deallocation through the resource manager *)
Lemma sy_rm_owner C sw g q t r : shist JR any_keys C sw g q t -> In r g ->
  exists a', rm_deallocate JR (C ++ boot) (r_ptr r) sw = sys_deallocate JR (C ++ boot) (Z.to_nat (r_strat r)) (r_ptr r) (fst sw, a') /\
    shist JR any_keys C (fst sw, a') g q t.
Proof.
  intros Hh Hr. destruct (shist_inv JR sparse56 jrel jloc jplain judy_array_ok any_keys any_keys_monotone C sw g q t Hh) as (HS & _).
  destruct sw as [w a]. cbn [fst snd] in *. destruct (find_live any_keys C w a g r HS Hr) as (a' & E).
  exists a'. unfold rm_deallocate, sys_find_allocator. cbn [fst snd]. rewrite E. cbn [omap bind]. split; [reflexivity|].
  eapply sh_look; [exact Hh|]. left. exists (r_ptr r). split; [now apply (sinv_ptr _ _ _ _ _ _ r HS Hr)|]. left. rewrite E. reflexivity.
Qed.

(** Lookup of any address, for addresses satisfying [sparse56]. *)
Lemma sinv_tidy C w a g g2 : sinv JR sparse56 C w a g -> Permutation g2 (reg g) -> tidy g2.
Proof.
  intros HS HP.
  split.
  - intros k r Hi. apply (Permutation_in _ HP) in Hi. unfold reg in Hi. apply in_map_iff in Hi as (r' & E & Hr'). injection E as <- <-.
    pose proof (sinv_ptr _ _ _ _ _ _ r' HS Hr') as (A & B & _). destruct (si_strat _ _ _ _ _ _ HS r' Hr') as (_ & _ & D).
    split; [reflexivity|]. unfold ASP, M64 in *. lia.
  - eapply (pairwise_perm (fun a b => forall x, ~ (covers (snd a) x /\ covers (snd b) x))); [|apply Permutation_sym, HP|].
    + intros x y H z [H1 H2]. apply (H z). auto.
    + unfold reg. apply pairwise_map. pose proof (proj1 (pairwise_map rreg disj g) (proj2 (si_good _ _ _ _ _ _ HS))) as Hd.
      pose proof (si_strat _ _ _ _ _ _ HS) as Hsz. clear -Hd Hsz.
      induction g as [|r g IH]; [exact I|]. destruct Hd as [Hd1 Hd2]. split; [|apply IH; auto; intros x Hx; apply Hsz; now right].
      intros y Hy x [H1 H2]. cbn [snd] in *. specialize (Hd1 y Hy).
      pose proof (proj2 (proj2 (Hsz r (or_introl eq_refl)))). pose proof (proj2 (proj2 (Hsz y (or_intror Hy)))).
      unfold covers, disj, rreg in *. cbn [fst snd] in *. destruct (Z.eqb_spec (r_size r) 0), (Z.eqb_spec (r_size y) 0); lia.
Qed.

Lemma in_reg g g2 r : Permutation g2 (reg g) -> (exists k, In (k, r) g2) <-> In r g.
Proof.
  intros HP. split.
  - intros (k & Hk). apply (Permutation_in _ HP) in Hk. unfold reg in Hk. apply in_map_iff in Hk as (r' & E & Hr'). now injection E as _ <-.
  - intros Hr. exists (r_ptr r). eapply Permutation_in; [apply Permutation_sym, HP|]. unfold reg. apply in_map_iff. exists r. auto.
Qed.

Lemma sy_rm_other C sw g q t p : shist JR sparse56 C sw g q t -> addr_ok p -> (forall r, In r g -> r_ptr r <> p) ->
  exists a' e, rm_deallocate JR (C ++ boot) p sw = Throw (fst sw, a') e /\
    shist JR sparse56 C (fst sw, a') g q (snap (C ++ boot) (fst sw) :: t) /\
    ((exists r, In r g /\ covers r p) -> e = RuntimeError) /\
    ((forall r, In r g -> ~ covers r p) -> e = UnknownPointer).
Proof.
  intros Hh Hp Hno. destruct (shist_inv JR sparse56 jrel jloc jplain judy_array_ok sparse56 sparse56_monotone C sw g q t Hh) as (HS & _).
  destruct sw as [w a]. cbn [fst snd] in *.
  destruct (si_reg _ _ _ _ _ _ HS) as (g2 & Ha & HP).
  pose proof (sinv_tidy C w a g g2 HS HP) as Ht. pose proof (fun r => in_reg g g2 r HP) as Hin2.
  destruct (at_lookup_tidy JR sparse56 jrel jloc jplain judy_array_ok g2 a p Ha Ht Hp) as (a1 & res & E & R).
  destruct res as [r|].
  - destruct (proj1 (R r) eq_refl) as [Hk Hc]. apply Hin2 in Hk.
    assert (HS1 : sinv JR sparse56 C w a1 g).
    { eapply (sinv_look JR sparse56 sparse56_monotone C w a a1 g HS). left. exists p. split; [exact Hp|]. left. unfold am_find. rewrite E. reflexivity. }
    assert (Hp0 : p <> 0).
    { intros E0. pose proof (sinv_ptr _ _ _ _ _ _ r HS Hk) as (A & B & _). unfold covers in Hc. lia. }
    destruct (sys_deallocate_wrong JR sparse56 jrel jloc jplain judy_array_ok sparse56 sparse56_monotone C w a1 g (Z.to_nat (r_strat r)) p HS1 Hp Hp0) as (a2 & E2 & _);
      [intros r' Hr' Ep; elim (Hno r' Hr' Ep)|].
    assert (Erm : rm_deallocate JR (C ++ boot) p (w, a) = Throw (w, a2) RuntimeError).
    { unfold rm_deallocate, sys_find_allocator. cbn [fst snd]. unfold am_find. rewrite E. cbn [omap bind]. exact E2. }
    exists a2, RuntimeError. split; [exact Erm|]. split; [|split; [auto|]].
    + pose proof (sh_rm_free_throw JR sparse56 C (w, a) g q t p (w, a2) RuntimeError Hh Hp Erm) as H. now rewrite (forget_absent p g Hno) in H.
    + intros H. elim (H r Hk Hc).
  - assert (Erm : rm_deallocate JR (C ++ boot) p (w, a) = Throw (w, a1) UnknownPointer).
    { unfold rm_deallocate, sys_find_allocator. cbn [fst snd]. unfold am_find. rewrite E. reflexivity. }
    exists a1, UnknownPointer. split; [exact Erm|]. split; [|split; [|auto]].
    + pose proof (sh_rm_free_throw JR sparse56 C (w, a) g q t p (w, a1) UnknownPointer Hh Hp Erm) as H. now rewrite (forget_absent p g Hno) in H.
    + intros (r & Hr & Hc). assert (Er : None = Some r) by (apply R; split; auto; now apply Hin2). discriminate.
Qed.

Lemma sy_alloc_any C sw g q t i n nm : shist JR any_keys C sw g q t -> usable (C ++ boot) i -> n = 0 \/ user_guard (C ++ boot) i n (fst sw) ->
  post (sys_allocate JR (C ++ boot) i n nm sw)
    (fun sw' p => addr_ok p /\ p <> 0 /\ (forall r, In r g -> r_ptr r <> p) /\
       exists a', am_find JR p (snd sw') = Ok a' (mkRec p n (Z.of_nat i) nm))
    (fun sw' _ => forall r, In r g -> exists a', am_find JR (r_ptr r) (snd sw') = Ok a' r).
Proof.
  intros H1 H2 H3. refine (post_impl _ _ _ _ _ _ _ (sy_alloc any_keys any_keys_monotone C sw g q t i n nm H1 H2 H3)); [|auto].
  intros w' p (A & B & D & E). refine (conj A (conj B (conj D (E I)))).
Qed.
