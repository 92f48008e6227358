(** The calls of Allocator run by threads (ConcModel.v): in sequence they are those of SystemModel.v, and memory is handed
    out as in sequence. *)
From Verif Require Import Base BaseFacts HeapModel StratModel GlobalModel GlobalSpec MapModel MapSpec JudyModel JudyFacts SystemModel SystemSpec MapMain SystemFacts SystemMain SystemThms ConcModel ConcSpec ConcFacts.

Lemma gupd_gupd C i f h : forall w : gworld C, gupd C i f (gupd C i h w) = gupd C i (fun x => f (h x)) w.
Proof.
  induction C as [|c C IH]; intros w; cbn [gupd]; [reflexivity|]. destruct (Nat.eqb i (Datatypes.S (length C))); cbn [fst snd]; [reflexivity|]. now rewrite IH.
Qed.

Lemma alone_done {S R : Type} (r r' : R) (s s' : S) : alone (Done r) s s' r' -> s' = s /\ r' = r.
Proof. intros H. inversion H; subst. auto. Qed.
Lemma alone_do {S R : Type} f (s s' : S) (r : R) : alone (Do f) s s' r -> exists s1 p, f s = Some (s1, p) /\ alone p s1 s' r.
Proof. intros H. inversion H; subst. eauto. Qed.

Section Bodies.
  Context (J : Judy (list arec)) (C : list nodecfg).

  Lemma alone_piece {A : Type} (o : sworld J C -> outcome (sworld J C) A) k s s' r : alone (piece J C o k) s s' r ->
    (exists s1 a, o s = Ok s1 a /\ alone (k a) s1 s' r) \/ (exists e, o s = Throw s' e /\ r = RExn e).
  Proof.
    intros H. apply alone_do in H as (s1 & p & E & H). destruct (o s) as [s2 a|s2 e| | |]; try discriminate; injection E as <- <-; [left; eauto|].
    apply alone_done in H as [-> ->]. right. eauto.
  Qed.
  Lemma alone_update i f k s s' r : alone (piece J C (update J C i f) k) s s' r -> alone (k tt) (gupd C i f (fst s), snd s) s' r.
  Proof. intros H. apply alone_piece in H as [(s1 & [] & E & H)|(e & E & _)]; [|discriminate]. injection E as <-. exact H. Qed.

  Lemma call_body_alone c s s' r : alone (call_body J C c) s s' r -> sys_call c s s' r.
  Proof.
    destruct c as [i n nm|i p]; cbn [call_body sys_call]; intros H.
    - unfold alloc_body in H. unfold sys_allocate. apply alone_piece in H as [(s1 & p & E1 & H)|(e & E1 & ->)].
      2:{ right. exists e. rewrite E1. auto. }
      rewrite E1. cbn [bind]. do 3 apply alone_update in H. cbn [fst snd] in H. rewrite !gupd_gupd in H.
      apply alone_piece in H as [(s2 & [] & E2 & H)|(e & E2 & ->)].
      + apply alone_done in H as [-> ->]. left. exists p. change (sys_track J C i p n nm s1 = Ok s2 tt) in E2. rewrite E2. auto.
      + right. exists e. change (sys_track J C i p n nm s1 = Throw s' e) in E2. rewrite E2. auto.
    - unfold free_body in H. unfold sys_deallocate. destruct (p =? 0); [apply alone_done in H as [-> ->]; auto|].
      unfold sys_untrack. apply alone_piece in H as [(s1 & rc & E1 & H)|(e & E1 & ->)].
      2:{ right. exists e. rewrite E1. auto. }
      rewrite E1. cbn [bind]. destruct (r_strat rc =? Z.of_nat i).
      + do 2 apply alone_update in H. cbn [fst snd] in H. rewrite gupd_gupd in H. cbn [bind fst snd].
        apply alone_piece in H as [(s2 & [] & E2 & H)|(e & E2 & ->)]; cbn [fst snd] in E2.
        * apply alone_done in H as [-> ->]. left. split; [exact E2|reflexivity].
        * right. exists e. split; [exact E2|reflexivity].
      + apply alone_piece in H as [(s2 & [] & E2 & H)|(e & E2 & ->)]; rewrite E2; cbn [bind].
        * apply alone_done in H as [-> ->]. right. exists RuntimeError. auto.
        * right. exists e. auto.
  Qed.

  Lemma racing_body_alone c s s' r : alone (racing_body J C c) s s' r -> sys_call c s s' r.
  Proof.
    destruct c as [i n nm|i p]; [|apply (call_body_alone (TFree i p))]. cbn [racing_body sys_call]. intros H. unfold racing_alloc_body in H. unfold sys_allocate.
    apply alone_do in H as (s1 & p & E & H). destruct (if n =? 0 then _ else _) as [w q|w e| | |] eqn:E1; try discriminate; injection E as <- <-; cbn [omap bind].
    - apply alone_do in H as (s2 & p2 & E & H). injection E as <- <-. apply alone_piece in H as [(s3 & [] & E2 & H)|(e & E2 & ->)]; rewrite E2; cbn [bind].
      + apply alone_done in H as [-> ->]. left. eauto.
      + right. eauto.
    - apply alone_do in H as (s2 & p2 & E & H). injection E as <- <-. apply alone_done in H as [-> ->]. right. eauto.
  Qed.
End Bodies.

Section Defined.
  Context (J : Judy (list arec)) (C : list nodecfg).
  Lemma defined_piece {A : Type} (o : sworld J C -> outcome (sworld J C) A) k s :
    match o s with Ok s1 a => defined (k a) s1 | Throw _ _ => True | _ => False end -> defined (piece J C o k) s.
  Proof.
    intros H. unfold piece. destruct (o s) as [s1 a|s1 e| | |] eqn:E; try contradiction; eapply df_do; rewrite ?E; eauto. constructor.
  Qed.
  Lemma defined_alloc i n nm s : match sys_allocate J C i n nm s with Ok _ _ => True | Throw _ _ => True | _ => False end -> defined (call_body J C (TAlloc i n nm)) s.
  Proof.
    intros H. cbn [call_body]. unfold alloc_body, sys_allocate in *. apply defined_piece.
    destruct (omap _ _ _) as [s1 p| | | |]; cbn [bind] in H; auto. do 3 (apply defined_piece; cbn [update fst snd]). apply defined_piece. rewrite !gupd_gupd.
    match goal with |- match ?x with _ => _ end => change x with (sys_track J C i p n nm s1) end. destruct (sys_track J C i p n nm s1) as [s2 []| | | |]; auto. constructor.
  Qed.
  Lemma defined_free i p s : match sys_deallocate J C i p s with Ok _ _ => True | Throw _ _ => True | _ => False end -> defined (call_body J C (TFree i p)) s.
  Proof.
    intros H. cbn [call_body]. unfold free_body, sys_deallocate, sys_untrack in *. destruct (p =? 0); [constructor|]. apply defined_piece.
    destruct (omap (pair (fst s)) _ _) as [s1 r| | | |]; cbn [bind] in H; auto. destruct (r_strat r =? Z.of_nat i); cbn [bind fst snd] in H.
    - do 2 (apply defined_piece; cbn [update fst snd]). apply defined_piece. cbn [fst snd]. rewrite gupd_gupd.
      match goal with |- match ?x with _ => _ end => match type of H with match ?y with _ => _ end => change x with y; destruct y as [s2 []| | | |] end end; auto. constructor.
    - apply defined_piece. destruct (sys_register J C p _ s1) as [s2 []| | | |]; cbn [bind] in H; auto. constructor.
  Qed.
End Defined.

Section Sequential.
  Context (C : list nodecfg).
  Notation world := (sworld JR (C ++ boot)).

  Lemma inturn_hist s0 g q t L s : shist JR any_keys C s0 g q t -> inturn sys_call s0 L s ->
    (forall k c r, In (k, c, r) L -> legal (C ++ boot) c) -> exists t', shist JR any_keys C s (live_after g L) q t'.
  Proof.
    intros Hh H. induction H as [|L s k c r s' H IH Hc]; intros HL; [eauto|].
    destruct IH as (t1 & H1); [intros k' c' r' Hi; apply (HL k' c' r'); now right|].
    specialize (HL k c r (or_introl eq_refl)). cbn [live_after]. destruct c as [i n nm|i p]; cbn [legal sys_call] in *; destruct HL as [Hu Hg].
    - assert (Hg' : n = 0 \/ user_guard (C ++ boot) i n (fst s)) by (destruct Hg; auto). destruct Hc as [(p & E & ->)|(e & E & ->)].
      + eexists. eapply sh_alloc; eauto. exact I.
      + eexists. eapply sh_alloc_throw; eauto.
    - destruct Hc as [(E & ->)|(e & E & ->)]; eexists; [eapply sh_free|eapply sh_free_throw]; eauto.
  Qed.

  Lemma in_forget p r g : In r g -> r_ptr r <> p -> In r (forget p g).
  Proof.
    intros Hi Hp. induction g as [|x g IH]; [contradiction|]. cbn [forget]. destruct (r_ptr x =? p) eqn:E; destruct Hi as [->|Hi]; auto; [lia|now left|right; auto].
  Qed.
  Lemma in_gone i p r g : In r g -> r_ptr r <> p \/ r_strat r <> Z.of_nat i -> In r (gone i p g).
  Proof.
    intros Hi Hp. induction g as [|x g IH]; [contradiction|]. cbn [gone].
    destruct ((r_ptr x =? p) && (r_strat x =? Z.of_nat i)) eqn:E; destruct Hi as [->|Hi]; auto; [lia|now left|right; auto].
  Qed.
  Lemma live_after_keep g r a b : In r (live_after g b) ->
    (forall k' j x, In (k', TFree j (r_ptr r), x) a -> x <> RUnit /\ Z.of_nat j <> r_strat r) -> In r (live_after g (a ++ b)).
  Proof.
    intros Hi. induction a as [|[[k c] x] a IH]; intros Hf; cbn [app]; [exact Hi|].
    assert (Ha : In r (live_after g (a ++ b))) by (apply IH; intros k' j x' Hx; apply (Hf k' j x'); now right).
    cbn [live_after]. destruct c as [i n nm|i p], x as [q| |e]; auto; [now right| |].
    - apply in_forget; [exact Ha|]. intros <-. destruct (Hf k i RUnit (or_introl eq_refl)) as [H _]. now elim H.
    - apply in_gone; [exact Ha|]. destruct (Z.eq_dec (r_ptr r) p) as [<-|Hp]; [|now left]. right.
      destruct (Hf k i (RExn e) (or_introl eq_refl)) as [_ H]. auto.
  Qed.
  Lemma held_live g L k r : held L k r -> In r (live_after g L).
  Proof.
    intros (a & b & i & -> & Es & Hf). apply live_after_keep; [|intros k' j x Hi; destruct (Hf k' j x Hi); split; [auto|lia]]. cbn [live_after]. left. rewrite <- Es. now destruct r.
  Qed.

  Lemma inturn_app {S Q R : Type} (big : Q -> S -> S -> R -> Prop) s0 a : forall b s, inturn big s0 (a ++ b) s -> exists s1, inturn big s0 b s1.
  Proof. induction a as [|x a IH]; intros b s H; cbn [app] in H; [eauto|]. inversion H; subst. eauto. Qed.

  Lemma held_later s0 g q t L s k k' r r' a b i : shist JR any_keys C s0 g q t -> inturn sys_call s0 L s ->
    (forall k c r, In (k, c, r) L -> legal (C ++ boot) c) ->
    L = a ++ (k', TAlloc i (r_size r') (r_name r'), RPtr (r_ptr r')) :: b -> r_strat r' = Z.of_nat i -> held b k r -> disj (rreg r) (rreg r').
  Proof.
    intros Hh H HL -> Es Hb. destruct (inturn_app _ _ _ _ _ H) as (s1 & H1).
    destruct (inturn_hist s0 g q t _ s1 Hh H1) as (t' & Hh'); [intros k1 c1 r1 Hi; apply (HL k1 c1 r1); apply in_or_app; now right|].
    destruct (sy_registered any_keys any_keys_monotone _ _ _ _ _ Hh') as (_ & _ & _ & Hp & _). cbn [live_after pairwise] in Hp. destruct Hp as [Hp _].
    specialize (Hp r (held_live g b k r Hb)). rewrite <- Es in Hp. apply disj_sym. now destruct r'.
  Qed.

  Lemma split_two {A : Type} (x y : A) a b a' b' : a ++ x :: b = a' ++ y :: b' ->
    (exists d, a = a' ++ y :: d /\ b' = d ++ x :: b) \/ (a = a' /\ x = y /\ b = b') \/ (exists d, a' = a ++ x :: d /\ b = d ++ y :: b').
  Proof.
    revert a'. induction a as [|z a IH]; intros [|z' a'] E; cbn [app] in E.
    - injection E as -> ->. right. left. auto.
    - injection E as -> ->. right. right. exists a'. auto.
    - injection E as -> <-. left. exists a. auto.
    - injection E as -> E. destruct (IH a' E) as [(d & -> & ->)|[(-> & -> & ->)|(d & -> & ->)]]; [left; exists d|right; left|right; right; exists d]; auto.
  Qed.

  Lemma held_disjoint s0 g q t L s k k' r r' : shist JR any_keys C s0 g q t -> inturn sys_call s0 L s ->
    (forall k c r, In (k, c, r) L -> legal (C ++ boot) c) -> held L k r -> held L k' r' -> k <> k' -> disj (rreg r) (rreg r').
  Proof.
    intros Hh H HL (a & b & i & E & Es & Hf) (a' & b' & i' & E' & Es' & Hf') Hk. pose proof (eq_trans (eq_sym E) E') as E2.
    destruct (split_two _ _ _ _ _ _ E2) as [(d & -> & ->)|[(_ & Ex & _)|(d & -> & ->)]].
    - apply (held_later s0 g q t L s k k' r r' a' (d ++ (k, TAlloc i (r_size r) (r_name r), RPtr (r_ptr r)) :: b) i' Hh H HL E' Es').
      exists d, b, i. split; [reflexivity|]. split; [exact Es|]. intros k1 j x1 Hi. apply (Hf k1 j x1). apply in_or_app. right. now right.
    - injection Ex as Ex _ _ _ _. congruence.
    - apply disj_sym. apply (held_later s0 g q t L s k' k r' r a (d ++ (k', TAlloc i' (r_size r') (r_name r'), RPtr (r_ptr r')) :: b') i Hh H HL E Es).
      exists d, b', i'. split; [reflexivity|]. split; [exact Es'|]. intros k1 j x1 Hi. apply (Hf' k1 j x1). apply in_or_app. right. now right.
  Qed.

  (** What linearizability means for memory. *)
  Lemma linear_disjoint s0 g q t H L s : shist JR any_keys C s0 g q t -> linear sys_call s0 H L s ->
    (forall k t c, In (Inv k t c) H -> legal (C ++ boot) c) ->
    forall k k' r r', held L k r -> held L k' r' -> k <> k' -> disj (rreg r) (rreg r').
  Proof.
    intros Hh [A1 A2 A3 A4 A5] HL k k' r r' Hk Hk' N. apply (held_disjoint s0 g q t L s k k' r r' Hh A1); auto.
    intros k1 c1 r1 Hi. destruct (A3 _ _ _ Hi) as (t1 & Ht). eapply HL; eauto.
  Qed.

  (** Nothing but an allocation or a deallocation that succeeded changes what is live. *)
  Lemma live_after_exn s0 g q t L s : shist JR any_keys C s0 g q t -> inturn sys_call s0 L s ->
    (forall k c r, In (k, c, r) L -> legal (C ++ boot) c) -> (forall i, ~ coalescing (kind_at (C ++ boot) i)) ->
    (forall k c r, In (k, c, r) L -> exists e, r = RExn e) -> live_after g L = g.
  Proof.
    intros Hh H HL Hno. induction H as [|L s k c r s' H IH Hc]; intros HE; [reflexivity|].
    assert (HL' : forall k c r, In (k, c, r) L -> legal (C ++ boot) c) by (intros k' c' r' Hi; apply (HL k' c' r'); now right).
    specialize (IH HL' (fun k' c' r' Hi => HE k' c' r' (or_intror Hi))). destruct (inturn_hist s0 g q t L s Hh H HL') as (t' & Hh').
    destruct (HE k c r (or_introl eq_refl)) as (e & ->). cbn [live_after]. rewrite IH in *. destruct c as [i n nm|i p]; [reflexivity|].
    apply gone_other. intros r Hr Ep Es. pose proof (sy_right any_keys any_keys_monotone _ _ _ _ _ r Hh' Hr) as Hp. cbn [sys_call] in Hc.
    destruct Hc as [(_ & E)|(e' & E & _)]; [discriminate|]. rewrite Ep, Es, Nat2Z.id in Hp. rewrite E in Hp. exact (Hno i (proj1 Hp)).
  Qed.
  (** The owner cannot have been refused in sequence if no other call succeeded. *)
  Lemma refused_absurd s0 g q t L s k r e : shist JR any_keys C s0 g q t -> inturn sys_call s0 L s ->
    (forall k c r, In (k, c, r) L -> legal (C ++ boot) c) -> (forall i, ~ coalescing (kind_at (C ++ boot) i)) ->
    (forall k c r, In (k, c, r) L -> exists e, r = RExn e) -> In r g -> In (k, TFree (Z.to_nat (r_strat r)) (r_ptr r), RExn e) L -> False.
  Proof.
    intros Hh H HL Hno HE Hr Hi. apply in_split in Hi as (a & b & ->). destruct (inturn_app _ _ _ _ _ H) as (s1 & H1). inversion H1 as [|L0 s2 k2 c2 r2 s3 H2 Hc]; subst.
    destruct (inturn_hist s0 g q t b s2 Hh H2) as (t' & Hh'); [intros k1 c1 r1 Hi; apply (HL k1 c1 r1); apply in_or_app; right; now right|].
    rewrite (live_after_exn s0 g q t b s2 Hh H2) in Hh'; [|intros k1 c1 r1 Hi; apply (HL k1 c1 r1); apply in_or_app; right; now right|exact Hno|intros k1 c1 r1 Hi; apply (HE k1 c1 r1); apply in_or_app; right; now right].
    pose proof (sy_right any_keys any_keys_monotone _ _ _ _ _ r Hh' Hr) as Hp. cbn [sys_call] in Hc. destruct Hc as [(_ & E)|(e' & E & _)]; [discriminate|]. rewrite E in Hp. exact (Hno _ (proj1 Hp)).
  Qed.

  (** In a state the program can reach every legal call is defined, unless it ends the process. *)
  Lemma call_defined s g q t c : shist JR any_keys C s g q t -> legal (C ++ boot) c -> defined (call_body JR (C ++ boot) c) s \/ stops c s.
  Proof.
    intros Hh Hl. destruct c as [i n nm|i p]; cbn [legal stops] in *; destruct Hl as [Hu Hg].
    - pose proof (defined_alloc JR (C ++ boot) i n nm s) as HD. assert (Hg' : n = 0 \/ user_guard (C ++ boot) i n (fst s)) by (destruct Hg; auto).
      pose proof (sy_alloc_any C s g q t i n nm Hh Hu Hg') as H. destruct (sys_allocate JR (C ++ boot) i n nm s); cbn [post] in H; auto; contradiction.
    - destruct (Z.eq_dec p 0) as [->|Hp]; [left; cbn [call_body]; unfold free_body; rewrite Z.eqb_refl; constructor|].
      pose proof (defined_free JR (C ++ boot) i p s) as HD.
      destruct (existsb (fun r => (r_ptr r =? p) && (r_strat r =? Z.of_nat i)) g) eqn:Ex.
      + apply existsb_exists in Ex as (r & Hr & Hb). apply andb_true_iff in Hb as [H1 H2]. apply Z.eqb_eq in H1, H2.
        pose proof (sy_right any_keys any_keys_monotone _ _ _ _ _ r Hh Hr) as H. rewrite H1, H2, Nat2Z.id in H. destruct (sys_deallocate JR (C ++ boot) i p s); cbn [post] in H; auto; contradiction.
      + destruct (sy_wrong any_keys any_keys_monotone C s g q t i p Hh Hu Hg Hp) as (a' & E & _); [|left; apply HD; now rewrite E].
        intros r Hr E1 E2. assert (Ht : existsb (fun r => (r_ptr r =? p) && (r_strat r =? Z.of_nat i)) g = true); [|congruence].
        apply existsb_exists. exists r. split; [exact Hr|]. rewrite E1, E2, !Z.eqb_refl. reflexivity.
  Qed.

  (** Threads calling one thread-safe allocator. *)
  Lemma lock_one body i s0 acts cfg : (forall c s s' r, alone (body c) s s' r -> sys_call c s s' r) ->
    (forall t c, In (AInvoke t c) acts -> target c = i) -> crun body lock_of acts (c_init s0) = Some cfg ->
    exists L s, linear (sys_call (J := JR) (C := C ++ boot)) s0 (c_hist cfg) L s /\ (c_owner cfg (Z.of_nat i) = None -> s = c_state cfg).
  Proof.
    intros Hb Hi E. destruct (crun_same body lock_of (Z.of_nat i) acts (c_init s0)) as [Es _]; [intros t c H; unfold lock_of; now rewrite (Hi t c H)|apply init_same|].
    rewrite Es in E. exact (conc_linear body (fun _ => Z.of_nat i) (Z.of_nat i) (fun _ => eq_refl) sys_call Hb s0 acts cfg E).
  Qed.
  Lemma lock_progress i s0 g q t acts cfg u : shist JR any_keys C s0 g q t ->
    (forall t c, In (AInvoke t c) acts -> target c = i /\ legal (C ++ boot) c) ->
    crun (call_body JR (C ++ boot)) lock_of acts (c_init s0) = Some cfg -> c_place cfg u <> Idle ->
    (exists a cfg', cexec (call_body JR (C ++ boot)) lock_of a cfg = Some cfg' /\ forall t c, a <> AInvoke t c) \/
    exists v k c p L s, c_place cfg v = Inside k c p /\ linear (sys_call (J := JR) (C := C ++ boot)) s0 (c_hist cfg) L s /\ stops c s.
  Proof.
    intros Hh Hi E Hu. pose proof E as E0. set (body := call_body JR (C ++ boot)) in *.
    destruct (crun_same body lock_of (Z.of_nat i) acts (c_init s0)) as [Es Hs]; [intros t1 c H; unfold lock_of; now rewrite (proj1 (Hi t1 c H))|apply init_same|].
    rewrite Es in E.
    assert (Hinv : forall k t c, In (Inv k t c) (c_hist cfg) -> legal (C ++ boot) c).
    { intros k1 t1 c1 H1. destruct (crun_invoked _ _ acts _ _ E0 k1 t1 c1 H1) as [[]|H2]. exact (proj2 (Hi t1 c1 H2)). }
    assert (Hstep : forall v k c p, c_place cfg v = Inside k c p -> defined p (c_state cfg) \/
      exists L s, linear (sys_call (J := JR) (C := C ++ boot)) s0 (c_hist cfg) L s /\ stops c s).
    { intros v k c p Hv. destruct (conc_inside body (fun _ => Z.of_nat i) (Z.of_nat i) (fun _ => eq_refl) sys_call (call_body_alone JR (C ++ boot)) s0 acts cfg v k c p E Hv) as (L & s & HL & Hk & Hr).
      destruct (inturn_hist s0 g q t L s Hh (ln_turn _ _ _ _ _ HL)) as (t' & Hh').
      { intros k1 c1 r1 H1. destruct (ln_called _ _ _ _ _ HL _ _ _ H1) as (t1 & H2). exact (Hinv _ _ _ H2). }
      destruct (call_defined s _ q t' c Hh' (Hinv _ _ _ Hk)) as [Hd|Hd]; [left|right; eauto]. exact (runs_defined _ _ _ _ Hr Hd). }
    assert (Hin : forall v k c p, c_place cfg v = Inside k c p ->
      (exists a cfg', cexec body (fun _ => Z.of_nat i) a cfg = Some cfg' /\ forall t c, a <> AInvoke t c) \/
      exists v k c p L s, c_place cfg v = Inside k c p /\ linear (sys_call (J := JR) (C := C ++ boot)) s0 (c_hist cfg) L s /\ stops c s).
    { intros v k c p Hv. destruct (Hstep v k c p Hv) as [Hd|(L & s & HL & HS)]; [left|right; eauto 12]. inversion Hd as [r s|f s s1 p1 Ef _]; subst.
      - exists (AUnlock v). cbn [cexec]. rewrite Hv. eexists. split; [reflexivity|discriminate].
      - exists (AStep v). cbn [cexec]. rewrite Hv, Ef. eexists. split; [reflexivity|discriminate]. }
    assert (Hgo : (exists a cfg', cexec body (fun _ => Z.of_nat i) a cfg = Some cfg' /\ forall t c, a <> AInvoke t c) \/
      exists v k c p L s, c_place cfg v = Inside k c p /\ linear (sys_call (J := JR) (C := C ++ boot)) s0 (c_hist cfg) L s /\ stops c s).
    { destruct (conc_progress body (fun _ => Z.of_nat i) (Z.of_nat i) (fun _ => eq_refl) sys_call (call_body_alone JR (C ++ boot)) s0 acts cfg u E Hu) as [H|(v & k & c & p & Hv)]; [left; exact H|eauto]. }
    destruct Hgo as [(a & cfg' & Ea & Hn)|Hx]; [left|right; exact Hx]. exists a, cfg'. split; [|exact Hn].
    destruct (cexec_same body lock_of (Z.of_nat i) a cfg) as [Ee _].
    - intros t1 c1 ->. elim (Hn t1 c1 eq_refl).
    - exact (Hs cfg E0).
    - rewrite Ee. exact Ea.
  Qed.
End Sequential.
