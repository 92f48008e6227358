(** Proofs about asynchronous operations. *)
From Coq Require Import String.
From Verif Require Import Base BaseFacts RegistryModel MapModel OpTableModel OpTableSpec OpsModel AsyncModel AsyncSpec.

Lemma in_range_spec p n x : in_range p n x = true <-> p <= x < p + n.
Proof. unfold in_range. rewrite andb_true_iff. lia. Qed.

Definition within (a : Z * Z) (x : Z) : bool := in_range (fst a) (snd a) x.

Lemma within_spec a x : within a x = true <-> fst a <= x < fst a + snd a.
Proof. apply in_range_spec. Qed.

Lemma not_meet a b : ~ meet a b -> forall x, within a x = true -> within b x = true -> False.
Proof. intros H x Ha Hb. apply H. exists x. rewrite within_spec in Ha, Hb. auto. Qed.

(** The byte an effect takes its value from, or the value. *)
Definition value (e : effect) (m : mem) (x : Z) : Z :=
  match e with Copy d s _ => m (s + (x - d)) | Fill _ v _ => v mod 256 end.

Lemma run_eq e m x : run_effect e m x = if within (writes e) x then value e m x else m x.
Proof. destruct e; reflexivity. Qed.

Lemma value_ext e m m' x : within (writes e) x = true -> (forall y, within (reads e) y = true -> m y = m' y) ->
  value e m x = value e m' x.
Proof.
  intros Hx H. destruct e as [d s n|p v n]; [|reflexivity]. cbn [value]. apply H.
  rewrite within_spec in *. cbn [writes reads fst snd] in *. lia.
Qed.

Lemma run_ext e m m' : (forall x, m x = m' x) -> forall x, run_effect e m x = run_effect e m' x.
Proof.
  intros H x. rewrite !run_eq. destruct (within (writes e) x) eqn:E; [|apply H]. apply value_ext; auto.
Qed.

Lemma run_commute a b m : ~ conflict a b -> forall x, run_effect a (run_effect b m) x = run_effect b (run_effect a m) x.
Proof.
  intros H x. unfold conflict in H.
  assert (H1 : ~ meet (writes a) (writes b)) by tauto.
  assert (H2 : ~ meet (writes a) (reads b)) by tauto.
  assert (H3 : ~ meet (reads a) (writes b)) by tauto.
  rewrite (run_eq a (run_effect b m)), (run_eq b (run_effect a m)).
  destruct (within (writes a) x) eqn:Ea, (within (writes b) x) eqn:Eb.
  - destruct (not_meet _ _ H1 x Ea Eb).
  - rewrite (run_eq a m), Ea. apply value_ext; [exact Ea|]. intros y Hy. rewrite run_eq.
    destruct (within (writes b) y) eqn:E; [|reflexivity]. destruct (not_meet _ _ H3 y Hy E).
  - rewrite (run_eq b m), Eb. symmetry. apply value_ext; [exact Eb|]. intros y Hy. rewrite run_eq.
    destruct (within (writes a) y) eqn:E; [|reflexivity]. destruct (not_meet _ _ H2 y E Hy).
  - rewrite !run_eq, Ea, Eb. reflexivity.
Qed.

Lemma conflict_sym a b : conflict a b -> conflict b a.
Proof.
  unfold conflict, meet. intros [[x H]|[[x H]|[x H]]]; [left|right; right|right; left]; exists x; tauto.
Qed.

(** ** Queues *)

Definition replay (l : list (Z * effect)) (m : mem) : mem := fold_left (fun m x => run_effect (snd x) m) l m.

Lemma replay_ext l : forall m m', (forall x, m x = m' x) -> forall x, replay l m x = replay l m' x.
Proof.
  induction l as [|[s e] l IH]; intros m m' H x; [apply H|]. apply IH. cbn [snd]. apply run_ext, H.
Qed.

Lemma replay_app l1 l2 m : replay (l1 ++ l2) m = replay l2 (replay l1 m).
Proof. apply fold_left_app. Qed.

Lemma replay_commute e l : forall m, (forall t e', In (t, e') l -> ~ conflict e e') ->
  forall x, replay l (run_effect e m) x = run_effect e (replay l m) x.
Proof.
  induction l as [|[s e'] l IH]; intros m H x; [reflexivity|]. cbn [replay fold_left snd]. fold (replay l).
  rewrite <- IH by (intros t f Hf; apply (H t f); now right).
  apply replay_ext. apply run_commute. intros Hc. apply (H s e'); [now left|]. now apply conflict_sym.
Qed.

Inductive spread : list (Z * effect) -> Prop :=
| sp_nil : spread []
| sp_cons s e l : (forall t e', In (t, e') l -> t <> s -> ~ conflict e e') -> spread l -> spread ((s, e) :: l).

Lemma spread_sub l l' : spread l -> (exists f, l' = filter f l) -> spread l'.
Proof.
  intros H [f ->]. induction H as [|s e l H1 H2 IH]; [constructor|]. cbn [filter].
  destruct (f (s, e)); [|exact IH]. constructor; [|exact IH]. intros t e' Hi. apply filter_In in Hi. now apply H1.
Qed.

Lemma spread_snoc l s e : spread l -> (forall t e', In (t, e') l -> t <> s -> ~ conflict e e') -> spread (l ++ [(s, e)]).
Proof.
  intros H. induction H as [|s' e' l H1 H2 IH]; intros Hs; cbn [app].
  - constructor; [intros t f []|constructor].
  - constructor.
    + intros t f Hi Ht. apply in_app_iff in Hi as [Hi|[[= <- <-]|[]]]; [now apply (H1 t f)|].
      intros Hc. apply (Hs s' e'); [now left|congruence|]. now apply conflict_sym.
    + apply IH. intros t f Hi. apply Hs. now right.
Qed.

Lemma take_first_in s l : forall e l', take_first s l = Some (e, l') ->
  In (s, e) l /\ forall y, In y l' -> In y l.
Proof.
  induction l as [|[t f] l IH]; cbn [take_first]; intros e l' H; [discriminate|].
  destruct (t =? s) eqn:E.
  - injection H as <- <-. apply Z.eqb_eq in E. subst. split; [now left|]. intros y Hy. now right.
  - destruct (take_first s l) as [[e1 l1]|]; [|discriminate]. injection H as <- <-.
    destruct (IH e1 l1 eq_refl) as [H1 H2]. split; [now right|]. intros y [Hy|Hy]; [now left|right; auto].
Qed.

Lemma take_first_spread s l : spread l -> forall e l', take_first s l = Some (e, l') -> spread l'.
Proof.
  intros H. induction H as [|t f l H1 H2 IH]; cbn [take_first]; intros e l' E; [discriminate|].
  destruct (t =? s); [injection E as _ <-; exact H2|].
  destruct (take_first s l) as [[e1 l1]|] eqn:E1; [|discriminate]. injection E as _ <-.
  constructor; [|eapply IH; reflexivity]. intros u g Hg. apply H1. eapply take_first_in; eauto.
Qed.

Lemma replay_take s l : spread l -> forall e l' m, take_first s l = Some (e, l') ->
  forall x, replay l' (run_effect e m) x = replay l m x.
Proof.
  intros H. induction H as [|t f l H1 H2 IH]; cbn [take_first]; intros e l' m E x; [discriminate|].
  destruct (t =? s) eqn:Et; [injection E as <- <-; reflexivity|].
  destruct (take_first s l) as [[e1 l1]|] eqn:E1; [|discriminate]. injection E as <- <-.
  cbn [replay fold_left snd]. fold (replay l1) (replay l). rewrite <- (IH e1 l1 _ eq_refl).
  apply replay_ext. apply run_commute. apply take_first_in in E1 as [E1 _]. apply Z.eqb_neq in Et.
  apply (H1 s e1 E1). congruence.
Qed.

Lemma replay_wait s l : spread l -> forall m x,
  replay (filter (fun y => negb (fst y =? s)) l) (fold_left (fun m y => if fst y =? s then run_effect (snd y) m else m) l m) x
  = replay l m x.
Proof.
  intros H. induction H as [|t f l H1 H2 IH]; intros m x; [reflexivity|].
  cbn [filter fold_left fst snd]. destruct (t =? s) eqn:Et; cbn [negb].
  - rewrite IH. reflexivity.
  - cbn [replay fold_left snd]. fold (replay (filter (fun y => negb (fst y =? s)) l)) (replay l).
    rewrite <- IH. apply replay_ext. clear x. intros x.
    assert (Hs : forall l0, (forall y, In y l0 -> In y l) -> forall m x,
      run_effect f (fold_left (fun m y => if fst y =? s then run_effect (snd y) m else m) l0 m) x =
      fold_left (fun m y => if fst y =? s then run_effect (snd y) m else m) l0 (run_effect f m) x).
    { assert (Hext : forall l0 m m', (forall x, m x = m' x) -> forall x,
        fold_left (fun m y => if fst y =? s then run_effect (snd y) m else m) l0 m x =
        fold_left (fun m y => if fst y =? s then run_effect (snd y) m else m) l0 m' x).
      { induction l0 as [|[a b] l0 I0]; intros m1 m2 Hm y; [apply Hm|]. cbn [fold_left fst snd]. apply I0.
        destruct (a =? s); [now apply run_ext|exact Hm]. }
      induction l0 as [|[a b] l0 I0]; intros Hl m0 y; [reflexivity|]. cbn [fold_left fst snd].
      destruct (a =? s) eqn:Ea.
      - rewrite I0 by (intros z Hz; apply Hl; now right). apply Hext. apply run_commute.
        apply Z.eqb_eq in Ea. subst a. apply Z.eqb_neq in Et. apply (H1 s b); [apply Hl; now left|congruence].
      - apply I0. intros z Hz. apply Hl. now right. }
    apply Hs. auto.
Qed.

(** ** Memory outside of allocations *)

Definition grounded (l : list arec) (e : effect) : Prop :=
  forall x, within (writes e) x = true \/ within (reads e) x = true -> covered_by l x = true.

Lemma covered_spec l x : covered_by l x = true <-> exists r, In r l /\ within (range r) x = true.
Proof.
  unfold covered_by. rewrite existsb_exists. reflexivity.
Qed.

(** A change of memory that neither looks at nor writes bytes of the effect. *)
Lemma foreign_commute e (g : mem -> mem) m :
  (forall m x, within (writes e) x = true \/ within (reads e) x = true -> g m x = m x) ->
  (forall m m' x, (forall y, within (writes e) y = false -> m y = m' y) -> within (writes e) x = false -> g m x = g m' x) ->
  forall x, run_effect e (g m) x = g (run_effect e m) x.
Proof.
  intros H1 H2 x. rewrite run_eq. destruct (within (writes e) x) eqn:E.
  - rewrite H1 by auto. rewrite run_eq, E. apply value_ext; [exact E|]. intros y Hy. apply H1. auto.
  - apply H2; [|exact E]. intros y Hy. rewrite run_eq, Hy. reflexivity.
Qed.

Lemma replay_foreign l (g : mem -> mem) :
  (forall m m' x, (forall y, m y = m' y) -> g m x = g m' x) ->
  (forall t e, In (t, e) l -> forall m x, run_effect e (g m) x = g (run_effect e m) x) ->
  forall m x, replay l (g m) x = g (replay l m) x.
Proof.
  intros Hg. induction l as [|[t e] l IH]; intros H m x; [reflexivity|].
  cbn [replay fold_left snd]. fold (replay l).
  rewrite (replay_ext l _ (g (run_effect e m))) by (intros y; apply (H t e); now left).
  apply IH. intros t' e' Hi. apply (H t' e'). now right.
Qed.

Section Facts.
  Context (c : opconfig) (plat : Z -> platform) (unified : Z -> bool) (device_of : Z -> Z) (host : Z)
    (place : nat -> Z -> Z -> option Z) (noise : nat -> Z -> Z -> Z) (fails : nat -> bool) (current : Z)
    (props : Z -> option bool) (shared : Z -> bool).

  Notation settled := (settled noise).
  Notation a_allocate := (a_allocate place noise).
  Notation a_deallocate := (a_deallocate noise).
  Notation a_copy := (a_copy c plat fails).
  Notation a_memset := (a_memset c plat fails).
  Notation a_realloc_generic := (a_realloc_generic c plat place noise fails).
  Notation a_realloc_host := (a_realloc_host c plat place noise fails).
  Notation a_reallocate := (a_reallocate c plat host place noise fails).
  Notation a_prefetch := (a_prefetch c plat unified device_of fails current props shared).
  Notation a_do := (a_do c plat unified device_of host place noise fails current props shared).
  Notation a_run := (a_run c plat unified device_of host place noise fails current props shared).
  Notation careful := (careful plat host place).

  Lemma settled_ext k l l' m m' x : m x = m' x -> settled k l l' m x = settled k l l' m' x.
  Proof. intros H. unfold AsyncModel.settled. now rewrite H. Qed.

  Lemma replay_settled k l l' p m x : (forall t e, In (t, e) p -> grounded l e /\ grounded l' e) ->
    replay p (settled k l l' m) x = settled k l l' (replay p m) x.
  Proof.
    intros H. apply replay_foreign with (g := settled k l l'); [intros; now apply settled_ext|].
    intros t e Hi m0. destruct (H t e Hi) as [H1 H2]. apply foreign_commute.
    - intros m1 y Hy. unfold AsyncModel.settled. now rewrite (H1 y Hy), (H2 y Hy).
    - intros m1 m2 y Hm Hy. apply settled_ext. auto.
  Qed.

  (** ** The two runs *)

  Record R (w v : aworld) : Prop := mkR {
    R_live : a_live v = a_live w;
    R_hints : a_hints v = a_hints w;
    R_calls : a_calls v = a_calls w;
    R_pend : a_pend v = [];
    R_mem : forall x, a_mem v x = replay (a_pend w) (a_mem w) x;
    R_spread : spread (a_pend w);
    R_grounded : forall t e, In (t, e) (a_pend w) -> grounded (a_live w) e;
    R_ordinary : ordinary (a_live w)
  }.

  Lemma wait_id s v : a_pend v = [] -> a_wait s v = v.
  Proof. destruct v as [l m p h k]. cbn [a_pend]. intros ->. reflexivity. Qed.

  Lemma R_wait s w v : R w v -> R (a_wait s w) v.
  Proof.
    intros [H1 H2 H3 H4 H5 H6 H7 H8]. split; try assumption; cbn [a_wait a_live a_hints a_calls a_pend a_mem].
    - intros x. rewrite replay_wait by exact H6. apply H5.
    - eapply spread_sub; eauto.
    - intros t e Hi. apply filter_In in Hi as [Hi _]. now apply (H7 t).
  Qed.

  Lemma R_step s w v : R w v -> R (a_step s w) v.
  Proof.
    intros H. unfold a_step. destruct (take_first s (a_pend w)) as [[e l]|] eqn:E; [|exact H].
    destruct H as [H1 H2 H3 H4 H5 H6 H7 H8]. split; try assumption; cbn [a_live a_hints a_calls a_pend a_mem].
    - intros x. rewrite (replay_take s (a_pend w)) by assumption. apply H5.
    - eapply take_first_spread; eauto.
    - intros t e' Hi. apply (H7 t e'). eapply take_first_in; eauto.
  Qed.

  (** ** What copy, memset and prefetch decide *)

  Inductive verdict : Type :=
  | VThrow (ws : option Z) (cl : bool) (x : exn)
  | VUB
  | VNow (ws : option Z) (cl : bool) (e : effect)
  | VNone (ws : option Z) (cl : bool)
  | VQueue (s : Z) (e : effect)
  | VHint (ws : option Z) (cl : bool) (h : Z * Z * Z).

  Definition wt (ws : option Z) (w : aworld) : aworld := match ws with Some s => a_wait s w | None => w end.
  Definition cal (cl : bool) (w : aworld) : aworld := if cl then called w else w.

  Definition enact (v : verdict) (w : aworld) : outcome aworld Z :=
    match v with
    | VThrow ws cl x => Throw (cal cl (wt ws w)) x
    | VUB => UB
    | VNow ws cl e => Ok (cal cl (with_mem (run_effect e (a_mem (wt ws w))) (wt ws w))) 0
    | VNone ws cl => Ok (cal cl (wt ws w)) 0
    | VQueue s e => Ok (called (queue s e w)) 0
    | VHint ws cl h => Ok (cal cl (let w1 := wt ws w in
                                   mkA (a_live w1) (a_mem w1) (a_pend w1) (h :: a_hints w1) (a_calls w1))) 0
    end.

  Lemma R_wt ws w v : R w v -> R (wt ws w) (wt ws v).
  Proof.
    intros H. destruct ws as [s|]; cbn [wt]; [|exact H]. rewrite (wait_id s v) by apply H. now apply R_wait.
  Qed.

  Lemma R_cal cl w v : R w v -> R (cal cl w) (cal cl v).
  Proof.
    intros H. destruct cl; cbn [cal]; [|exact H]. destruct H. split; cbn [called a_live a_mem a_pend a_hints a_calls]; auto.
  Qed.

  Lemma R_hint h w v : R w v ->
    R (mkA (a_live w) (a_mem w) (a_pend w) (h :: a_hints w) (a_calls w))
      (mkA (a_live v) (a_mem v) (a_pend v) (h :: a_hints v) (a_calls v)).
  Proof. intros []. split; cbn [a_live a_mem a_pend a_hints a_calls]; congruence || auto. Qed.

  Lemma R_now e w v : R w v -> (forall t e', In (t, e') (a_pend w) -> ~ conflict e e') ->
    R (with_mem (run_effect e (a_mem w)) w) (with_mem (run_effect e (a_mem v)) v).
  Proof.
    intros [H1 H2 H3 H4 H5 H6 H7 H8] Hc. split; cbn [with_mem a_live a_mem a_pend a_hints a_calls]; auto.
    intros x. rewrite replay_commute by exact Hc. apply run_ext. exact H5.
  Qed.

  Lemma R_queue s e w v : R w v -> (forall t e', In (t, e') (a_pend w) -> t <> s -> ~ conflict e e') ->
    grounded (a_live w) e -> R (called (queue s e w)) (a_wait s (called (queue s e v))).
  Proof.
    intros [H1 H2 H3 H4 H5 H6 H7 H8] Hc Hg.
    split; cbn [a_wait called queue a_live a_mem a_pend a_hints a_calls]; auto.
    - rewrite H4. cbn [app filter fst]. rewrite Z.eqb_refl. reflexivity.
    - intros x. rewrite H4. cbn [app fold_left fst snd]. rewrite Z.eqb_refl, replay_app. cbn [replay fold_left snd].
      apply run_ext. exact H5.
    - now apply spread_snoc.
    - intros t f Hi. apply in_app_iff in Hi as [Hi|[[= <- <-]|[]]]; [now apply (H7 t)|exact Hg].
  Qed.

  (** The effect of a verdict, and what has to hold of it. *)
  Definition effect_of (v : verdict) : option effect :=
    match v with VNow _ _ e | VQueue _ e => Some e | _ => None end.
  Definition queued (v : verdict) : bool := match v with VQueue _ _ => true | _ => false end.
  Definition waits_of (v : verdict) : option Z :=
    match v with VThrow ws _ _ | VNow ws _ _ | VNone ws _ | VHint ws _ _ => ws | VQueue s _ => Some s | VUB => None end.

  Lemma pend_wt ws w t e : In (t, e) (a_pend (wt ws w)) -> In (t, e) (a_pend w) /\ ws <> Some t.
  Proof.
    destruct ws as [s|]; cbn [wt]; [|intros H; split; [exact H|discriminate]].
    cbn [a_wait a_pend]. rewrite filter_In. cbn [fst]. intros [H1 H2]. split; [exact H1|].
    intros [= ->]. rewrite Z.eqb_refl in H2. discriminate.
  Qed.

  Definition matches (w v : aworld) (o : outcome aworld Z) (o' : outcome aworld Z) (s : option Z) : Prop :=
    match o with
    | Ok w1 r => exists v1, o' = Ok v1 r /\ R w1 (wt s v1)
    | Throw w1 x => exists v1, o' = Throw v1 x /\ R w1 (wt s v1)
    | _ => True
    end.

  Lemma R_wt_r s w v : R w v -> R w (wt s v).
  Proof. intros H. destruct s; cbn [wt]; [|exact H]. rewrite wait_id; [exact H|apply H]. Qed.

  (** [s] is the stream the reference run waits for afterwards. *)
  Lemma enact_ok d w v s : R w v ->
    (forall e, effect_of d = Some e ->
       grounded (a_live w) e /\ forall t e', In (t, e') (a_pend w) -> waits_of d <> Some t -> ~ conflict e e') ->
    (queued d = true -> waits_of d = s) ->
    matches w v (enact d w) (enact d v) s.
  Proof.
    intros HR He Hs. destruct d as [ws cl x| |ws cl e|ws cl|q e|ws cl h]; cbn [enact matches]; auto.
    - eexists. split; [reflexivity|]. apply R_wt_r, R_cal, R_wt, HR.
    - eexists. split; [reflexivity|]. apply R_wt_r, R_cal, R_now; [now apply R_wt|].
      intros t e' Hi. apply pend_wt in Hi as [Hi Ht]. destruct (He e eq_refl) as [_ H]. now apply (H t).
    - eexists. split; [reflexivity|]. apply R_wt_r, R_cal, R_wt, HR.
    - eexists. split; [reflexivity|]. specialize (Hs eq_refl). cbn [waits_of] in Hs. subst s. cbn [wt].
      destruct (He e eq_refl) as [H1 H2]. apply R_queue; [exact HR| |exact H1].
      intros t e' Hi Ht. apply (H2 t e' Hi). cbn [waits_of]. congruence.
    - eexists. split; [reflexivity|]. apply R_wt_r, R_cal, R_hint, R_wt, HR.
  Qed.

  Definition lookup (p : Z) (l : list arec) : option arec :=
    match find (fun r => r_ptr r =? p) l with
    | Some r => Some r
    | None => find (fun r => in_range (r_ptr r) (r_size r) p) l
    end.

  Lemma a_find_lookup p w : a_find p w = match lookup p (a_live w) with Some r => Ok w r | None => Throw w UnknownPointer end.
  Proof.
    unfold a_find, lookup. destruct (find (fun r => r_ptr r =? p) (a_live w)); [reflexivity|].
    destruct (find _ (a_live w)); reflexivity.
  Qed.

  Lemma lookup_holds p l r : lookup p l = Some r -> holds l p r.
  Proof.
    unfold lookup, holds. destruct (find (fun r => r_ptr r =? p) l) eqn:E.
    - intros [= ->]. apply find_some in E as [E1 E2]. split; [exact E1|left; lia].
    - intros H. apply find_some in H as [H1 H2]. rewrite in_range_spec in H2. split; [exact H1|].
      destruct (Z.eq_dec p (r_ptr r)); [now left|right; lia].
  Qed.

  Lemma holds_rest l p r : ordinary l -> holds l p r ->
    w64 (r_size r - (p - r_ptr r)) = r_ptr r + r_size r - p /\ 0 <= r_ptr r + r_size r - p.
  Proof.
    intros [H _] [H1 H2]. apply H in H1. split; [|lia].
    replace (r_size r - (p - r_ptr r)) with (r_ptr r + r_size r - p) by lia. apply w64_small. unfold ASP, M64 in *. lia.
  Qed.

  Definition copy_now (ws : option Z) (op : operation) (dst src n : Z) (k : nat) : verdict :=
    match op with
    | HostCopyOperation | SyclCopyToOperation | SyclCopyFromOperation | SyclCopyOperation =>
        if overlapping dst src n then VUB else VNow ws false (Copy dst src n)
    | CudaCopyOperation _ | HipCopyOperation _ =>
        if fails k then VThrow ws true RuntimeError
        else if overlapping dst src n then VUB else VNow ws true (Copy dst src n)
    | OpenMPTargetCopyOperation =>
        if fails k then VNone ws true
        else if overlapping dst src n then VUB else VNow ws true (Copy dst src n)
    | _ => VThrow ws false RuntimeError
    end.

  Definition on_stream (x : context) (p : platform) (k : nat) (bad : bool) (e : effect) : verdict :=
    if platform_eqb (cx_platform x) p then
      if fails k then VThrow None true RuntimeError else if bad then VUB else VQueue (cx_stream x) e
    else VThrow None false ResourceError.

  Definition copy_by (op : operation) (cx : option context) (dst src n : Z) (k : nat) : verdict :=
    match cx with
    | None => copy_now None op dst src n k
    | Some x =>
        match op with
        | CudaCopyOperation _ => on_stream x PCuda k (overlapping dst src n) (Copy dst src n)
        | HipCopyOperation _ => on_stream x PHip k (overlapping dst src n) (Copy dst src n)
        | _ => copy_now (Some (cx_stream x)) op dst src n k
        end
    end.

  Definition copy_verdict (dst src size : Z) (cx : option context) (l : list arec) (k : nat) : verdict :=
    match lookup src l with
    | None => VThrow None false UnknownPointer
    | Some rs =>
        match lookup dst l with
        | None => VThrow None false UnknownPointer
        | Some rd =>
            let n := if size =? 0 then w64 (r_size rs - (src - r_ptr rs)) else size in
            if w64 (r_size rd - (dst - r_ptr rd)) <? n then VThrow None false RuntimeError
            else match find_operation "COPY" (plat (r_strat rs), plat (r_strat rd)) (operators c []) with
                 | Ok _ op => copy_by op cx dst src n k
                 | _ => VThrow None false RuntimeError
                 end
        end
    end.

  Lemma copy_now_ok ws op dst src rd rs n w :
    op_copy fails op dst src rd rs n (wt ws w) = enact (copy_now ws op dst src n (a_calls w)) w.
  Proof.
    assert (Hk : a_calls (wt ws w) = a_calls w) by (destruct ws; reflexivity).
    unfold op_copy, copy_now. rewrite Hk.
    replace (r_ptr rd + (dst - r_ptr rd)) with dst by lia. replace (r_ptr rs + (src - r_ptr rs)) with src by lia.
    destruct op; cbn [enact]; try reflexivity; destruct (fails (a_calls w)); try reflexivity;
      destruct (overlapping dst src n); reflexivity.
  Qed.

  Lemma a_copy_enact d s n cx w : a_copy d s n cx w = enact (copy_verdict d s n cx (a_live w) (a_calls w)) w.
  Proof.
    unfold AsyncModel.a_copy, copy_verdict. rewrite a_find_lookup. destruct (lookup s (a_live w)) as [rs|]; [|reflexivity].
    cbn [bind]. rewrite a_find_lookup. destruct (lookup d (a_live w)) as [rd|]; [|reflexivity]. cbn [bind].
    destruct (_ <? _); [reflexivity|]. unfold with_op. destruct (find_operation _ _ _); try reflexivity.
    destruct cx as [x|]; cbn [copy_by].
    - set (n' := if n =? 0 then _ else _). unfold op_copy_async, on_stream.
      destruct a; try apply (copy_now_ok (Some (cx_stream x))).
      + destruct (platform_eqb _ _); [|reflexivity]. destruct (fails _); [reflexivity|].
        destruct (overlapping _ _ _); reflexivity.
      + destruct (platform_eqb _ _); [|reflexivity]. destruct (fails _); [reflexivity|].
        destruct (overlapping _ _ _); reflexivity.
    - apply (copy_now_ok None).
  Qed.

  Lemma copy_by_effect op cx dst src n k e : effect_of (copy_by op cx dst src n k) = Some e ->
    e = Copy dst src n /\ waits_of (copy_by op cx dst src n k) = stream cx.
  Proof.
    unfold copy_by, on_stream, copy_now.
    destruct cx as [x|], op; cbn [effect_of waits_of stream]; try discriminate;
      repeat match goal with |- context [if ?b then _ else _] => destruct b end;
      cbn [effect_of waits_of]; intros [= <-]; auto.
  Qed.

  Lemma copy_verdict_effect d s n cx l k e : ordinary l -> 0 <= n -> effect_of (copy_verdict d s n cx l k) = Some e ->
    exists rs rd, holds l s rs /\ holds l d rd /\ e = Copy d s (asked rs s n) /\ 0 <= asked rs s n /\
      d + asked rs s n <= r_ptr rd + r_size rd /\ waits_of (copy_verdict d s n cx l k) = stream cx.
  Proof.
    intros Ho Hn. unfold copy_verdict.
    destruct (lookup s l) as [rs|] eqn:Es; [|discriminate]. destruct (lookup d l) as [rd|] eqn:Ed; [|discriminate].
    apply lookup_holds in Es, Ed. destruct (holds_rest _ _ _ Ho Es) as [-> H1]. destruct (holds_rest _ _ _ Ho Ed) as [-> H2].
    fold (asked rs s n). assert (Ha : 0 <= asked rs s n) by (unfold asked; destruct (n =? 0); lia).
    destruct (_ <? _) eqn:E; [discriminate|]. destruct (find_operation _ _ _); try discriminate.
    intros H. destruct (copy_by_effect _ _ _ _ _ _ _ H) as [-> Hw]. exists rs, rd. repeat split; auto; try apply Es; try apply Ed; lia.
  Qed.

  (** Two platforms of a vendor with streams. *)
  Lemma copy_queued_platform p op k x d s n :
    (exists t, find_operation "COPY" (p, p) (operators c []) = Ok t op) -> queued (copy_by op (Some x) d s n k) = true ->
    p = PCuda \/ p = PHip.
  Proof.
    intros [t Hf]. destruct op; cbn [copy_by queued copy_now];
      try (repeat match goal with |- context [if ?b then _ else _] => destruct b end; discriminate);
      intros _; destruct p; auto; exfalso; revert Hf; destruct c as [[] [] [] [] [] []]; vm_compute; discriminate.
  Qed.

  Definition memset_now (ws : option Z) (op : operation) (p v n : Z) (k : nat) : verdict :=
    match op with
    | HostMemsetOperation | SyclMemsetOperation | OpenMPTargetMemsetOperation => VNow ws false (Fill p v n)
    | CudaMemsetOperation | HipMemsetOperation =>
        if fails k then VThrow ws true RuntimeError else VNow ws true (Fill p v n)
    | _ => VThrow ws false RuntimeError
    end.

  Definition memset_by (op : operation) (cx : option context) (p v n : Z) (k : nat) : verdict :=
    match cx with
    | None => memset_now None op p v n k
    | Some x =>
        match op with
        | CudaMemsetOperation => on_stream x PCuda k false (Fill p v n)
        | HipMemsetOperation => on_stream x PHip k false (Fill p v n)
        | _ => memset_now (Some (cx_stream x)) op p v n k
        end
    end.

  Definition memset_verdict (p v length : Z) (cx : option context) (l : list arec) (k : nat) : verdict :=
    match lookup p l with
    | None => VThrow None false UnknownPointer
    | Some r =>
        let size := w64 (r_size r - (p - r_ptr r)) in
        let n := if length =? 0 then size else length in
        if size <? n then VThrow None false RuntimeError
        else match find_operation "MEMSET" (plat (r_strat r), plat (r_strat r)) (operators c []) with
             | Ok _ op => memset_by op cx p v n k
             | _ => VThrow None false RuntimeError
             end
    end.

  Lemma memset_now_ok ws op p v n w :
    op_memset fails op p v n (wt ws w) = enact (memset_now ws op p v n (a_calls w)) w.
  Proof.
    assert (Hk : a_calls (wt ws w) = a_calls w) by (destruct ws; reflexivity).
    unfold op_memset, memset_now. rewrite Hk.
    destruct op; cbn [enact]; try reflexivity; destruct (fails (a_calls w)); reflexivity.
  Qed.

  Lemma a_memset_enact p v n cx w : a_memset p v n cx w = enact (memset_verdict p v n cx (a_live w) (a_calls w)) w.
  Proof.
    unfold AsyncModel.a_memset, memset_verdict. rewrite a_find_lookup. destruct (lookup p (a_live w)) as [r|]; [|reflexivity].
    cbn [bind]. destruct (_ <? _); [reflexivity|]. unfold with_op. destruct (find_operation _ _ _); try reflexivity.
    destruct cx as [x|]; cbn [memset_by].
    - set (n' := if n =? 0 then _ else _). unfold op_memset_async, on_stream.
      destruct a; try apply (memset_now_ok (Some (cx_stream x)));
        (destruct (platform_eqb _ _); [|reflexivity]; destruct (fails _); reflexivity).
    - apply (memset_now_ok None).
  Qed.

  Lemma memset_by_effect op cx p v n k e : effect_of (memset_by op cx p v n k) = Some e ->
    e = Fill p v n /\ waits_of (memset_by op cx p v n k) = stream cx.
  Proof.
    unfold memset_by, on_stream, memset_now.
    destruct cx as [x|], op; cbn [effect_of waits_of stream]; try discriminate;
      repeat match goal with |- context [if ?b then _ else _] => destruct b end;
      cbn [effect_of waits_of]; try discriminate; intros [= <-]; auto.
  Qed.

  Lemma memset_verdict_effect p v n cx l k e : ordinary l -> 0 <= n -> effect_of (memset_verdict p v n cx l k) = Some e ->
    exists r, holds l p r /\ e = Fill p v (asked r p n) /\ 0 <= asked r p n /\
      p + asked r p n <= r_ptr r + r_size r /\ waits_of (memset_verdict p v n cx l k) = stream cx.
  Proof.
    intros Ho Hn. unfold memset_verdict.
    destruct (lookup p l) as [r|] eqn:Es; [|discriminate].
    apply lookup_holds in Es. destruct (holds_rest _ _ _ Ho Es) as [-> H1].
    fold (asked r p n). assert (Ha : 0 <= asked r p n) by (unfold asked; destruct (n =? 0); lia).
    destruct (_ <? _) eqn:E; [discriminate|]. destruct (find_operation _ _ _); try discriminate.
    intros H. destruct (memset_by_effect _ _ _ _ _ _ _ H) as [-> Hw]. exists r. repeat split; auto; try apply Es; lia.
  Qed.

  Lemma queued_effect d : queued d = true -> exists e, effect_of d = Some e.
  Proof. destruct d; cbn [queued effect_of]; try discriminate. eauto. Qed.

  Definition prefetch_verdict (p device : Z) (cx : context) (l : list arec) (k : nat) : verdict :=
    match lookup p l with
    | None => VThrow None false UnknownPointer
    | Some r =>
        if negb (unified (r_strat r)) then VThrow None false RuntimeError
        else
          let size := w64 (r_size r - (p - r_ptr r)) in
          match find_operation "PREFETCH" (plat (r_strat r), plat (r_strat r)) (operators c []) with
          | Ok _ CudaMemPrefetchOperation =>
              if negb (platform_eqb (cx_platform cx) PCuda) then VThrow None false ResourceError
              else match props (if device =? -1 then current else device) with
                   | None => VThrow None false RuntimeError
                   | Some false => VNone None false
                   | Some true => if fails k then VThrow None true RuntimeError else VHint None true (p, size, device)
                   end
          | Ok _ SyclMemPrefetchOperation =>
              if negb (device_of (r_strat r) =? device) then VThrow (Some (cx_stream cx)) false RuntimeError
              else if shared p then VHint (Some (cx_stream cx)) false (p, size, device)
                   else VThrow (Some (cx_stream cx)) false RuntimeError
          | _ => VThrow None false RuntimeError
          end
    end.

  Lemma a_prefetch_enact p d cx w : a_prefetch p d cx w = enact (prefetch_verdict p d cx (a_live w) (a_calls w)) w.
  Proof.
    unfold AsyncModel.a_prefetch, prefetch_verdict. rewrite a_find_lookup.
    destruct (lookup p (a_live w)) as [r|]; [|reflexivity]. cbn [bind].
    destruct (negb (unified (r_strat r))); [reflexivity|]. unfold with_op.
    destruct (find_operation _ _ _); try reflexivity. destruct a; try reflexivity.
    - unfold cuda_prefetch_async. destruct (negb _); [reflexivity|]. destruct (props _) as [[]|]; try reflexivity.
      destruct (fails _); reflexivity.
    - unfold sycl_prefetch_async. destruct (negb _); [reflexivity|]. destruct (shared p); reflexivity.
  Qed.

  Lemma prefetch_no_effect p d cx l k : effect_of (prefetch_verdict p d cx l k) = None.
  Proof.
    unfold prefetch_verdict. destruct (lookup p l); [|reflexivity]. destruct (negb _); [reflexivity|].
    destruct (find_operation _ _ _); try reflexivity. destruct a0; try reflexivity.
    - destruct (negb _); [reflexivity|]. destruct (props _) as [[]|]; try reflexivity. destruct (fails _); reflexivity.
    - destruct (negb _); [reflexivity|]. destruct (shared p); reflexivity.
  Qed.

  (** ** Allocation and deallocation *)

  Lemma grounded_more l l' e : (forall r, In r l -> In r l') -> grounded l e -> grounded l' e.
  Proof.
    intros H He x Hx. apply He in Hx. rewrite covered_spec in *. destruct Hx as (r & H1 & H2). eauto.
  Qed.

  Lemma ordinary_cons q n i z l : ordinary l -> 0 <= n -> 0 < q -> q + n <= ASP -> ~ In q (map r_ptr l) ->
    (forall r, In r l -> q + n <= r_ptr r \/ r_ptr r + r_size r <= q) -> ordinary (mkRec q n i z :: l).
  Proof.
    intros (H1 & H2 & H3) Hn Hq Hs Hi Hr. split; [|split].
    - intros r [<-|H]; [cbn [r_ptr r_size]; lia|auto].
    - cbn [map r_ptr]. constructor; assumption.
    - intros r1 r2 [<-|Ha] [<-|Hb]; cbn [r_ptr r_size].
      + now left.
      + apply Hr in Hb. tauto.
      + apply Hr in Ha. tauto.
      + now apply H3.
  Qed.

  Lemma ordinary_filter f l : ordinary l -> ordinary (filter f l).
  Proof.
    intros (H1 & H2 & H3). split; [|split].
    - intros r Hr. apply filter_In in Hr. now apply H1.
    - clear H1 H3. induction l as [|a l IH]; [constructor|]. cbn [map] in H2. inversion H2; subst. cbn [filter].
      destruct (f a); [|auto]. cbn [map]. constructor; [|auto]. rewrite in_map_iff. intros (r & Hp & Hr).
      apply filter_In in Hr. apply H1. rewrite <- Hp. now apply in_map.
    - intros r1 r2 Ha Hb. apply filter_In in Ha, Hb. now apply H3.
  Qed.

  Lemma drop_rec_filter p l : NoDup (map r_ptr l) -> drop_rec p l = filter (fun r => negb (r_ptr r =? p)) l.
  Proof.
    induction l as [|r l IH]; cbn [map drop_rec filter]; intros H; [reflexivity|]. inversion H; subst.
    destruct (r_ptr r =? p) eqn:E; cbn [negb]; [|now rewrite IH].
    apply Z.eqb_eq in E. subst p. clear -H2. induction l as [|a l IH]; [reflexivity|]. cbn [filter map] in *.
    destruct (r_ptr a =? r_ptr r) eqn:E; cbn [negb]; [exfalso; apply H2; left; lia|].
    rewrite <- IH; [reflexivity|intros Hi; apply H2; now right].
  Qed.

  Lemma ordinary_drop p l : ordinary l -> ordinary (drop_rec p l).
  Proof. intros H. rewrite drop_rec_filter by apply H. now apply ordinary_filter. Qed.

  Lemma allocate_ok i n w v : R w v -> 0 <= n -> room place w (a_live w) i n ->
    match a_allocate i n w with
    | Ok w1 r => exists v1, a_allocate i n v = Ok v1 r /\ R w1 v1
    | Throw w1 x => exists v1, a_allocate i n v = Throw v1 x /\ R w1 v1
    | _ => True
    end.
  Proof.
    intros HR Hn Hr. pose proof HR as HR0. destruct HR as [H1 H2 H3 H4 H5 H6 H7 H8].
    unfold AsyncModel.a_allocate. rewrite H3.
    destruct (place (a_calls w) i n) as [q|] eqn:E.
    - eexists. split; [reflexivity|]. rewrite H1. split; cbn [a_live a_mem a_pend a_hints a_calls]; auto.
      + intros x. rewrite replay_settled.
        * apply settled_ext. apply H5.
        * intros t e Hi. specialize (H7 t e Hi). split; [exact H7|]. eapply grounded_more; [|exact H7]. intros r Hl. now right.
      + intros t e Hi. specialize (H7 t e Hi). eapply grounded_more; [|exact H7]. intros r Hl. now right.
      + destruct (Hr q E) as (Ha & Hb & Hc & Hd). now apply ordinary_cons.
    - eexists. split; [reflexivity|]. now apply (R_cal true).
  Qed.

  Lemma in_drop_or p l r : In r l -> In r (drop_rec p l) \/ (r_ptr r = p /\ find (fun r => r_ptr r =? p) l = Some r).
  Proof.
    induction l as [|a l IH]; cbn [drop_rec find]; intros []; destruct (r_ptr a =? p) eqn:E; subst.
    - right. split; [lia|reflexivity].
    - now left; left.
    - now left.
    - destruct (IH H) as [?|?]; [left; now right|now right].
  Qed.

  Lemma grounded_drop p l e : grounded l e -> (forall r, In r l -> r_ptr r = p -> ~ uses e (range r)) ->
    grounded (drop_rec p l) e.
  Proof.
    intros Hg Hu x Hx. pose proof (Hg x Hx) as Hc. rewrite covered_spec in *. destruct Hc as (r & Hr & Hw).
    destruct (in_drop_or p l r Hr) as [H|[H _]]; [eauto|]. destruct (Hu r Hr H). rewrite within_spec in *.
    unfold uses, meet. rewrite within_spec in Hx. destruct Hx as [Hx|Hx]; [left|right]; exists x; auto.
  Qed.

  Lemma deallocate_ok p w v : R w v ->
    (forall r e t, In r (a_live w) -> r_ptr r = p -> In (t, e) (a_pend w) -> ~ uses e (range r)) ->
    match a_deallocate p w with
    | Ok w1 r => exists v1, a_deallocate p v = Ok v1 r /\ R w1 v1
    | Throw w1 x => exists v1, a_deallocate p v = Throw v1 x /\ R w1 v1
    | _ => True
    end.
  Proof.
    intros HR Hu. pose proof HR as HR0. destruct HR as [H1 H2 H3 H4 H5 H6 H7 H8].
    unfold AsyncModel.a_deallocate. rewrite H1, H3. destruct (find _ (a_live w)) as [r|] eqn:E.
    - eexists. split; [reflexivity|].
      assert (Hg : forall t e, In (t, e) (a_pend w) -> grounded (drop_rec p (a_live w)) e).
      { intros t e Hi. apply grounded_drop; [now apply (H7 t)|]. intros r' Hr' Hp. now apply (Hu r' e t). }
      split; cbn [a_live a_mem a_pend a_hints a_calls]; auto.
      + intros x. rewrite replay_settled by eauto. apply settled_ext. apply H5.
      + now apply ordinary_drop.
    - eexists. split; [reflexivity|exact HR0].
  Qed.

  Definition same (o o' : outcome aworld Z) : Prop :=
    match o with
    | Ok w1 r => exists v1, o' = Ok v1 r /\ R w1 v1
    | Throw w1 x => exists v1, o' = Throw v1 x /\ R w1 v1
    | _ => True
    end.

  Lemma same_matches w v o o' s : same o o' -> matches w v o o' s.
  Proof.
    unfold same, matches. destruct o; auto; intros (v1 & -> & H); eexists; (split; [reflexivity|now apply R_wt_r]).
  Qed.

  Lemma matches_same w v o o' : matches w v o o' None -> same o o'.
  Proof. exact (fun H => H). Qed.

  Lemma grounded_copy l d s n rs rd : 0 <= n -> holds l s rs -> holds l d rd -> s + n <= r_ptr rs + r_size rs ->
    d + n <= r_ptr rd + r_size rd -> grounded l (Copy d s n).
  Proof.
    intros Hn [Hs1 Hs2] [Hd1 Hd2] H1 H2 x Hx. rewrite covered_spec. rewrite !within_spec in Hx. cbn [writes reads fst snd] in Hx.
    destruct Hx as [Hx|Hx]; [exists rd|exists rs]; (split; [assumption|]); rewrite within_spec; cbn [range fst snd]; lia.
  Qed.

  Definition copy_safe (d s n : Z) (cx : option context) (w : aworld) : Prop :=
    0 <= n /\ forall r, holds (a_live w) s r ->
      s + asked r s n <= r_ptr r + r_size r /\
      forall e, others (stream cx) w e -> ~ conflict (Copy d s (asked r s n)) e.

  Lemma copy_effect_ok d s n cx w v : R w v -> copy_safe d s n cx w ->
    let V := copy_verdict d s n cx (a_live w) (a_calls w) in
    forall e, effect_of V = Some e ->
      grounded (a_live w) e /\ forall t e', In (t, e') (a_pend w) -> waits_of V <> Some t -> ~ conflict e e'.
  Proof.
    intros HR [Hn Hs] V e He. destruct (copy_verdict_effect _ _ _ _ _ _ _ (R_ordinary _ _ HR) Hn He)
      as (rs & rd & H1 & H2 & -> & H3 & H4 & H5). destruct (Hs rs H1) as [H6 H7]. split.
    - eapply grounded_copy; eauto.
    - intros t e' Hi Ht. apply H7. exists t. split; [exact Hi|]. unfold V in Ht. rewrite H5 in Ht. exact Ht.
  Qed.

  Lemma copy_ok d s n cx w v : R w v -> copy_safe d s n cx w ->
    matches w v (a_copy d s n cx w) (a_copy d s n cx v) (stream cx).
  Proof.
    intros HR Hs. rewrite !a_copy_enact. rewrite (R_live _ _ HR), (R_calls _ _ HR). apply enact_ok; [exact HR| |].
    - now apply (copy_effect_ok d s n cx w v).
    - intros Hq. destruct (queued_effect _ Hq) as [e He].
      destruct (copy_verdict_effect _ _ _ _ _ _ _ (R_ordinary _ _ HR) (proj1 Hs) He) as (? & ? & ? & ? & ? & ? & ? & H). exact H.
  Qed.

  Lemma memset_ok p b n cx w v : R w v -> 0 <= n ->
    (forall r, holds (a_live w) p r -> forall e, others (stream cx) w e -> ~ conflict (Fill p b (asked r p n)) e) ->
    matches w v (a_memset p b n cx w) (a_memset p b n cx v) (stream cx).
  Proof.
    intros HR Hn Hs. rewrite !a_memset_enact. rewrite (R_live _ _ HR), (R_calls _ _ HR).
    assert (HV : forall e, effect_of (memset_verdict p b n cx (a_live w) (a_calls w)) = Some e -> exists r,
      holds (a_live w) p r /\ e = Fill p b (asked r p n) /\ 0 <= asked r p n /\ p + asked r p n <= r_ptr r + r_size r /\
      waits_of (memset_verdict p b n cx (a_live w) (a_calls w)) = stream cx).
    { intros e He. apply memset_verdict_effect; [apply HR|exact Hn|exact He]. }
    apply enact_ok; [exact HR| |].
    - intros e He. destruct (HV e He) as (r & H1 & -> & H2 & H3 & H4). split.
      + intros x Hx. rewrite covered_spec. exists r. split; [apply H1|]. rewrite !within_spec in *.
        cbn [writes reads range fst snd] in *. destruct H1 as [_ H1]. lia.
      + intros t e' Hi Ht. apply (Hs r H1). exists t. split; [exact Hi|]. now rewrite <- H4.
    - intros Hq. destruct (queued_effect _ Hq) as [e He]. destruct (HV e He) as (? & ? & ? & ? & ? & H). exact H.
  Qed.

  Lemma prefetch_ok p d cx w v s : R w v -> matches w v (a_prefetch p d cx w) (a_prefetch p d cx v) s.
  Proof.
    intros HR. rewrite !a_prefetch_enact. rewrite (R_live _ _ HR), (R_calls _ _ HR). apply enact_ok; [exact HR| |].
    - intros e He. rewrite prefetch_no_effect in He. discriminate.
    - intros Hq. apply queued_effect in Hq as [e He]. rewrite prefetch_no_effect in He. discriminate.
  Qed.

  (** ** Reallocation *)

  Lemma enact_frame d w : queued d = false ->
    match enact d w with
    | Ok w1 _ | Throw w1 _ => a_live w1 = a_live w /\ forall y, In y (a_pend w1) -> In y (a_pend w)
    | _ => True
    end.
  Proof.
    assert (Hw : forall ws, a_live (wt ws w) = a_live w /\ forall y, In y (a_pend (wt ws w)) -> In y (a_pend w)).
    { intros ws. split; [destruct ws; reflexivity|]. intros [t e] Hi. now apply pend_wt in Hi. }
    destruct d as [ws cl x| |ws cl e|ws cl|q e|ws cl h]; cbn [enact queued]; intros Hq; try discriminate; auto;
      destruct (Hw ws); destruct cl; cbn [cal called with_mem a_live a_pend]; auto.
  Qed.

  Lemma holds_start l p r r' : ordinary l -> In r l -> r_ptr r = p -> holds l p r' -> r' = r.
  Proof.
    intros (H1 & H2 & H3) Hr Hp [Hr' H]. destruct (H3 r' r Hr' Hr) as [He|He]; [exact He|].
    pose proof (H1 r Hr). pose proof (H1 r' Hr'). assert (Hpp : r_ptr r' = r_ptr r) by lia.
    clear - H2 Hr Hr' Hpp. induction l as [|a l IH]; [destruct Hr|]. cbn [map] in H2. inversion H2; subst.
    destruct Hr as [<-|Hr], Hr' as [<-|Hr']; auto.
    - exfalso. apply H1. rewrite <- Hpp. now apply in_map.
    - exfalso. apply H1. rewrite Hpp. now apply in_map.
  Qed.

  Lemma realloc_generic_ok p r n cx w v : R w v -> In r (a_live w) -> r_ptr r = p -> 0 < n ->
    room place w (a_live w) (r_strat r) n ->
    (forall e t, In (t, e) (a_pend w) -> ~ uses e (range r)) ->
    (cx = None \/ (plat (r_strat r) <> PCuda /\ plat (r_strat r) <> PHip)) ->
    same (a_realloc_generic p r n cx w) (a_realloc_generic p r n cx v).
  Proof.
    intros HR Hr Hp Hn Hroom Hu Hcx. unfold AsyncModel.a_realloc_generic.
    pose proof (allocate_ok (r_strat r) n w v HR ltac:(lia) Hroom) as HA.
    unfold AsyncModel.a_allocate in HA at 1. unfold AsyncModel.a_allocate at 1.
    destruct (place (a_calls w) (r_strat r) n) as [q|] eqn:Eq.
    2:{ destruct HA as (v1 & -> & HR1). cbn [bind same]. eauto. }
    destruct HA as (v1 & -> & HR1). cbn [bind].
    set (w1 := mkA _ _ _ _ _) in *. set (cs := if n <? r_size r then n else r_size r).
    destruct (Hroom q Eq) as (Hq1 & Hq2 & Hq3 & Hq4).
    assert (Hlive : a_live w1 = mkRec q n (r_strat r) 0 :: a_live w) by reflexivity.
    assert (Hpend : a_pend w1 = a_pend w) by reflexivity.
    assert (Hsz : 0 <= r_size r) by (apply (R_ordinary _ _ HR) in Hr; lia).
    assert (Hcs : 0 <= cs <= r_size r /\ cs <= n /\ (cs = 0 -> r_size r = 0))
      by (unfold cs; destruct (Z.ltb_spec n (r_size r)); lia).
    assert (Hh : forall r', holds (a_live w1) p r' -> r' = r).
    { intros r' H. apply (holds_start (a_live w1) p r r' (R_ordinary _ _ HR1)); [rewrite Hlive; now right|exact Hp|exact H]. }
    assert (Hask : asked r p cs = cs) by (unfold asked; destruct (Z.eqb_spec cs 0); lia).
    clearbody cs.
    assert (Hsafe : copy_safe q p cs cx w1).
    { split; [lia|]. intros r' H. rewrite (Hh r' H), Hask. split; [lia|].
      intros e (t & Hi & _). rewrite Hpend in Hi. pose proof (Hu e t Hi) as Hnu. pose proof (R_grounded _ _ HR t e Hi) as Hg.
      assert (Hnq : forall x, q <= x < q + cs -> within (writes e) x = true \/ within (reads e) x = true -> False).
      { intros x Hx Hw. apply Hg in Hw. rewrite covered_spec in Hw. destruct Hw as (r1 & Hr1 & Hw). rewrite within_spec in Hw.
        cbn [range fst snd] in Hw. pose proof (Hq4 r1 Hr1). lia. }
      unfold conflict. cbn [writes reads]. intros [(x & H1 & H2)|[(x & H1 & H2)|(x & H1 & H2)]]; cbn [fst snd] in *.
      - apply (Hnq x H1). left. now rewrite within_spec.
      - apply (Hnq x H1). right. now rewrite within_spec.
      - apply Hnu. left. exists x. cbn [range fst snd]. split; [exact H2|lia]. }
    rewrite !a_copy_enact. rewrite (R_live _ _ HR1), (R_calls _ _ HR1).
    set (V := copy_verdict q p cs cx (a_live w1) (a_calls w1)).
    assert (Hnq : queued V = false).
    { destruct (queued V) eqn:EV; [|reflexivity]. exfalso. destruct (queued_effect _ EV) as [e He].
      destruct (copy_verdict_effect _ _ _ _ _ _ _ (R_ordinary _ _ HR1) (proj1 Hsafe) He) as (rs & rd & Hs & Hd & _).
      revert EV. unfold V, copy_verdict. destruct (lookup p (a_live w1)) as [rs'|] eqn:E1; [|discriminate].
      destruct (lookup q (a_live w1)) as [rd'|] eqn:E2; [|discriminate]. apply lookup_holds in E1, E2.
      apply Hh in E1. subst rs'.
      assert (rd' = mkRec q n (r_strat r) 0) as ->.
      { apply (holds_start (a_live w1) q _ rd' (R_ordinary _ _ HR1)); [rewrite Hlive; now left|reflexivity|exact E2]. }
      cbn [r_strat]. destruct (_ <? _); [discriminate|]. destruct (find_operation _ _ _) as [t op| | | |] eqn:Eo; try discriminate.
      destruct cx as [x|]; [|cbn [copy_by]; unfold copy_now; destruct op; cbn [queued]; try discriminate;
        repeat match goal with |- context [if ?b then _ else _] => destruct b end; discriminate].
      intros HQ. destruct Hcx as [Hcx|[Hc1 Hc2]]; [discriminate|].
      destruct (copy_queued_platform (plat (r_strat r)) op _ x _ _ _ (ex_intro _ t Eo) HQ); auto. }
    pose proof (enact_ok V w1 v1 None HR1 (copy_effect_ok q p cs cx w1 v1 HR1 Hsafe)
      ltac:(rewrite Hnq; discriminate)) as HM.
    pose proof (enact_frame V w1 Hnq) as HF.
    unfold matches in HM. destruct (enact V w1) as [w2 z|w2 e| | |]; cbn [bind]; try exact I.
    - destruct HM as (v2 & -> & HR2). cbn [bind wt] in *. destruct HF as [HF1 HF2].
      pose proof (deallocate_ok p w2 v2 HR2) as HD.
      destruct (a_deallocate p w2) as [w3 z3|w3 e3| | |]; cbn [bind same]; try exact I;
        (destruct HD as (v3 & -> & HR3);
         [ intros r' e t Hr' Hp' Hi; rewrite HF1 in Hr';
           assert (r' = r) as -> by (apply Hh; split; [exact Hr'|left; lia]);
           apply (Hu e t); rewrite <- Hpend; now apply HF2
         | cbn [bind]; eauto ]).
    - destruct HM as (v2 & -> & HR2). cbn [bind same]. eauto.
  Qed.

  Lemma realloc_host_ok p r n w v : R w v -> In r (a_live w) -> r_ptr r = p -> 0 < n ->
    room place w (if negb (r_size r =? 0) then filter (fun r' => negb (r_ptr r' =? p)) (a_live w) else a_live w) (r_strat r) n ->
    (forall e t, In (t, e) (a_pend w) -> ~ uses e (range r)) ->
    same (a_realloc_host p r n w) (a_realloc_host p r n v).
  Proof.
    intros HR Hr Hp Hn Hroom Hu. unfold AsyncModel.a_realloc_host.
    destruct (r_size r =? 0) eqn:Ez; cbn [negb] in Hroom.
    { apply realloc_generic_ok; auto. }
    rewrite <- drop_rec_filter in Hroom by apply (R_ordinary _ _ HR).
    pose proof HR as HR0. destruct HR as [H1 H2 H3 H4 H5 H6 H7 H8]. rewrite H1, H3.
    assert (Hg : forall t e, In (t, e) (a_pend w) -> grounded (drop_rec p (a_live w)) e).
    { intros t e Hi. apply grounded_drop; [now apply (H7 t)|]. intros r' Hr' Hp'.
      assert (r' = r) as -> by (apply (holds_start (a_live w) p r r' H8 Hr Hp); split; [exact Hr'|left; lia]). now apply (Hu e t). }
    destruct (place (a_calls w) (r_strat r) n) as [q|] eqn:Eq; cbn [same].
    - eexists. split; [reflexivity|]. destruct (Hroom q Eq) as (Hq1 & Hq2 & Hq3 & Hq4).
      set (l0 := drop_rec p (a_live w)) in *. set (l := mkRec q n (r_strat r) 0 :: l0).
      set (g := fun (m : mem) x => if in_range q (Z.min (r_size r) n) x then m (p + (x - q)) else settled (a_calls w) l0 l m x).
      change (R (mkA l (g (a_mem w)) (a_pend w) (a_hints w) (S (a_calls w)))
                (mkA l (g (a_mem v)) (a_pend v) (a_hints v) (S (a_calls w)))).
      assert (Hgl : forall t e, In (t, e) (a_pend w) -> grounded l e).
      { intros t e Hi. eapply grounded_more; [|apply (Hg t e Hi)]. intros r' H. now right. }
      assert (Hext : forall m m' x, (forall y, m y = m' y) -> g m x = g m' x).
      { intros m m' x H. unfold g. destruct (in_range _ _ _); [apply H|]. now apply settled_ext. }
      split; cbn [a_live a_mem a_pend a_hints a_calls]; auto.
      + intros x. rewrite (replay_foreign (a_pend w) g Hext).
        * apply Hext. exact H5.
        * intros t e Hi m. pose proof (Hg t e Hi) as Hge. pose proof (Hu e t Hi) as Hue.
          assert (Hnq : forall y, within (writes e) y = true \/ within (reads e) y = true -> in_range q (Z.min (r_size r) n) y = false).
          { intros y Hy. apply Hge in Hy. rewrite covered_spec in Hy. destruct Hy as (r1 & Hr1 & Hy). rewrite within_spec in Hy.
            cbn [range fst snd] in Hy. destruct (in_range q _ y) eqn:E; [|reflexivity]. rewrite in_range_spec in E.
            pose proof (Hq4 r1 Hr1). lia. }
          apply foreign_commute.
          -- intros m0 y Hy. unfold g. rewrite (Hnq y Hy). unfold AsyncModel.settled.
             now rewrite (Hge y Hy), (Hgl t e Hi y Hy).
          -- intros m0 m1 y Hm Hy. unfold g. destruct (in_range q _ y) eqn:E.
             ++ apply Hm. destruct (within (writes e) (p + (y - q))) eqn:Ew; [|reflexivity]. exfalso. apply Hue. left.
                rewrite within_spec in Ew. rewrite in_range_spec in E. exists (p + (y - q)). split; [exact Ew|].
                cbn [range fst snd]. lia.
             ++ apply settled_ext. auto.
      + apply ordinary_cons; auto; [now apply ordinary_drop|lia].
    - eexists. split; [reflexivity|]. split; cbn [a_live a_mem a_pend a_hints a_calls]; auto. now apply ordinary_drop.
  Qed.

  Hypothesis host_platform : plat host = PHost.

  Lemma realloc_op p op t : find_operation "REALLOCATE" (p, p) (operators c []) = Ok t op ->
    (op = HostReallocateOperation /\ p = PHost) \/ (op = GenericReallocateOperation /\ p <> PHost).
  Proof.
    destruct p; destruct c as [[] [] [] [] [] []]; vm_compute; intros [= <- <-]; auto; right; split; auto; discriminate.
  Qed.

  Lemma reallocate_ok d p n cx w v : R w v -> careful (AReallocate d p n cx) w ->
    same (a_reallocate d p n cx w) (a_reallocate d p n cx v).
  Proof.
    intros HR (Hn & H0 & Hc). unfold AsyncModel.a_reallocate. destruct (p =? 0) eqn:Ep.
    { apply (allocate_ok d n w v HR Hn). apply H0. lia. }
    rewrite !a_find_lookup, (R_live _ _ HR). destruct (lookup p (a_live w)) as [r|] eqn:El; cbn [bind].
    2:{ cbn [same]. eauto. }
    apply lookup_holds in El. destruct (Z.eqb_spec n 0) as [->|Hn0].
    - pose proof (deallocate_ok p w v HR) as HD.
      assert (Hu : forall r e t, In r (a_live w) -> r_ptr r = p -> In (t, e) (a_pend w) -> ~ uses e (range r)).
      { intros r' e t Hr' Hp' Hi. destruct (Hc r' Hr' Hp') as (_ & H & _). now apply (H e t). }
      specialize (HD Hu). unfold AsyncModel.a_deallocate in HD at 1. unfold AsyncModel.a_deallocate at 1.
      destruct (find (fun r => r_ptr r =? p) (a_live w)) as [r'|] eqn:Ef; cbn [bind].
      2:{ destruct HD as (v1 & -> & HR1). cbn [bind same]. eauto. }
      destruct HD as (v1 & -> & HR1). cbn [bind].
      apply find_some in Ef as [Hr' Hp']. apply Z.eqb_eq in Hp'.
      assert (r = r') as -> by (apply (holds_start (a_live w) p r' r (R_ordinary _ _ HR) Hr' Hp' El)).
      apply (allocate_ok (r_strat r') 0 _ v1 HR1); [lia|].
      destruct (Hc r' Hr' Hp') as (_ & _ & Hroom). cbn [Z.eqb] in Hroom. cbn [a_live].
      rewrite drop_rec_filter by apply (R_ordinary _ _ HR). exact Hroom.
    - destruct (Z.eqb_spec p (r_ptr r)) as [Hp|Hp]; cbn [negb]; [|cbn [same]; eauto].
      destruct El as [Hr _]. symmetry in Hp. destruct (Hc r Hr Hp) as (Hcx & Hu & Hroom).
      assert (Hu' : forall e t, In (t, e) (a_pend w) -> ~ uses e (range r)) by (intros e t; apply Hu).
      destruct (Z.eqb_spec n 0) as [|_]; [lia|].
      destruct (platform_eqb (plat (r_strat r)) PHost && negb (r_strat r =? host)) eqn:Eh.
      + unfold with_op. destruct (find_operation _ _ _); try (cbn [same]; eauto; fail).
        apply realloc_generic_ok; auto; [lia|]. apply andb_true_iff in Eh as [_ Eh].
        destruct (r_strat r =? host); [discriminate|exact Hroom].
      + unfold with_op. destruct (find_operation _ _ _) as [t op| | | |] eqn:Eo; try (cbn [same]; eauto; fail).
        apply realloc_op in Eo as [[-> Epl]|[-> Epl]].
        * rewrite Epl in Eh. cbn [platform_eqb andb] in Eh. destruct (Z.eqb_spec (r_strat r) host) as [Ehh|]; [|discriminate].
          cbn [andb] in Hroom.
          destruct cx as [x|]; [|apply realloc_host_ok; auto; lia].
          rewrite (wait_id _ v) by apply HR.
          apply realloc_host_ok; [now apply R_wait|exact Hr|exact Hp|lia|exact Hroom|].
          intros e t' Hi. apply (pend_wt (Some (cx_stream x)) w) in Hi. apply (Hu e t'). apply Hi.
        * assert (Hne : (r_strat r =? host) = false).
          { destruct (Z.eqb_spec (r_strat r) host) as [Ehh|]; [|reflexivity]. rewrite Ehh in Epl. contradiction. }
          rewrite Hne in Hroom. cbn [andb] in Hroom.
          assert (Hsame : same (a_realloc_generic p r n cx w) (a_realloc_generic p r n cx v))
            by (apply realloc_generic_ok; auto; lia).
          destruct cx; exact Hsame.
  Qed.

  (** ** Whole programs *)

  Lemma do_ok o w v : R w v -> careful o w -> silent o = false ->
    matches w v (a_do o w) (a_do o v) (aop_stream o).
  Proof.
    intros HR Hc Hs. destruct o as [i n|p|d s n cx|p b n cx|d p n cx|p d cx|s|s]; cbn [AsyncModel.a_do aop_stream]; try discriminate.
    - destruct Hc as [Hn Hroom]. apply same_matches. now apply (allocate_ok i n w v HR Hn).
    - apply same_matches. now apply (deallocate_ok p w v HR).
    - now apply copy_ok.
    - destruct Hc as [Hn Hc]. now apply memset_ok.
    - apply same_matches. now apply reallocate_ok.
    - now apply prefetch_ok.
  Qed.

  Notation disciplined := (disciplined c plat unified device_of host place noise fails current props shared).

  Lemma run_waiting l : forall w v w' rs, R w v -> disciplined l w -> a_run l w = Ok w' rs ->
    exists v', a_run (waiting l) v = Ok v' rs /\ R w' v'.
  Proof.
    induction l as [|o l IH]; intros w v w' rs HR Hd Hrun.
    { injection Hrun as <- <-. exists v. split; [reflexivity|exact HR]. }
    destruct Hd as [Hc Hd]. cbn [AsyncModel.a_run] in Hrun. cbn [waiting flat_map]. fold (waiting l).
    destruct (silent o) eqn:Es.
    - cbn [app]. assert (HR1 : exists w1 z, a_do o w = Ok w1 z /\ R w1 v).
      { destruct o; try discriminate; cbn [AsyncModel.a_do]; eexists; eexists; (split; [reflexivity|]); [now apply R_wait|now apply R_step]. }
      destruct HR1 as (w1 & z & E & HR1). rewrite E in Hrun, Hd.
      destruct (a_run l w1) as [w2 rs2| | | |] eqn:Er; cbn [omap] in Hrun; try discriminate. injection Hrun as <- <-.
      destruct (IH w1 v w2 rs2 HR1 Hd Er) as (v' & Hv & HR'). eauto.
    - cbn [app AsyncModel.a_run]. rewrite Es.
      assert (Hwait : forall v1, a_run (match aop_stream o with Some s => [AWait s] | None => [] end ++ waiting l) v1 =
        a_run (waiting l) (wt (aop_stream o) v1)).
      { intros v1. destruct (aop_stream o); cbn [app AsyncModel.a_run AsyncModel.a_do silent wt]; [|reflexivity].
        destruct (a_run (waiting l) (a_wait z v1)); reflexivity. }
      pose proof (do_ok o w v HR Hc Es) as HM. unfold matches in HM.
      destruct (a_do o w) as [w1 z|w1 x| | |]; try discriminate; destruct HM as (v1 & -> & HR1); rewrite Hwait;
        (destruct (a_run l w1) as [w2 rs2| | | |] eqn:Er; cbn [omap] in Hrun; try discriminate); injection Hrun as <- <-;
        destruct (IH w1 _ w2 rs2 HR1 Hd Er) as (v' & -> & HR'); cbn [omap]; eauto.
  Qed.

  Theorem async_waiting l w w' rs : ordinary (a_live w) -> a_pend w = [] -> disciplined l w ->
    a_run l w = Ok w' rs -> a_pend w' = [] ->
    exists v, a_run (waiting l) w = Ok v rs /\ a_live v = a_live w' /\ a_hints v = a_hints w' /\
      forall x, a_mem v x = a_mem w' x.
  Proof.
    intros Ho Hp Hd Hr Hp'. destruct (run_waiting l w w w' rs) as (v & Hv & HR); auto.
    - split; auto; rewrite ?Hp; cbn [replay fold_left]; auto; [constructor|intros t e []].
    - exists v. destruct HR as [H1 H2 H3 H4 H5 H6 H7 H8]. rewrite Hp' in H5. auto.
  Qed.

  (** ** Single calls *)

  Lemma holds_unique l p r r' : ordinary l -> holds l p r -> holds l p r' -> r' = r.
  Proof.
    intros Ho [Hr H] [Hr' H']. destruct (Z.eq_dec p (r_ptr r)) as [E|E].
    { apply (holds_start l p r r' Ho Hr); [lia|]. split; auto. }
    destruct (Z.eq_dec p (r_ptr r')) as [E'|E'].
    { symmetry. apply (holds_start l p r' r Ho Hr'); [lia|]. split; auto. }
    destruct Ho as (_ & _ & H3). destruct (H3 r' r Hr' Hr); [assumption|lia].
  Qed.

  Lemma lookup_ok l p r : ordinary l -> holds l p r -> lookup p l = Some r.
  Proof.
    intros Ho Hh. destruct (lookup p l) as [r'|] eqn:E.
    - f_equal. apply lookup_holds in E. eapply holds_unique; eauto.
    - exfalso. unfold lookup in E. destruct (find (fun r => r_ptr r =? p) l) eqn:E1; [discriminate|].
      pose proof (find_none _ _ E r (proj1 Hh)) as H1. pose proof (find_none _ _ E1 r (proj1 Hh)) as H2. cbv beta in H1, H2.
      destruct Hh as [_ [H|H]]; [lia|]. assert (in_range (r_ptr r) (r_size r) p = true) by (apply in_range_spec; lia). congruence.
  Qed.

  Definition copier (a b : platform) : operation :=
    match a, b with
    | PHost, _ => copy_of b HostToDevice
    | _, PHost => copy_of a DeviceToHost
    | _, _ => copy_of a DeviceToDevice
    end.

  Lemma copy_op a b : copyable c a b -> exists t, find_operation "COPY" (a, b) (operators c []) = Ok t (copier a b).
  Proof.
    intros (Ha & Hb & Hab). exists (operators c []).
    destruct a, b; try (exfalso; destruct Hab as [?|[?|?]]; discriminate); try discriminate;
      revert Ha Hb; clear; destruct c as [[] [] [] [] [] []]; intros Ha Hb; try discriminate Ha; try discriminate Hb; vm_compute; reflexivity.
  Qed.

  Lemma memset_op a : enabled c a = true -> exists t, find_operation "MEMSET" (a, a) (operators c []) = Ok t (memset_of a).
  Proof.
    intros Ha. exists (operators c []).
    destruct a; try discriminate;
      revert Ha; clear; destruct c as [[] [] [] [] [] []]; intros Ha; try discriminate Ha; vm_compute; reflexivity.
  Qed.

  Lemma platform_eqb_refl a b : a = b -> platform_eqb a b = true.
  Proof. intros ->. destruct b; reflexivity. Qed.
  Lemma platform_eqb_ne a b : a <> b -> platform_eqb a b = false.
  Proof. destruct a, b; try reflexivity; intros H; destruct H; reflexivity. Qed.

  Ltac by_platform a b Hab :=
    destruct a, b; try (exfalso; destruct Hab as [?|[?|?]]; discriminate); try discriminate.

  Lemma copy_by_good a b x d s n k : copyable c a b -> proper x a -> proper x b -> fails k = false ->
    overlapping d s n = false ->
    copy_by (copier a b) (Some x) d s n k = VQueue (cx_stream x) (Copy d s n) \/
    exists cl, copy_by (copier a b) (Some x) d s n k = VNow (Some (cx_stream x)) cl (Copy d s n).
  Proof.
    intros (Ha & Hb & Hab) Hpa Hpb Hf Ho. unfold proper in *.
    by_platform a b Hab; cbn [copier copy_of copy_by copy_now]; unfold on_stream; rewrite ?Hf, ?Ho;
      try (rewrite platform_eqb_refl by auto; now left); right; eauto.
  Qed.

  Lemma copy_by_fails a b x d s n k : copyable c a b -> proper x a -> proper x b -> fails k = true ->
    a = PCuda \/ b = PCuda \/ a = PHip \/ b = PHip ->
    copy_by (copier a b) (Some x) d s n k = VThrow None true RuntimeError.
  Proof.
    intros (Ha & Hb & Hab) Hpa Hpb Hf Hv. unfold proper in *.
    by_platform a b Hab; try (exfalso; destruct Hv as [?|[?|[?|?]]]; discriminate);
      cbn [copier copy_of copy_by copy_now]; unfold on_stream; rewrite ?Hf; rewrite platform_eqb_refl by auto; reflexivity.
  Qed.

  Lemma copy_by_wrong a b x d s n k : copyable c a b -> ~ (proper x a /\ proper x b) ->
    copy_by (copier a b) (Some x) d s n k = VThrow None false ResourceError.
  Proof.
    intros (Ha & Hb & Hab) Hp. unfold proper in *.
    by_platform a b Hab; try (exfalso; apply Hp; split; intros [?|?]; discriminate);
      cbn [copier copy_of copy_by copy_now]; unfold on_stream;
      (rewrite platform_eqb_ne; [reflexivity|]); intros E; apply Hp; split; intros [?|?]; congruence.
  Qed.

  Lemma memset_by_good a x p v n k : enabled c a = true -> proper x a -> fails k = false ->
    memset_by (memset_of a) (Some x) p v n k = VQueue (cx_stream x) (Fill p v n) \/
    exists cl, memset_by (memset_of a) (Some x) p v n k = VNow (Some (cx_stream x)) cl (Fill p v n).
  Proof.
    intros Ha Hpa Hf. unfold proper in *.
    destruct a; try discriminate; cbn [memset_of memset_by memset_now]; unfold on_stream; rewrite ?Hf;
      try (rewrite platform_eqb_refl by auto; now left); right; eauto.
  Qed.

  Lemma memset_by_wrong a x p v n k : ~ proper x a ->
    memset_by (memset_of a) (Some x) p v n k = VThrow None false ResourceError.
  Proof.
    intros Hp. unfold proper in *.
    destruct a; try (exfalso; apply Hp; intros [?|?]; discriminate); cbn [memset_of memset_by memset_now]; unfold on_stream;
      (rewrite platform_eqb_ne; [reflexivity|]); intros E; apply Hp; intros [?|?]; congruence.
  Qed.

  Lemma copied_copy m d s n : copied m (mem_copy d s n m) d s n.
  Proof.
    split.
    - intros i Hi. unfold mem_copy. destruct (Z.leb_spec d (d + i)), (Z.ltb_spec (d + i) (d + n)); try lia. cbn [andb]. f_equal. lia.
    - intros x Hx. unfold mem_copy. destruct (Z.leb_spec d x), (Z.ltb_spec x (d + n)); try lia; reflexivity.
  Qed.

  Lemma filled_fill m p v n : filled m (mem_fill p v n m) p v n.
  Proof.
    split.
    - intros i Hi. unfold mem_fill. destruct (Z.leb_spec p (p + i)), (Z.ltb_spec (p + i) (p + n)); try lia. reflexivity.
    - intros x Hx. unfold mem_fill. destruct (Z.leb_spec p x), (Z.ltb_spec x (p + n)); try lia; reflexivity.
  Qed.

  Lemma overlapping_no d s n : ~ meet (d, n) (s, n) -> overlapping d s n = false.
  Proof.
    intros H. unfold overlapping. destruct (Z.ltb_spec 0 n), (Z.ltb_spec d (s + n)), (Z.ltb_spec s (d + n)); cbn [andb]; auto.
    exfalso. apply H. exists (Z.max d s). cbn [fst snd]. lia.
  Qed.

  Lemma enact_waited d x e w : a_pend w = [] -> d = VQueue (cx_stream x) e \/ (exists cl, d = VNow (Some (cx_stream x)) cl e) ->
    exists w1, enact d w = Ok w1 0 /\ a_live (a_wait (cx_stream x) w1) = a_live w /\
      a_pend (a_wait (cx_stream x) w1) = [] /\ a_mem (a_wait (cx_stream x) w1) = run_effect e (a_mem w).
  Proof.
    intros Hp [->|[cl ->]]; cbn [enact]; (eexists; split; [reflexivity|]).
    - cbn [a_wait called queue a_live a_pend a_mem]. rewrite Hp. cbn [app filter fold_left fst snd]. rewrite Z.eqb_refl. auto.
    - cbn [wt]. rewrite (wait_id _ w Hp). destruct cl; cbn [cal]; (rewrite wait_id; [|exact Hp]);
        cbn [called with_mem a_live a_pend a_mem]; auto.
  Qed.

  Lemma copy_verdict_at d s n cx l k rs rd : ordinary l -> holds l s rs -> holds l d rd -> 0 <= n ->
    copyable c (plat (r_strat rs)) (plat (r_strat rd)) ->
    copy_verdict d s n cx l k =
      (if r_ptr rd + r_size rd - d <? asked rs s n then VThrow None false RuntimeError
       else copy_by (copier (plat (r_strat rs)) (plat (r_strat rd))) cx d s (asked rs s n) k).
  Proof.
    intros Ho Hs Hd Hn Hc. unfold copy_verdict. rewrite (lookup_ok l s rs), (lookup_ok l d rd) by auto.
    destruct (holds_rest _ _ _ Ho Hs) as [-> _]. destruct (holds_rest _ _ _ Ho Hd) as [-> _].
    destruct (copy_op _ _ Hc) as [t ->]. reflexivity.
  Qed.

  Lemma async_copy d s n x w rs rd : ordinary (a_live w) -> a_pend w = [] -> holds (a_live w) s rs -> holds (a_live w) d rd ->
    0 <= n -> d + asked rs s n <= r_ptr rd + r_size rd -> ~ meet (d, asked rs s n) (s, asked rs s n) ->
    copyable c (plat (r_strat rs)) (plat (r_strat rd)) -> proper x (plat (r_strat rs)) -> proper x (plat (r_strat rd)) ->
    fails (a_calls w) = false ->
    exists w', a_run [ACopy d s n (Some x); AWait (cx_stream x)] w = Ok w' [inl 0] /\
      copied (a_mem w) (a_mem w') d s (asked rs s n) /\ a_live w' = a_live w /\ a_pend w' = [].
  Proof.
    intros Ho Hp Hs Hd Hn Hfit Hm Hc Hx1 Hx2 Hf. cbn [AsyncModel.a_run AsyncModel.a_do silent]. rewrite a_copy_enact.
    rewrite (copy_verdict_at d s n (Some x) _ _ rs rd) by auto.
    destruct (_ <? _) eqn:E; [lia|].
    pose proof (copy_by_good _ _ x d s (asked rs s n) _ Hc Hx1 Hx2 Hf (overlapping_no _ _ _ Hm)) as HV.
    destruct (enact_waited _ x _ w Hp HV) as (w1 & -> & H1 & H2 & H3). cbn [omap].
    eexists. split; [reflexivity|]. rewrite H3. split; [apply copied_copy|auto].
  Qed.

  Lemma async_copy_refused d s n x w rs rd : ordinary (a_live w) -> holds (a_live w) s rs -> holds (a_live w) d rd ->
    0 <= n -> copyable c (plat (r_strat rs)) (plat (r_strat rd)) ->
    (r_ptr rd + r_size rd < d + asked rs s n -> a_do (ACopy d s n (Some x)) w = Throw w RuntimeError) /\
    (d + asked rs s n <= r_ptr rd + r_size rd -> ~ (proper x (plat (r_strat rs)) /\ proper x (plat (r_strat rd))) ->
       a_do (ACopy d s n (Some x)) w = Throw w ResourceError) /\
    (d + asked rs s n <= r_ptr rd + r_size rd -> proper x (plat (r_strat rs)) -> proper x (plat (r_strat rd)) ->
       plat (r_strat rs) = PCuda \/ plat (r_strat rd) = PCuda \/ plat (r_strat rs) = PHip \/ plat (r_strat rd) = PHip ->
       fails (a_calls w) = true ->
       exists w', a_do (ACopy d s n (Some x)) w = Throw w' RuntimeError /\ a_mem w' = a_mem w /\ a_live w' = a_live w /\
         a_pend w' = a_pend w).
  Proof.
    intros Ho Hs Hd Hn Hc. cbn [AsyncModel.a_do]. rewrite a_copy_enact.
    rewrite (copy_verdict_at d s n (Some x) _ _ rs rd) by auto.
    destruct (_ <? _) eqn:E; (split; [intros; try lia; reflexivity|split]); intros; try lia.
    - rewrite copy_by_wrong by auto. reflexivity.
    - rewrite copy_by_fails by auto. cbn [enact]. eexists. split; [reflexivity|]. auto.
  Qed.

  Lemma memset_verdict_at p v n cx l k r : ordinary l -> holds l p r -> 0 <= n -> enabled c (plat (r_strat r)) = true ->
    memset_verdict p v n cx l k =
      (if r_ptr r + r_size r - p <? asked r p n then VThrow None false RuntimeError
       else memset_by (memset_of (plat (r_strat r))) cx p v (asked r p n) k).
  Proof.
    intros Ho Hs Hn Hc. unfold memset_verdict. rewrite (lookup_ok l p r) by auto.
    destruct (holds_rest _ _ _ Ho Hs) as [-> _]. destruct (memset_op _ Hc) as [t ->]. reflexivity.
  Qed.

  Lemma async_memset p v n x w r : ordinary (a_live w) -> a_pend w = [] -> holds (a_live w) p r ->
    0 <= n -> p + asked r p n <= r_ptr r + r_size r ->
    enabled c (plat (r_strat r)) = true -> proper x (plat (r_strat r)) -> fails (a_calls w) = false ->
    exists w', a_run [AMemset p v n (Some x); AWait (cx_stream x)] w = Ok w' [inl 0] /\
      filled (a_mem w) (a_mem w') p v (asked r p n) /\ a_live w' = a_live w /\ a_pend w' = [].
  Proof.
    intros Ho Hp Hs Hn Hfit Hc Hx1 Hf. cbn [AsyncModel.a_run AsyncModel.a_do silent]. rewrite a_memset_enact.
    rewrite (memset_verdict_at p v n (Some x) _ _ r) by auto.
    destruct (_ <? _) eqn:E; [lia|].
    pose proof (memset_by_good _ x p v (asked r p n) _ Hc Hx1 Hf) as HV.
    destruct (enact_waited _ x _ w Hp HV) as (w1 & -> & H1 & H2 & H3). cbn [omap].
    eexists. split; [reflexivity|]. rewrite H3. split; [apply filled_fill|auto].
  Qed.

  Lemma async_memset_refused p v n x w r : ordinary (a_live w) -> holds (a_live w) p r -> 0 <= n ->
    enabled c (plat (r_strat r)) = true ->
    (r_ptr r + r_size r < p + asked r p n -> a_do (AMemset p v n (Some x)) w = Throw w RuntimeError) /\
    (p + asked r p n <= r_ptr r + r_size r -> ~ proper x (plat (r_strat r)) ->
       a_do (AMemset p v n (Some x)) w = Throw w ResourceError).
  Proof.
    intros Ho Hs Hn Hc. cbn [AsyncModel.a_do]. rewrite a_memset_enact.
    rewrite (memset_verdict_at p v n (Some x) _ _ r) by auto.
    destruct (_ <? _) eqn:E; (split; [intros; try lia; reflexivity|]); intros; try lia.
    rewrite memset_by_wrong by auto. reflexivity.
  Qed.

  Lemma async_prefetch p dev x w w' z : ordinary (a_live w) -> a_do (APrefetch p dev x) w = Ok w' z ->
    exists r, holds (a_live w) p r /\ unified (r_strat r) = true /\ a_live w' = a_live w /\
      (a_mem w' = a_mem w \/ a_mem w' = a_mem (a_wait (cx_stream x) w)) /\
      (a_hints w' = a_hints w \/ a_hints w' = (p, r_ptr r + r_size r - p, dev) :: a_hints w).
  Proof.
    intros Ho. cbn [AsyncModel.a_do]. rewrite a_prefetch_enact. unfold prefetch_verdict.
    destruct (lookup p (a_live w)) as [r|] eqn:El; [|discriminate]. apply lookup_holds in El.
    destruct (unified (r_strat r)) eqn:Eu; cbn [negb]; [|discriminate].
    destruct (holds_rest _ _ _ Ho El) as [-> _]. intros H. exists r. split; [exact El|]. split; [exact Eu|].
    destruct (find_operation _ _ _) as [t op| | | |]; try discriminate. destruct op; try discriminate.
    - destruct (negb _); [discriminate|]. destruct (props _) as [[]|]; try discriminate.
      + destruct (fails _); [discriminate|]. injection H as <- <-. auto.
      + injection H as <- <-. auto.
    - destruct (negb _); [discriminate|]. destruct (shared p); [|discriminate]. injection H as <- <-. auto.
  Qed.

  Lemma async_reallocate dflt p n x w r q : ordinary (a_live w) -> a_pend w = [] -> In r (a_live w) -> r_ptr r = p -> 0 < n ->
    plat (r_strat r) = PCuda \/ plat (r_strat r) = PHip -> enabled c (plat (r_strat r)) = true ->
    proper x (plat (r_strat r)) -> place (a_calls w) (r_strat r) n = Some q -> room place w (a_live w) (r_strat r) n ->
    (forall k y b, noise k y b = b) -> fails (S (a_calls w)) = false ->
    exists w', a_run [AReallocate dflt p n (Some x); AWait (cx_stream x)] w = Ok w' [inl q] /\
      copied (a_mem w) (a_mem w') q p (Z.min (r_size r) n) /\
      a_live w' = mkRec q n (r_strat r) 0 :: filter (fun r' => negb (r_ptr r' =? p)) (a_live w).
  Proof.
    intros Ho Hp Hr Hrp Hn Hpl Hen Hx Hq Hroom Hnoise Hf.
    assert (Hset : forall k l l' m y, settled k l l' m y = m y)
      by (intros; unfold AsyncModel.settled; destruct (_ && _); [reflexivity|apply Hnoise]).
    destruct (Hroom q Hq) as (Hq1 & Hq2 & Hq3 & Hq4).
    pose proof (proj1 Ho r Hr) as (Hr0 & Hr1 & Hr2).
    assert (Hne : plat (r_strat r) <> PHost) by (destruct Hpl as [->| ->]; discriminate).
    cbn [AsyncModel.a_run AsyncModel.a_do silent]. unfold AsyncModel.a_reallocate.
    destruct (Z.eqb_spec p 0); [lia|]. rewrite a_find_lookup, (lookup_ok _ p r Ho) by (split; [exact Hr|left; lia]).
    cbn [bind]. destruct (Z.eqb_spec n 0); [lia|]. destruct (Z.eqb_spec p (r_ptr r)); [|lia]. cbn [negb].
    rewrite platform_eqb_ne by exact Hne. cbn [andb]. unfold with_op.
    destruct (find_operation "REALLOCATE" _ _) as [t op| | | |] eqn:Eo.
    2-5: exfalso; revert Eo Hen Hpl; clear; intros Eo Hen [E|E]; rewrite E in *;
        revert Eo Hen; destruct c as [[] [] [] [] [] []]; vm_compute; discriminate.
    apply realloc_op in Eo as [[-> Epl]|[-> Epl]]; [contradiction|].
    unfold AsyncModel.a_realloc_generic, AsyncModel.a_allocate. rewrite Hq. cbn [bind].
    set (w1 := mkA _ _ _ _ _). set (cs := if n <? r_size r then n else r_size r).
    assert (Hcs : cs = Z.min (r_size r) n) by (unfold cs; destruct (Z.ltb_spec n (r_size r)); lia). clearbody cs.
    assert (Ho1 : ordinary (a_live w1)) by (apply ordinary_cons; auto; lia).
    assert (Hs1 : holds (a_live w1) p r) by (split; [right; exact Hr|left; lia]).
    assert (Hd1 : holds (a_live w1) q (mkRec q n (r_strat r) 0)) by (split; [now left|now left]).
    assert (Hask : asked r p cs = cs) by (unfold asked; destruct (Z.eqb_spec cs 0); lia).
    assert (Hca : copyable c (plat (r_strat r)) (plat (r_strat r))) by (repeat split; auto).
    rewrite a_copy_enact. rewrite (copy_verdict_at q p cs (Some x) (a_live w1) (a_calls w1) r _ Ho1 Hs1 Hd1) by (auto; lia).
    cbn [r_strat r_ptr r_size]. rewrite Hask. destruct (_ <? _) eqn:Elt; [lia|].
    assert (HV : copy_by (copier (plat (r_strat r)) (plat (r_strat r))) (Some x) q p cs (a_calls w1) = VQueue (cx_stream x) (Copy q p cs)).
    { assert (Hov : overlapping q p cs = false).
      { apply overlapping_no. intros (y & Hy1 & Hy2). cbn [fst snd] in *. pose proof (Hq4 r Hr). lia. }
      change (a_calls w1) with (S (a_calls w)).
      destruct Hpl as [E|E]; unfold proper in Hx; rewrite E in *; cbn [copier copy_of copy_by]; unfold on_stream;
        rewrite platform_eqb_refl, Hf, Hov by auto; reflexivity. }
    rewrite HV. cbn [enact bind]. unfold AsyncModel.a_deallocate. cbn [called queue a_live a_pend a_mem a_calls a_hints].
    change (a_live w1) with (mkRec q n (r_strat r) 0 :: a_live w). cbn [find r_ptr drop_rec].
    assert (Hqp : q <> p) by (intros ->; apply Hq3; rewrite <- Hrp; now apply in_map).
    destruct (Z.eqb_spec q p); [contradiction|].
    destruct (find (fun r => r_ptr r =? p) (a_live w)) as [r'|] eqn:Ef.
    2:{ pose proof (find_none _ _ Ef r Hr) as H. cbv beta in H. lia. }
    cbn [bind omap]. eexists. split; [reflexivity|].
    cbn [a_wait a_live a_mem a_pend called queue]. change (a_pend w1) with (a_pend w). rewrite Hp.
    cbn [app fold_left fst snd]. rewrite Z.eqb_refl. split.
    - rewrite Hcs. change (a_mem w1) with (settled (a_calls w) (a_live w) (mkRec q n (r_strat r) 0 :: a_live w) (a_mem w)).
      destruct (copied_copy (a_mem w) q p (Z.min (r_size r) n)) as [H1 H2].
      assert (He : forall y, run_effect (Copy q p (Z.min (r_size r) n))
        (settled (S (a_calls w1)) (mkRec q n (r_strat r) 0 :: a_live w) (mkRec q n (r_strat r) 0 :: drop_rec p (a_live w))
           (settled (a_calls w) (a_live w) (mkRec q n (r_strat r) 0 :: a_live w) (a_mem w))) y =
        mem_copy q p (Z.min (r_size r) n) (a_mem w) y).
      { intros y. apply (run_ext (Copy q p (Z.min (r_size r) n))). intros z. rewrite !Hset. reflexivity. }
      split; [intros i Hi|intros y Hy]; rewrite He; auto.
    - rewrite drop_rec_filter by apply Ho. reflexivity.
  Qed.

  Lemma async_reallocate_refused dflt p n cx w : ordinary (a_live w) -> p <> 0 ->
    (forall r, holds (a_live w) p r -> p <> r_ptr r -> a_do (AReallocate dflt p n cx) w = Throw w RuntimeError) /\
    ((forall r, ~ holds (a_live w) p r) -> a_do (AReallocate dflt p n cx) w = Throw w UnknownPointer).
  Proof.
    intros Ho Hp. cbn [AsyncModel.a_do]. unfold AsyncModel.a_reallocate. destruct (Z.eqb_spec p 0); [lia|]. rewrite a_find_lookup. split.
    - intros r Hh Hne. rewrite (lookup_ok _ p r Ho Hh). cbn [bind]. destruct (Z.eqb_spec p (r_ptr r)); [lia|]. cbn [negb].
      destruct (n =? 0); [|reflexivity]. unfold AsyncModel.a_deallocate. destruct (find (fun r => r_ptr r =? p) (a_live w)) as [r'|] eqn:Ef; [|reflexivity].
      apply find_some in Ef as [Hi Ee]. assert (r' = r) by (eapply holds_unique; eauto; split; [exact Hi|left; lia]). subst r'. lia.
    - intros Hn. destruct (lookup p (a_live w)) as [r|] eqn:E; [|reflexivity]. elim (Hn r). now apply lookup_holds.
  Qed.
End Facts.
