(** Logs of several threads. *)
From Coq Require Import String.
From Verif Require Import Base BaseFacts ReplayModel ReplaySpec ReplayFacts ThreadLogModel ThreadLogSpec.
Local Open Scope Z_scope.

(** Whose address a phase is about. *)
Definition about (f : phase) (r p : Z) : Prop :=
  match f with Idle => False | Got r' _ p' | Said r' p' => r = r' /\ p = p' end.

Record TInv (s : tstate) : Prop := {
  v_prog : program (calls_of s);
  v_heap : forall r p, In (r, p) (t_heap s) <-> holds (calls_of s) r p = true \/ exists t, about (t_phase s t) r p;
  v_free : forall t r p, about (t_phase s t) r p -> holds (calls_of s) r p = false;
  v_one : forall t u r p, about (t_phase s t) r p -> about (t_phase s u) r p -> t = u;
  v_owned : forall r p, In (r, p) (t_owned s) -> holds (calls_of s) r p = true;
  v_got : forall t r n q, t_phase s t = Got r n q -> made (calls_of s) r <> None /\ 0 < q;
  v_pos : forall r p, holds (calls_of s) r p = true -> made (calls_of s) r <> None /\ 0 < p;
  v_part : forall t, t_calls s t = (unlogged (t_phase s t) ++ part t (t_log s))%list }.

Lemma at_same {A} t (a : A) f : at_ t a f t = a.
Proof. unfold at_. rewrite Nat.eqb_refl. reflexivity. Qed.
Lemma at_other {A} t u (a : A) f : u <> t -> at_ t a f u = f u.
Proof. intros N. unfold at_. destruct (Nat.eqb_spec u t); [contradiction | reflexivity]. Qed.

Lemma in_without r p r' p' l : In (r', p') (without r p l) <-> In (r', p') l /\ (r', p') <> (r, p).
Proof.
  unfold without. rewrite filter_In. cbn [fst snd]. rewrite negb_true_iff, andb_false_iff, !Z.eqb_neq.
  split; intros [H N]; (split; [exact H|]).
  - intros E. injection E as -> ->. tauto.
  - destruct (Z.eq_dec r' r) as [->|]; [|tauto]. right. intros ->. apply N. reflexivity.
Qed.

Lemma pair_dec (r p r' p' : Z) : (r, p) = (r', p') \/ (r, p) <> (r', p').
Proof.
  destruct (Z.eq_dec r r') as [->|]; [|right; congruence].
  destruct (Z.eq_dec p p') as [->|]; [left; reflexivity | right; congruence].
Qed.

Lemma eqb_pair r p r' p' : (r =? r') && (p =? p') = true <-> (r, p) = (r', p').
Proof. rewrite andb_true_iff, !Z.eqb_eq. split; [intros [-> ->]; reflexivity | intros E; injection E; auto]. Qed.

Lemma holds_alloc r n q H r' p' : holds (PAlloc r n q :: H) r' p' = true <-> (r', p') = (r, q) \/ holds H r' p' = true.
Proof.
  cbn [holds produces consumes]. destruct ((r' =? r) && (p' =? q)) eqn:E.
  - apply eqb_pair in E. tauto.
  - split; [tauto|]. intros [X|X]; [|exact X]. apply eqb_pair in X. congruence.
Qed.
Lemma holds_free r p H r' p' : holds (PFree r p :: H) r' p' = true <-> (r', p') <> (r, p) /\ holds H r' p' = true.
Proof.
  cbn [holds produces consumes]. destruct ((r' =? r) && (p' =? p)) eqn:E.
  - apply eqb_pair in E. split; [discriminate | tauto].
  - split; [|tauto]. intros X. split; [|exact X]. intros Y. apply eqb_pair in Y. congruence.
Qed.
Lemma holds_other c H r p : other c -> holds (c :: H) r p = holds H r p.
Proof. intros O. destruct c; try contradiction; reflexivity. Qed.

Lemma made_grows c H r : made H r <> None -> made (c :: H) r <> None.
Proof. intros M. cbn [made]. destruct (creates c r); [discriminate | exact M]. Qed.

Lemma false_iff (b : bool) : b = false <-> ~ b = true.
Proof. destruct b; intuition congruence. Qed.

Lemma inv_first : TInv t_init.
Proof.
  constructor; cbn; try discriminate; try contradiction; try tauto.
  - intros r p. split; [contradiction|]. intros [X|[t []]]. discriminate.
Qed.

(** A record of a call that is neither an allocation nor a deallocation of what is live. *)
Lemma inv_quiet s t c : TInv s -> t_phase s t = Idle -> may_follow (calls_of s) c ->
  (forall r p, holds (c :: calls_of s) r p = holds (calls_of s) r p) ->
  TInv {| t_heap := t_heap s; t_owned := t_owned s; t_phase := t_phase s;
          t_calls := at_ t (c :: t_calls s t) (t_calls s); t_log := (t, c) :: t_log s |}.
Proof.
  intros I Ph M Hh. constructor; cbn [calls_of t_heap t_owned t_phase t_calls t_log map snd]; fold (calls_of s);
    intros; rewrite ?Hh in *.
  - split; [apply I | exact M].
  - apply I.
  - eapply (v_free _ I); eassumption.
  - eapply (v_one _ I); eassumption.
  - apply I. assumption.
  - destruct (v_got _ I _ _ _ _ H) as [A B]. split; [apply made_grows, A | exact B].
  - destruct (v_pos _ I _ _ H) as [A B]. split; [apply made_grows, A | exact B].
  - cbn [part]. destruct (Nat.eqb_spec t t0) as [->|N].
    + rewrite at_same, (v_part _ I t0), Ph. reflexivity.
    + rewrite at_other by congruence. apply I.
Qed.

Lemma inv_step s s' : TInv s -> tstep s s' -> TInv s'.
Proof.
  intros I St. destruct St as [s t r n q Ph Hm Hq Hn|s t r n q Ph|s t r p Ph Ho|s t r p Ph|s t r Ph Hm|s t c Ph Oc Mc].
  - (* the strategy allocates *)
    assert (Hf : holds (calls_of s) r q = false /\ forall u, ~ about (t_phase s u) r q).
    { split; [apply false_iff; intros X; apply Hn, (v_heap _ I); tauto|].
      intros u X. apply Hn, (v_heap _ I). right. exists u. exact X. }
    destruct Hf as [Hf Hu].
    assert (Ab : forall u r' p', about (at_ t (Got r n q) (t_phase s) u) r' p' <->
        (u = t /\ r' = r /\ p' = q) \/ (u <> t /\ about (t_phase s u) r' p')).
    { intros u r' p'. destruct (Nat.eq_dec u t) as [->|N]; [rewrite at_same | rewrite at_other by exact N]; cbn [about]; tauto. }
    constructor; cbn [t_heap t_owned t_phase t_calls t_log]; change (calls_of {| t_heap := _; t_log := t_log s |}) with (calls_of s).
    + apply I.
    + intros r' p'. cbn [In]. rewrite (v_heap _ I). split.
      * intros [E|[Hh|[u Hu']]]; [injection E as <- <-; right; exists t; apply Ab; tauto | tauto |].
        right. exists u. apply Ab. right. split; [|exact Hu']. intros ->. rewrite Ph in Hu'. exact Hu'.
      * intros [Hh|[u Hu']]; [tauto|]. apply Ab in Hu'. destruct Hu' as [(-> & -> & ->)|[_ Hu']]; [tauto|].
        right. right. exists u. exact Hu'.
    + intros u r' p' X. apply Ab in X. destruct X as [(-> & -> & ->)|[_ X]]; [exact Hf | eapply (v_free _ I); exact X].
    + intros u v r' p' X Y. apply Ab in X. apply Ab in Y.
      destruct X as [(-> & -> & ->)|[_ X]], Y as [(Ev & Er & Ep)|[_ Y]]; subst.
      * reflexivity.
      * exfalso. apply (Hu v Y).
      * exfalso. apply (Hu u X).
      * eapply (v_one _ I); eassumption.
    + apply I.
    + intros u r' n' q'. destruct (Nat.eq_dec u t) as [->|N]; [rewrite at_same | rewrite at_other by exact N].
      * intros E. injection E as <- <- <-. tauto.
      * apply I.
    + apply I.
    + intros u. destruct (Nat.eq_dec u t) as [->|N]; [rewrite !at_same | rewrite !at_other by exact N; apply I].
      cbn [unlogged app]. rewrite (v_part _ I t), Ph. reflexivity.
  - (* the allocation is recorded *)
    destruct (v_got _ I _ _ _ _ Ph) as [Hm Hq].
    assert (Hf : holds (calls_of s) r q = false) by (apply (v_free _ I t); rewrite Ph; cbn; tauto).
    assert (Only : forall u, about (t_phase s u) r q -> u = t).
    { intros u X. apply (v_one _ I u t r q X). rewrite Ph. cbn. tauto. }
    assert (Ab : forall u r' p', about (at_ t Idle (t_phase s) u) r' p' <-> u <> t /\ about (t_phase s u) r' p').
    { intros u r' p'. destruct (Nat.eq_dec u t) as [->|N]; [rewrite at_same | rewrite at_other by exact N]; cbn [about]; tauto. }
    constructor; cbn [t_heap t_owned t_phase t_calls t_log calls_of map snd]; fold (calls_of s).
    + split; [apply I|]. cbn [may_follow]. tauto.
    + intros r' p'. rewrite (v_heap _ I), holds_alloc. split.
      * intros [Hh|[u X]]; [tauto|]. destruct (Nat.eq_dec u t) as [->|N].
        -- rewrite Ph in X. cbn in X. destruct X as [-> ->]. tauto.
        -- right. exists u. apply Ab. tauto.
      * intros [[E|Hh]|[u X]]; [injection E as -> -> | tauto |].
        -- right. exists t. rewrite Ph. cbn. tauto.
        -- apply Ab in X. right. exists u. tauto.
    + intros u r' p' X. apply Ab in X. destruct X as [N X]. apply false_iff. rewrite holds_alloc. intros [E|Hh].
      * injection E as -> ->. apply N, Only, X.
      * rewrite (v_free _ I _ _ _ X) in Hh. discriminate.
    + intros u v r' p' X Y. apply Ab in X. apply Ab in Y. eapply (v_one _ I); [apply X | apply Y].
    + intros r' p' [E|X]; rewrite holds_alloc; [left; congruence | right; apply I, X].
    + intros u r' n' q'. destruct (Nat.eq_dec u t) as [->|N]; [rewrite at_same; discriminate | rewrite at_other by exact N].
      intros X. destruct (v_got _ I _ _ _ _ X). split; [apply made_grows|]; assumption.
    + intros r' p' X. apply holds_alloc in X. destruct X as [E|X].
      * injection E as -> ->. split; [apply made_grows|]; assumption.
      * destruct (v_pos _ I _ _ X). split; [apply made_grows|]; assumption.
    + intros u. cbn [part]. rewrite (v_part _ I u). destruct (Nat.eq_dec u t) as [->|N].
      * rewrite at_same, Ph, Nat.eqb_refl. reflexivity.
      * rewrite at_other by exact N. destruct (Nat.eqb_spec t u); [congruence | reflexivity].
  - (* the deallocation is recorded *)
    assert (Hh := v_owned _ I _ _ Ho). destruct (v_pos _ I _ _ Hh) as [Hm Hp].
    assert (Nob : forall u, ~ about (t_phase s u) r p) by (intros u X; rewrite (v_free _ I _ _ _ X) in Hh; discriminate).
    assert (Ab : forall u r' p', about (at_ t (Said r p) (t_phase s) u) r' p' <->
        (u = t /\ r' = r /\ p' = p) \/ about (t_phase s u) r' p').
    { intros u r' p'. destruct (Nat.eq_dec u t) as [->|N]; [rewrite at_same, Ph | rewrite at_other by exact N]; cbn [about]; tauto. }
    constructor; cbn [t_heap t_owned t_phase t_calls t_log calls_of map snd]; fold (calls_of s).
    + split; [apply I|]. cbn [may_follow]. split; [exact Hm | lia].
    + intros r' p'. rewrite (v_heap _ I), holds_free. split.
      * intros [X|[u X]]; [|right; exists u; apply Ab; tauto].
        destruct (pair_dec r' p' r p) as [E|N]; [|tauto]. injection E as -> ->. right. exists t. apply Ab. tauto.
      * intros [[_ X]|[u X]]; [tauto|]. apply Ab in X. destruct X as [(_ & -> & ->)|X]; [tauto | right; exists u; exact X].
    + intros u r' p' X. apply false_iff. rewrite holds_free. intros [N Y]. apply Ab in X. destruct X as [(_ & -> & ->)|X]; [congruence|].
      rewrite (v_free _ I _ _ _ X) in Y. discriminate.
    + intros u v r' p' X Y. apply Ab in X. apply Ab in Y.
      destruct X as [(-> & -> & ->)|X], Y as [(Ev & Er & Ep)|Y]; subst.
      * reflexivity.
      * exfalso. apply (Nob v Y).
      * exfalso. apply (Nob u X).
      * eapply (v_one _ I); eassumption.
    + intros r' p' X. apply in_without in X. rewrite holds_free. split; [apply X | apply I, X].
    + intros u r' n' q'. destruct (Nat.eq_dec u t) as [->|N]; [rewrite at_same; discriminate | rewrite at_other by exact N].
      intros X. destruct (v_got _ I _ _ _ _ X). split; [apply made_grows|]; assumption.
    + intros r' p' X. apply holds_free in X. destruct (v_pos _ I _ _ (proj2 X)). split; [apply made_grows|]; assumption.
    + intros u. cbn [part]. destruct (Nat.eq_dec u t) as [->|N].
      * rewrite !at_same, Nat.eqb_refl, (v_part _ I t), Ph. reflexivity.
      * rewrite !at_other by exact N. rewrite (v_part _ I u). destruct (Nat.eqb_spec t u); [congruence | reflexivity].
  - (* the strategy deallocates *)
    assert (Hf : holds (calls_of s) r p = false) by (apply (v_free _ I t); rewrite Ph; cbn; tauto).
    assert (Only : forall u, about (t_phase s u) r p -> u = t).
    { intros u X. apply (v_one _ I u t r p X). rewrite Ph. cbn. tauto. }
    assert (Ab : forall u r' p', about (at_ t Idle (t_phase s) u) r' p' <-> u <> t /\ about (t_phase s u) r' p').
    { intros u r' p'. destruct (Nat.eq_dec u t) as [->|N]; [rewrite at_same | rewrite at_other by exact N]; cbn [about]; tauto. }
    constructor; cbn [t_heap t_owned t_phase t_calls t_log]; change (calls_of {| t_heap := _; t_log := t_log s |}) with (calls_of s).
    + apply I.
    + intros r' p'. rewrite in_without, (v_heap _ I). split.
      * intros [[Hh|[u X]] N]; [tauto|]. right. exists u. apply Ab. split; [|exact X].
        intros ->. rewrite Ph in X. cbn in X. destruct X as [-> ->]. congruence.
      * intros [Hh|[u X]].
        -- split; [tauto|]. intros E. injection E as -> ->. congruence.
        -- apply Ab in X. split; [right; exists u; tauto|]. intros E. injection E as -> ->. apply X, Only, X.
    + intros u r' p' X. apply Ab in X. eapply (v_free _ I), X.
    + intros u v r' p' X Y. apply Ab in X. apply Ab in Y. eapply (v_one _ I); [apply X | apply Y].
    + apply I.
    + intros u r' n' q'. destruct (Nat.eq_dec u t) as [->|N]; [rewrite at_same; discriminate | rewrite at_other by exact N; apply I].
    + apply I.
    + intros u. rewrite (v_part _ I u). destruct (Nat.eq_dec u t) as [->|N]; [rewrite at_same, Ph | rewrite at_other by exact N]; reflexivity.
  - (* null *)
    apply inv_quiet; [exact I | exact Ph | cbn [may_follow]; split; [exact Hm | lia]|].
    intros r' p'. cbn [holds produces consumes]. destruct ((r' =? r) && (p' =? 0)) eqn:E; [|reflexivity].
    apply eqb_pair in E. injection E as -> ->. symmetry. apply false_iff. intros X. destruct (v_pos _ I _ _ X). lia.
  - apply inv_quiet; [exact I | exact Ph | exact Mc | intros; apply holds_other, Oc].
Qed.

Lemma inv_all s : treach s -> TInv s.
Proof. induction 1 as [|s s' R IH St]; [exact inv_first | exact (inv_step s s' IH St)]. Qed.

Lemma log_program s : treach s -> program (calls_of s).
Proof. intros R. apply (inv_all s R). Qed.

Lemma about_busy s r p : (exists t, about (t_phase s t) r p) <-> busy s r p.
Proof.
  split; intros [t X]; exists t.
  - destruct (t_phase s t) as [|r' n' p'|r' p']; cbn in X; [contradiction| |]; destruct X as [-> ->]; [left; exists n'; reflexivity | right; reflexivity].
  - destruct X as [[n ->]| ->]; cbn; tauto.
Qed.

Lemma log_live s r p : treach s ->
  (In (r, p) (t_heap s) <-> holds (calls_of s) r p = true \/ busy s r p) /\
  ~ (holds (calls_of s) r p = true /\ busy s r p).
Proof.
  intros R. assert (I := inv_all s R). split.
  - rewrite (v_heap _ I), about_busy. reflexivity.
  - intros [Hh B]. apply about_busy in B. destruct B as [t X]. rewrite (v_free _ I _ _ _ X) in Hh. discriminate.
Qed.

Lemma log_owned s r p : treach s -> In (r, p) (t_owned s) -> holds (calls_of s) r p = true.
Proof. intros R. apply (inv_all s R). Qed.

Lemma log_part s t : treach s -> t_calls s t = (unlogged (t_phase s t) ++ part t (t_log s))%list.
Proof. intros R. apply (inv_all s R). Qed.

Lemma log_replayed s ds dn tss : treach s ->
  exists cs, build (file_size ds dn (records (calls_of s)) tss) (records (calls_of s)) = Ok cs tt /\
    forall W (lib : rcall -> W -> outcome W Z) ptrs w, orderly lib -> ptrs 0 = None ->
      (exists rs f, run_all lib cs ptrs w = Ok rs tt /\ mirrors (calls_of s) (r_log rs) f) \/
      (exists rs e H1 H0 f, run_all lib cs ptrs w = Throw rs e /\ calls_of s = (H1 ++ H0)%list /\ mirrors H0 (r_log rs) f).
Proof. intros R. apply replay_mirrors, log_program, R. Qed.

Local Open Scope string_scope.
Local Open Scope Z_scope.
(** One more step of a state reached. *)
Ltac go R tac := let R' := fresh in eassert (R' : treach _) by (eapply tr_step; [exact R | tac]); vm_compute in R'; clear R; rename R' into R.

Lemma instant : exists s r p, treach s /\ In (r, p) (t_heap s) /\ holds (calls_of s) r p = false.
Proof.
  pose proof tr_init as R.
  go R ltac:(apply (ts_other _ 0%nat (PMakeRes 0x5000 "HOST")); [reflexivity | exact I | vm_compute; repeat split; congruence]).
  go R ltac:(apply (ts_take _ 2%nat 0x5000 16 0x340); [reflexivity | vm_compute; discriminate | lia | vm_compute; intuition discriminate]).
  go R ltac:(apply (ts_log _ 2%nat 0x5000 16 0x340); reflexivity).
  go R ltac:(apply (ts_say _ 2%nat 0x5000 0x340); [reflexivity | left; reflexivity]).
  eexists _, 0x5000, 0x340. split; [exact R|]. vm_compute. split; [left|]; reflexivity.
Qed.
