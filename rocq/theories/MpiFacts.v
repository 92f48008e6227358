(** Facts about parallel programs. *)
From Verif Require Import Base BaseFacts MpiModel MpiSpec.

Section Process.
  Context (rank_of size_of : Z -> Z).

  Lemma m_after_init wm o s : m_init s = true -> m_init (m_after wm rank_of size_of o s) = true.
  Proof.
    intros H. destruct o as [up c|up c|]; unfold m_after, m_do, u_initialize, mpi_initialize, mpi_finalize; rewrite ?H; auto.
    - destruct (m_called s); cbn [bind]; auto.
    - destruct wm; auto.
  Qed.
  Lemma m_after_same o s : m_init s = true -> let s' := m_after true rank_of size_of o s in m_rank s' = m_rank s /\ m_size s' = m_size s /\ m_comm s' = m_comm s.
  Proof.
    intros H. destruct o as [up c|up c|]; unfold m_after, m_do, u_initialize, mpi_initialize, mpi_finalize; rewrite ?H; auto.
    destruct (m_called s); cbn [bind]; auto.
  Qed.
  Lemma m_run_same l s : m_init s = true -> let s' := m_run true rank_of size_of l s in
    m_init s' = true /\ m_rank s' = m_rank s /\ m_size s' = m_size s /\ m_comm s' = m_comm s.
  Proof.
    cbv zeta. unfold m_run. revert s. induction l as [|o l IH]; intros s H; cbn [fold_left]; auto. destruct (m_after_same o s H) as (H1 & H2 & H3).
    pose proof (m_after_init true o s H) as H0. destruct (IH _ H0) as (H4 & H5 & H6 & H7). repeat split; congruence.
  Qed.

  Lemma first_wins l1 l2 c s1 s : m_run true rank_of size_of l1 m_start = s1 -> m_init s1 = false ->
    (m_run true rank_of size_of (l1 ++ MInitialize true c :: l2) m_start = s \/ m_called s1 = false /\ m_run true rank_of size_of (l1 ++ UInitialize true c :: l2) m_start = s) ->
    m_init s = true /\ m_rank s = rank_of c /\ m_size s = size_of c /\ mpi_sync true s = Ok s (Some c).
  Proof.
    intros E1 N H.
    assert (K : forall s2, m_init s2 = true /\ m_rank s2 = rank_of c /\ m_size s2 = size_of c /\ m_comm s2 = c -> m_run true rank_of size_of l2 s2 = s ->
      m_init s = true /\ m_rank s = rank_of c /\ m_size s = size_of c /\ mpi_sync true s = Ok s (Some c)).
    { intros s2 (A & B & C & D) E. destruct (m_run_same l2 s2 A) as (A' & B' & C' & D'). rewrite E in *. unfold mpi_sync. rewrite A'. repeat split; congruence. }
    unfold m_run in *. rewrite !fold_left_app in H. cbn [fold_left] in H. rewrite E1 in H. destruct H as [H|[C H]].
    - apply (K _) in H; [exact H|]. unfold m_after, m_do, mpi_initialize. rewrite N. cbn. auto.
    - apply (K _) in H; [exact H|]. unfold m_after, m_do, u_initialize, mpi_initialize. rewrite C, N. cbn. auto.
  Qed.
  Lemma alone_after l : forall s, m_init s = true ->
    m_init (m_run false rank_of size_of l s) = true /\
    (In MFinalize l -> m_rank (m_run false rank_of size_of l s) = -1 /\ m_size (m_run false rank_of size_of l s) = -1) /\
    (~ In MFinalize l -> m_rank (m_run false rank_of size_of l s) = m_rank s /\ m_size (m_run false rank_of size_of l s) = m_size s).
  Proof.
    induction l as [|o l IH]; intros s H; [cbn; intuition|]. unfold m_run in *. cbn [fold_left].
    assert (X : m_init (m_after false rank_of size_of o s) = true /\
      (m_rank (m_after false rank_of size_of o s), m_size (m_after false rank_of size_of o s)) = match o with MFinalize => (-1, -1) | _ => (m_rank s, m_size s) end).
    { unfold m_after, m_do, u_initialize, mpi_initialize, mpi_finalize. destruct o; rewrite H; [auto|destruct (m_called s); cbn; auto|cbn; auto]. }
    destruct X as [X1 X2]. destruct (IH _ X1) as (A & B & C). split; [exact A|].
    assert (D : In MFinalize l \/ ~ In MFinalize l).
    { clear. induction l as [|o l IH]; [now right|]. destruct o; try (now left; left). all: destruct IH as [I|I]; [left; now right|right; intros [D|D]; [discriminate|contradiction]]. }
    split.
    - intros [-> |I]; [|now apply B]. injection X2 as X2 X3. destruct D as [D|D]; [now apply B|]. destruct (C D) as [C1 C2]. split; congruence.
    - intros N. assert (N1 : o <> MFinalize) by (intros ->; apply N; now left). assert (N2 : ~ In MFinalize l) by (intros I; apply N; now right).
      destruct (C N2) as [C1 C2]. destruct o; try contradiction; injection X2 as X2 X3; split; congruence.
  Qed.

  Lemma alone l1 o l2 s : Forall (eq MFinalize) l1 -> o <> MFinalize -> m_run false rank_of size_of (l1 ++ o :: l2) m_start = s ->
    m_init s = true /\ (In MFinalize l2 -> m_rank s = -1 /\ m_size s = -1) /\ (~ In MFinalize l2 -> m_rank s = 0 /\ m_size s = 1) /\
    mpi_sync false s = Ok s None.
  Proof.
    intros F N E. assert (S : m_run false rank_of size_of l1 m_start = m_start) by (clear E; unfold m_run; induction F as [|x l1 <- F IH]; [reflexivity|exact IH]).
    unfold m_run in *. rewrite fold_left_app in E. rewrite S in E. cbn [fold_left] in E.
    assert (X : m_init (m_after false rank_of size_of o m_start) = true /\ m_rank (m_after false rank_of size_of o m_start) = 0 /\ m_size (m_after false rank_of size_of o m_start) = 1)
      by (destruct o; try contradiction; cbn; auto).
    destruct X as (X1 & X2 & X3). destruct (alone_after l2 _ X1) as (A & B & C). unfold m_run in *. rewrite E in *. rewrite X2, X3 in C.
    unfold mpi_sync. rewrite A. auto.
  Qed.
End Process.

Section Cache.
  Context (split : Z -> nat -> Z) (node : Z -> bool).

  Lemma cached id comm s : c_cache (fst (get_communicator split node id comm s)) id = Some (snd (get_communicator split node id comm s)).
  Proof. unfold get_communicator. destruct (c_cache s id) eqn:E; [exact E|]. destruct (node id); cbn; unfold fset; now rewrite Z.eqb_refl. Qed.
  Lemma cached_other id id' comm s : id <> id' -> c_cache (fst (get_communicator split node id comm s)) id' = c_cache s id'.
  Proof.
    intros N. unfold get_communicator. destruct (c_cache s id); [reflexivity|]. destruct (node id); cbn; unfold fset; destruct (Z.eqb_spec id' id); congruence.
  Qed.
  Lemma cached_stays l s i id comm c : c_cache s id = Some c -> nth_error l i = Some (id, comm) -> nth_error (ask_comms split node l s) i = Some c.
  Proof.
    revert s i. induction l as [|[v e] l IH]; intros s i E N; [destruct i; discriminate|]. cbn [ask_comms].
    destruct (get_communicator split node v e s) as [s' c'] eqn:G. destruct i as [|i]; cbn in *.
    - injection N as -> ->. unfold get_communicator in G. rewrite E in G. now injection G as _ <-.
    - apply IH; [|exact N]. destruct (Z.eq_dec v id) as [->|Nv].
      + unfold get_communicator in G. rewrite E in G. now injection G as <- _.
      + replace s' with (fst (get_communicator split node v e s)) by now rewrite G. now rewrite cached_other.
  Qed.
  Lemma comm_first l i j id comm comm' : nth_error l i = Some (id, comm) -> (forall k e, (k < i)%nat -> nth_error l k = Some (id, e) -> False) ->
    (i <= j)%nat -> nth_error l j = Some (id, comm') ->
    exists c, nth_error (ask_comms split node l (mkComms fempty 0)) j = Some c /\ (node id = false -> c = COMM_NULL) /\ (node id = true -> exists k, (k <= i)%nat /\ c = split comm k).
  Proof.
    enough (G : forall s, c_cache s id = None -> nth_error l i = Some (id, comm) -> (forall k e, (k < i)%nat -> nth_error l k = Some (id, e) -> False) ->
      (i <= j)%nat -> nth_error l j = Some (id, comm') ->
      exists c, nth_error (ask_comms split node l s) j = Some c /\ (node id = false -> c = COMM_NULL) /\ (node id = true -> exists k, (k <= c_splits s + i)%nat /\ c = split comm k))
      by (intros; now apply (G (mkComms fempty 0))).
    revert i j. induction l as [|[v e] l IH]; intros i j s E Ni F L Nj; [destruct i; discriminate|]. cbn [ask_comms].
    destruct (get_communicator split node v e s) as [s' c'] eqn:G. destruct i as [|i].
    - cbn in Ni. injection Ni as -> ->. pose proof (cached id comm s) as Q. rewrite G in Q. cbn in Q. exists c'. split.
      + destruct j as [|j]; [reflexivity|]. cbn in *. now apply (cached_stays l s' j id comm').
      + unfold get_communicator in G. rewrite E in G. destruct (node id); injection G as <- <-; split; try discriminate; auto. intros _. exists (c_splits s). split; [lia|reflexivity].
    - destruct j as [|j]; [lia|]. cbn [nth_error] in *. assert (Nv : v <> id) by (intros ->; apply (F 0%nat e); [lia|reflexivity]).
      assert (Hs : (c_splits s' <= S (c_splits s))%nat).
      { unfold get_communicator in G. destruct (c_cache s v); [injection G as <- _; lia|]. destruct (node v); injection G as <- _; cbn; lia. }
      destruct (IH i j s') as (c & A & B & C); auto; [|intros k e' Hk Nk; apply (F (S k) e'); [lia|exact Nk]|lia|].
      + replace s' with (fst (get_communicator split node v e s)) by now rewrite G. now rewrite cached_other.
      + exists c. split; [exact A|]. split; [exact B|]. intros Hn. destruct (C Hn) as (k & Hk & ->). exists k. split; [lia|reflexivity].
  Qed.
End Cache.

Section Start.
  Context (n : Z) (log fails : bool).
  Local Notation step := (t_step n log fails).
  Local Notation run := (t_run n log fails).

  Lemma run_app a b g : run (a ++ b) g = run b (run a g).
  Proof. unfold t_run. apply fold_left_app. Qed.
  Lemma run_ind (J : start -> Prop) l g : (forall r x, In r l -> J x -> J (step r x)) -> J g -> J (run l g).
  Proof.
    revert g. induction l as [|r l IH]; intros g S G; [exact G|]. cbn. apply IH; [intros q x Hq; apply S; now right|]. apply S; [now left|exact G].
  Qed.

  Lemma arrived_all g : all_arrived n g = true <-> forall r, 0 <= r < n -> arrived (t_at g r) = true.
  Proof.
    unfold all_arrived. rewrite forallb_forall. split.
    - intros H r Hr. specialize (H (Z.to_nat r)). rewrite Z2Nat.id in H by lia. apply H. apply in_seq. lia.
    - intros H i Hi. apply in_seq in Hi. apply H. lia.
  Qed.

  Lemma go_self g r s : t_at (go g r s) r = s.
  Proof. cbn. now rewrite Z.eqb_refl. Qed.
  Lemma go_other g r q s : q <> r -> t_at (go g r s) q = t_at g q.
  Proof. intros N. cbn. destruct (Z.eqb_spec q r); [contradiction|reflexivity]. Qed.
  Lemma step_other r q g : q <> r -> t_at (step r g) q = t_at g q.
  Proof.
    intros N. unfold t_step. destruct (t_at g r); auto.
    - destruct (t_dir g); [now apply go_other|]. destruct (r =? 0); now apply go_other.
    - destruct (negb (t_dir g) && log); [destruct fails|]; now rewrite go_other.
    - destruct (all_arrived n g); [now apply go_other|reflexivity].
  Qed.

  (** Who has left for good does not come back. *)
  Lemma step_final r q g s : s = Skipped \/ s = Threw -> t_at g q = s -> t_at (step r g) q = s.
  Proof.
    intros Hs E. destruct (Z.eq_dec q r) as [->|N]; [|now rewrite step_other]. unfold t_step. rewrite E. destruct Hs as [-> | ->]; exact E.
  Qed.

  Lemma missed g q r : 0 <= r < n -> t_at g r = Skipped \/ t_at g r = Threw -> t_at g q = Make \/ t_at g q = Barrier -> never n log fails g q.
  Proof.
    intros Hr Sr Sq l.
    assert (J : (t_at (run l g) r = Skipped \/ t_at (run l g) r = Threw) /\ (t_at (run l g) q = Make \/ t_at (run l g) q = Barrier \/ t_at (run l g) q = Threw)).
    { apply (run_ind (fun x => (t_at x r = Skipped \/ t_at x r = Threw) /\ (t_at x q = Make \/ t_at x q = Barrier \/ t_at x q = Threw))); [|tauto].
      intros p x _ [A B]. split; [destruct A as [A|A]; [left|right]; apply step_final; auto|].
      destruct (Z.eq_dec q p) as [->|N]; [|now rewrite step_other]. unfold t_step. destruct B as [B|[B|B]]; rewrite B.
      - destruct (negb (t_dir x) && log); [destruct fails|]; rewrite go_self; auto.
      - destruct (all_arrived n x) eqn:Al; [|auto]. pose proof (proj1 (arrived_all x) Al r Hr) as X. destruct A as [A|A]; rewrite A in X; discriminate.
      - auto. }
    destruct J as [_ J]. intros [X|X]; rewrite X in J; intuition discriminate.
  Qed.

  (** Invariant of the processes that started without the directory. *)
  Definition sound (g : start) : Prop :=
    (forall r, (t_at g r = Make \/ t_at g r = Threw) -> r = 0) /\
    (forall r, t_at g r = Passed -> forall q, 0 <= q < n -> arrived (t_at g q) = true) /\
    (t_dir g = false -> forall r, t_at g r <> Skipped) /\
    (arrived (t_at g 0) = true -> log = true -> t_dir g = true) /\
    (t_dir g = true -> log = true /\ fails = false) /\
    (t_at g 0 = Threw -> log = true /\ fails = true).

  Lemma step_arrived r q g : arrived (t_at g q) = true -> arrived (t_at (step r g) q) = true.
  Proof.
    intros A. destruct (Z.eq_dec q r) as [->|N]; [|now rewrite step_other]. unfold t_step. destruct (t_at g r) eqn:E; try discriminate; [|now rewrite E].
    destruct (all_arrived n g); [now rewrite go_self|now rewrite E].
  Qed.

  Lemma step_sound r g : 0 <= r < n -> sound g -> sound (step r g).
  Proof.
    intros Hr (A & B & C & D & E & F).
    assert (B' : forall q, t_at (step r g) q = Passed -> forall q', 0 <= q' < n -> arrived (t_at (step r g) q') = true).
    { intros q Hq q' Hq'. apply step_arrived. destruct (Z.eq_dec q r) as [->|N]; [|rewrite step_other in Hq by exact N; now apply (B q)].
      unfold t_step in Hq. destruct (t_at g r) eqn:Er; try (rewrite Er in Hq; discriminate).
      - destruct (t_dir g); [|destruct (r =? 0)]; rewrite go_self in Hq; discriminate.
      - destruct (negb (t_dir g) && log); [destruct fails|]; rewrite go_self in Hq; discriminate.
      - destruct (all_arrived n g) eqn:Al; [|rewrite Er in Hq; discriminate]. now apply (proj1 (arrived_all g) Al).
      - now apply (B r Er). }
    unfold sound. split; [|split; [exact B'|clear B']].
    - intros q Hq. destruct (Z.eq_dec q r) as [->|N]; [|rewrite step_other in Hq by exact N; now apply A].
      unfold t_step in Hq. destruct (t_at g r) eqn:Er; try (apply A; rewrite Er; auto; fail); try (rewrite Er in Hq; intuition discriminate).
      + destruct (t_dir g); [rewrite go_self in Hq; intuition discriminate|]. destruct (Z.eqb_spec r 0); [assumption|rewrite go_self in Hq; intuition discriminate].
      + destruct (all_arrived n g); [rewrite go_self in Hq|rewrite Er in Hq]; intuition discriminate.
    - unfold t_step. destruct (t_at g r) eqn:Er; auto.
      + (* Check *) destruct (t_dir g) eqn:Ed.
        * cbn [go t_dir t_at arrived]. rewrite Ed. split; [discriminate|]. split; [reflexivity|]. split; [intros _; now apply E|]. destruct (0 =? r); [discriminate|exact F].
        * destruct (Z.eqb_spec r 0) as [->|N0]; cbn [go t_dir t_at arrived]; rewrite Ed; repeat split; auto; try discriminate.
          -- intros _ q. destruct (q =? 0); [discriminate|now apply C].
          -- intros _ q. destruct (Z.eqb_spec q r); [discriminate|now apply C].
          -- destruct (Z.eqb_spec 0 r); [congruence|]. intros Ha Hl. specialize (D Ha Hl). congruence.
          -- destruct (Z.eqb_spec 0 r); [congruence|now apply F].
          -- destruct (Z.eqb_spec 0 r); [congruence|now apply F].
      + (* Make *) assert (r = 0) as -> by (apply A; auto).
        destruct (negb (t_dir g)) eqn:Ed; cbn [andb].
        * apply negb_true_iff in Ed. destruct log eqn:El; [destruct fails eqn:Ef|].
          -- cbn [go t_dir t_at arrived]. rewrite Ed. repeat split; auto; try discriminate. intros _ q. destruct (q =? 0); [discriminate|now apply C].
          -- cbn [go t_dir t_at arrived]. repeat split; auto; try discriminate.
          -- cbn [go t_dir t_at arrived]. rewrite Ed. repeat split; auto; try discriminate. intros _ q. destruct (q =? 0); [discriminate|now apply C].
        * apply negb_false_iff in Ed. cbn [go t_dir t_at arrived]. rewrite Ed. repeat split; auto; try discriminate; try now apply E.
      + (* Barrier *) destruct (all_arrived n g) eqn:Al; [|auto]. cbn [go t_dir t_at arrived]. repeat split; auto; try (now apply E).
        * intros Ed q. destruct (q =? r); [discriminate|now apply C].
        * intros Ha Hl. apply D; [|exact Hl]. destruct (Z.eqb_spec 0 r) as [<-|]; [now rewrite Er|exact Ha].
        * destruct (0 =? r); [discriminate|now apply F].
        * destruct (0 =? r); [discriminate|now apply F].
  Qed.

  Lemma run_sound l : schedule n l -> sound (run l (t_init false)).
  Proof.
    intros S. apply run_ind; [intros r x Hr; apply step_sound; now apply S|].
    unfold sound, t_init. cbn. repeat split; intros; auto; try discriminate; intuition discriminate.
  Qed.

  (** A property of one process that stays once it has had a turn in the right circumstances. *)
  Lemma turn (J K : start -> Prop) r l g : (forall x q, In q l -> J x -> J (step q x)) -> (forall x, J x -> K (step r x)) -> (forall x q, In q l -> J x -> K x -> K (step q x)) ->
    J g -> (1 <= length (filter (Z.eqb r) l))%nat -> K (run l g).
  Proof.
    intros HJ HK HS. revert g. induction l as [|q l IH]; intros g G T; [cbn in T; lia|]. cbn [t_run fold_left]. fold (run l (step q g)).
    assert (P : forall x, J x -> K x -> K (run l x)).
    { intros x Jx Kx. assert (X : J (run l x) /\ K (run l x)); [|tauto]. apply (run_ind (fun x => J x /\ K x)); [|auto]. intros p y Hp [Jy Ky]. split; [apply HJ|apply HS]; auto; now right. }
    cbn in T. destruct (Z.eqb_spec r q) as [->|N].
    - apply P; [apply HJ; [now left|exact G]|now apply HK].
    - apply IH; [intros x p Hp; apply HJ; now right|intros x p Hp; apply HS; now right|apply HJ; [now left|exact G]|exact T].
  Qed.

  (** Everybody at the barrier or about to be: all pass. *)
  Definition close (g : start) : Prop := forall r, 0 <= r < n -> t_at g r = Make \/ arrived (t_at g r) = true.
  Lemma close_step r g : (log = true -> fails = false) -> close g -> close (step r g).
  Proof.
    intros Hf C q Hq. destruct (Z.eq_dec q r) as [->|N]; [|rewrite step_other by exact N; now apply C].
    right. destruct (C r Hq) as [M|A]; [|now apply step_arrived]. unfold t_step. rewrite M.
    destruct (negb (t_dir g)); cbn [andb]; [|now rewrite go_self]. destruct log; [rewrite Hf by reflexivity|]; now rewrite go_self.
  Qed.

  Lemma meet g l1 l2 : (log = true -> fails = false) -> close g -> fair n 1 l1 -> fair n 1 l2 -> forall r, 0 <= r < n -> t_at (run (l1 ++ l2) g) r = Passed.
  Proof.
    intros Hf C F1 F2 r Hr. rewrite run_app.
    assert (A : forall q, 0 <= q < n -> arrived (t_at (run l1 g) q) = true).
    { intros q Hq. apply (turn (fun x => close x) (fun x => arrived (t_at x q) = true) q l1 g); auto.
      - intros x p _. now apply close_step.
      - intros x Cx. destruct (Cx q Hq) as [M|A]; [|now apply step_arrived]. unfold t_step. rewrite M.
        destruct (negb (t_dir x)); cbn [andb]; [|now rewrite go_self]. destruct log; [rewrite Hf by reflexivity|]; now rewrite go_self.
      - intros x p _ _. apply step_arrived. }
    apply (turn (fun x => forall q, 0 <= q < n -> arrived (t_at x q) = true) (fun x => t_at x r = Passed) r l2); auto.
    - intros x p _ Ax q Hq. apply step_arrived. now apply Ax.
    - intros x Ax. unfold t_step. pose proof (Ax r Hr) as Ar. destruct (t_at x r) eqn:E; try discriminate; [|exact E].
      rewrite (proj2 (arrived_all x) Ax). apply go_self.
    - intros x p _ _ E. destruct (Z.eq_dec r p) as [->|N]; [unfold t_step; now rewrite E|now rewrite step_other].
  Qed.

  Lemma met l0 l1 l2 : schedule n l0 -> (log = true -> fails = false) -> (forall r, 0 <= r < n -> t_at (run l0 (t_init false)) r <> Check /\ t_at (run l0 (t_init false)) r <> Skipped) ->
    fair n 1 l1 -> fair n 1 l2 -> forall r, 0 <= r < n -> t_at (run (l0 ++ l1 ++ l2) (t_init false)) r = Passed.
  Proof.
    intros S Hf H F1 F2 r Hr. rewrite run_app. apply meet; auto. intros q Hq. destruct (H q Hq) as [H1 H2]. destruct (run_sound l0 S) as (A & _ & _ & _ & _ & T).
    destruct (t_at (run l0 (t_init false)) q) eqn:E; auto; try contradiction. exfalso.
    assert (q = 0) as -> by (apply A; auto). destruct (T E) as [Hl Ht]. rewrite (Hf Hl) in Ht. discriminate.
  Qed.

  Lemma silent l0 l1 l2 : log = false -> schedule n l0 -> fair n 1 l0 -> fair n 1 l1 -> fair n 1 l2 -> forall r, 0 <= r < n -> t_at (run (l0 ++ l1 ++ l2) (t_init false)) r = Passed.
  Proof.
    intros El S F0 F1 F2. apply met; auto; [congruence|]. intros r Hr. split.
    - apply (turn (fun _ => True) (fun x => t_at x r <> Check) r l0); auto.
      + intros x _. unfold t_step. destruct (t_at x r) eqn:E; try congruence.
        * destruct (t_dir x); [|destruct (r =? 0)]; rewrite go_self; discriminate.
        * destruct (negb (t_dir x) && log); [destruct fails|]; rewrite go_self; discriminate.
        * destruct (all_arrived n x); [rewrite go_self|]; congruence.
      + intros x p _ _ K. destruct (Z.eq_dec r p) as [->|N]; [|now rewrite step_other]. unfold t_step. destruct (t_at x p) eqn:E; try congruence.
        * destruct (negb (t_dir x) && log); [destruct fails|]; rewrite go_self; discriminate.
        * destruct (all_arrived n x); [rewrite go_self|]; congruence.
    - destruct (run_sound l0 S) as (_ & _ & C & _ & D & _). destruct (t_dir (run l0 (t_init false))) eqn:E; [|now apply C].
      destruct (D eq_refl). congruence.
  Qed.

  Lemma there l : fair n 1 l -> forall r, 0 <= r < n -> t_at (run l (t_init true)) r = Skipped.
  Proof.
    intros F r Hr. apply (turn (fun x => t_dir x = true /\ forall q, t_at x q = Check \/ t_at x q = Skipped) (fun x => t_at x r = Skipped) r l); auto.
    - intros x q _ [D A]. unfold t_step. destruct (A q) as [E|E]; rewrite E; [|auto]. rewrite D. split; [exact D|]. intros p. cbn. destruct (p =? q); auto.
    - intros x [D A]. unfold t_step. destruct (A r) as [E|E]; rewrite E; [rewrite D; apply go_self|exact E].
    - intros x q _ _ E. apply step_final; auto.
  Qed.
End Start.
