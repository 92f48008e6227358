(** Facts about the logs of a program that forks. *)
From Verif Require Import Base BaseFacts JsonModel StoreModel JsonSpec JsonFacts StoreFacts ForkModel ForkSpec.

Lemma recs_snoc p ops o : recs_of p (ops ++ [o]) = recs_of p ops ++ match o with FRecord q r => if q =? p then [r] else [] | _ => [] end.
Proof. unfold recs_of. rewrite flat_map_app. cbn [flat_map]. now rewrite app_nil_r. Qed.
Lemma lines_app a b : lines (a ++ b) = lines a ++ lines b.
Proof. unfold lines. now rewrite map_app, concat_app. Qed.
Lemma lines_one r : lines [r] = line r.
Proof. unfold lines. cbn [map concat]. apply app_nil_r. Qed.

Ltac upd := repeat match goal with
  | H : context [fset _ ?a _ ?b] |- _ => destruct (Z.eq_dec b a); [subst; rewrite fset_eq in H|rewrite fset_ne in H by assumption]
  | |- context [fset _ ?a _ ?b] => destruct (Z.eq_dec b a); [subst; rewrite fset_eq|rewrite fset_ne by assumption]
  end.

(** ** Steps *)
Lemma step_running o w w' : (fstep o w = Ok w' tt \/ exists e, fstep o w = Throw w' e) -> exists log buf, f_procs w (f_actor o) = Some (mkProc log buf Running).
Proof.
  unfold fstep. destruct (f_procs w (f_actor o)) as [[log buf [| |]]|]; [eauto|..]; intros [H|(e & H)]; discriminate H.
Qed.

(** ** Logs of processes that use no log of others *)
Record ainv (ops : list fop) (w : fworld) : Prop := mkAinv {
  ai_proc : forall p x, f_procs w p = Some x ->
    match f_log x with
    | None => recs_of p ops = [] /\ f_buf x = []
    | Some f => f_procs w f <> None /\ (f = p -> exists d, f_files w p = Some d /\ d ++ f_buf x = lines (recs_of p ops) /\ (f_fate x = Exited -> f_buf x = []))
    end;
  ai_none : forall p, f_procs w p = None -> recs_of p ops = [];
  ai_text : forall p r, In r (recs_of p ops) -> text r = DOk (line r) }.

Lemma ainv_start p0 : ainv [] (f_start p0).
Proof.
  constructor; cbn [f_start f_procs f_files recs_of flat_map].
  - intros p x H. upd; [injection H as <-; cbn; auto|discriminate].
  - reflexivity.
  - intros p r [].
Qed.

Lemma ainv_open ops w p log x w1 x1 f : ainv ops w -> f_procs w p = Some (mkProc log x Running) -> (forall f, log = Some f -> f = p) ->
  f_open p (mkProc log x Running) w = (w1, x1, f) -> f = p /\ ainv ops w1 /\ f_procs w1 p = Some x1 /\ f_log x1 = Some p /\ f_fate x1 = Running.
Proof.
  intros I Hp Ha. unfold f_open. cbn [f_log]. destruct log as [g|].
  - intros [= <- <- <-]. pose proof (Ha g eq_refl) as ->. auto.
  - intros [= <- <- <-]. split; [reflexivity|]. split; [|split; [apply fset_eq|split; reflexivity]]. pose proof (ai_proc _ _ I p _ Hp) as C. cbn [f_log f_buf] in C. destruct C as [C1 C2].
    constructor; cbn [f_procs f_files].
    + intros q y H. destruct (Z.eq_dec q p) as [->|N].
      * rewrite fset_eq in H. injection H as <-. cbn [f_log]. rewrite fset_eq. split; [discriminate|]. intros _. exists []. rewrite fset_eq. split; [reflexivity|]. rewrite C1. split; reflexivity.
      * rewrite fset_ne in H by exact N. pose proof (ai_proc _ _ I q y H) as C. destruct (f_log y) as [g|]; [|exact C]. destruct C as [C3 C4]. split.
        { destruct (Z.eq_dec g p) as [->|N']; [rewrite fset_eq; discriminate|rewrite fset_ne by exact N'; exact C3]. }
        intros E. rewrite fset_ne by exact N. exact (C4 E).
    + intros q H. destruct (Z.eq_dec q p) as [->|N]; [rewrite fset_eq in H; discriminate|]. rewrite fset_ne in H by exact N. exact (ai_none _ _ I q H).
    + exact (ai_text _ _ I).
Qed.

Lemma ainv_same ops ops' w : (forall p, recs_of p ops' = recs_of p ops) -> ainv ops w -> ainv ops' w.
Proof. intros H [A B C]. constructor; [intros p x; rewrite H; apply A|intros p; rewrite H; apply B|intros p; rewrite H; apply C]. Qed.

Lemma ainv_write ops w p n e log buf : ainv ops w -> f_procs w p = Some (mkProc log buf Running) -> (forall f, log = Some f -> f = p) ->
  (e = Exited -> skipn n buf = []) -> ainv ops (f_write p n e (mkProc log buf Running) w).
Proof.
  intros I Hp Hl He. unfold f_write. cbn [f_log f_buf]. pose proof (ai_proc _ _ I p _ Hp) as C. cbn [f_log f_buf f_fate] in C. constructor; cbn [f_procs f_files].
  - intros q y H. destruct (Z.eq_dec q p) as [->|N].
    + rewrite fset_eq in H. injection H as <-. cbn [f_log f_buf f_fate]. destruct log as [g|].
      * pose proof (Hl g eq_refl) as ->. destruct C as [C1 C2]. destruct (C2 eq_refl) as (d & D1 & D2 & _). rewrite D1, fset_eq. split; [discriminate|]. intros _. exists (d ++ firstn n buf). rewrite fset_eq.
        split; [reflexivity|]. split; [|exact He]. rewrite <- app_assoc, firstn_skipn. exact D2.
      * destruct C as [C1 ->]. split; [exact C1|]. apply skipn_nil.
    + rewrite fset_ne in H by exact N. pose proof (ai_proc _ _ I q y H) as D. destruct (f_log y) as [g|]; [|exact D]. destruct D as [D1 D2]. split.
      { destruct (Z.eq_dec g p) as [->|N']; [rewrite fset_eq; discriminate|now rewrite fset_ne]. }
      intros Eg. destruct (D2 Eg) as (d & F1 & F2). exists d. split; [|exact F2]. destruct log as [f|]; [|exact F1]. pose proof (Hl f eq_refl) as ->. destruct (f_files w p); [|exact F1]. rewrite fset_ne by exact N. exact F1.
  - intros q H. destruct (Z.eq_dec q p) as [->|N]; [rewrite fset_eq in H; discriminate|]. rewrite fset_ne in H by exact N. exact (ai_none _ _ I q H).
  - exact (ai_text _ _ I).
Qed.

Lemma ainv_step ops w o w' : ainv ops w -> alone w o -> fstep o w = Ok w' tt -> ainv (ops ++ [o]) w'.
Proof.
  intros I Ha E. destruct (step_running o w w' (or_introl E)) as (log & buf & Hp). unfold fstep in E. rewrite Hp in E. destruct o as [p r|p n|p q|p|p]; cbn [f_actor] in *.
  - (* record *) unfold f_record in E. destruct (negb (generic r) && _); [discriminate|].
    destruct (f_open p (mkProc log buf Running) w) as [[w1 x1] f] eqn:Eo.
    assert (Hl : forall f, log = Some f -> f = p) by (intros g ->; exact (Ha _ g Hp eq_refl)).
    destruct (ainv_open ops w p log buf w1 x1 f I Hp Hl Eo) as (-> & I1 & Hp1 & Hl1 & Hf1). destruct (text r) as [t| | |] eqn:Et; try discriminate. injection E as <-.
    assert (Er : line r = t) by (unfold line; now rewrite Et). pose proof (ai_proc _ _ I1 p x1 Hp1) as C. rewrite Hl1 in C. destruct C as [C1 C2]. destruct (C2 eq_refl) as (d & D1 & D2 & _).
    constructor; cbn [f_procs f_files].
    + intros q y H. rewrite recs_snoc. destruct (Z.eq_dec q p) as [->|N].
      * rewrite fset_eq in H. injection H as <-. cbn [f_log f_buf f_fate]. rewrite fset_eq, Z.eqb_refl. split; [discriminate|]. intros _. exists d. split; [exact D1|]. split; [|discriminate].
        rewrite lines_app, lines_one, Er, app_assoc, D2. reflexivity.
      * rewrite fset_ne in H by exact N. replace (p =? q) with false by lia. rewrite app_nil_r. pose proof (ai_proc _ _ I1 q y H) as C. destruct (f_log y) as [g|]; [|exact C]. destruct C as [C3 C4]. split; [|exact C4].
        destruct (Z.eq_dec g p) as [->|N']; [rewrite fset_eq; discriminate|rewrite fset_ne by exact N'; exact C3].
    + intros q H. destruct (Z.eq_dec q p) as [->|N]; [rewrite fset_eq in H; discriminate|]. rewrite fset_ne in H by exact N. rewrite recs_snoc. replace (p =? q) with false by lia. rewrite app_nil_r. exact (ai_none _ _ I1 q H).
    + intros q r'. rewrite recs_snoc. intros H. apply in_app_iff in H as [H|H]; [exact (ai_text _ _ I1 q r' H)|]. destruct (p =? q); [|destruct H]. destruct H as [<-|[]]. congruence.
  - injection E as <-. apply (ainv_same ops); [intros z; rewrite recs_snoc; apply app_nil_r|]. apply ainv_write; [exact I|exact Hp|intros g ->; exact (Ha _ g Hp eq_refl)|discriminate].
  - destruct (f_procs w q) as [y|] eqn:Hq; [discriminate|]. injection E as <-. apply (ainv_same ops); [intros z; rewrite recs_snoc; apply app_nil_r|].
    assert (Npq : p <> q) by congruence. constructor; cbn [f_procs f_files].
    + intros z y H. destruct (Z.eq_dec z q) as [->|N].
      * rewrite fset_eq in H. injection H as <-. pose proof (ai_proc _ _ I p _ Hp) as C. cbn [f_log f_buf] in *. destruct log as [g|].
        { destruct C as [C1 _]. assert (g <> q) by congruence. rewrite fset_ne by assumption. split; [exact C1|]. intros ->. contradiction. }
        split; [exact (ai_none _ _ I q Hq)|exact (proj2 C)].
      * rewrite fset_ne in H by exact N. pose proof (ai_proc _ _ I z y H) as C. destruct (f_log y) as [g|]; [|exact C]. destruct C as [C1 C2]. split; [|exact C2].
        assert (g <> q) by congruence. now rewrite fset_ne.
    + intros z H. destruct (Z.eq_dec z q) as [->|N]; [rewrite fset_eq in H; discriminate|]. rewrite fset_ne in H by exact N. exact (ai_none _ _ I z H).
    + exact (ai_text _ _ I).
  - injection E as <-. apply (ainv_same ops); [intros z; rewrite recs_snoc; apply app_nil_r|]. apply ainv_write; [exact I|exact Hp|intros g ->; exact (Ha _ g Hp eq_refl)|]. intros _. apply skipn_all.
  - injection E as <-. apply (ainv_same ops); [intros z; rewrite recs_snoc; apply app_nil_r|]. constructor; cbn [f_procs f_files].
    + intros z y H. destruct (Z.eq_dec z p) as [->|N].
      * rewrite fset_eq in H. injection H as <-. pose proof (ai_proc _ _ I p _ Hp) as C. cbn [f_log f_buf f_fate] in *. destruct log as [g|]; [|exact C]. destruct C as [C1 C2]. split.
        { destruct (Z.eq_dec g p) as [->|N']; [rewrite fset_eq; discriminate|now rewrite fset_ne]. }
        intros Eg. destruct (C2 Eg) as (d & D1 & D2 & _). exists d. split; [exact D1|]. split; [exact D2|discriminate].
      * rewrite fset_ne in H by exact N. pose proof (ai_proc _ _ I z y H) as C. destruct (f_log y) as [g|]; [|exact C]. destruct C as [C1 C2]. split; [|exact C2].
        destruct (Z.eq_dec g p) as [->|N']; [rewrite fset_eq; discriminate|now rewrite fset_ne].
    + intros z H. destruct (Z.eq_dec z p) as [->|N]; [rewrite fset_eq in H; discriminate|]. rewrite fset_ne in H by exact N. exact (ai_none _ _ I z H).
    + exact (ai_text _ _ I).
Qed.

Lemma ainv_refused ops w o w' e : ainv ops w -> alone w o -> fstep o w = Throw w' e -> ainv ops w'.
Proof.
  intros I Ha E. destruct (step_running o w w' (or_intror (ex_intro _ e E))) as (log & buf & Hp). unfold fstep in E. rewrite Hp in E. destruct o as [p r|p n|p q|p|p]; cbn [f_actor] in *; try discriminate.
  - unfold f_record in E. destruct (negb (generic r) && _); [discriminate|]. destruct (f_open p (mkProc log buf Running) w) as [[w1 x1] f] eqn:Eo.
    destruct (ainv_open ops w p log buf w1 x1 f I Hp) as (-> & I1 & _); [intros g ->; exact (Ha _ g Hp eq_refl)|exact Eo|]. destruct (text r); try discriminate. injection E as <- <-. exact I1.
  - destruct (f_procs w q); discriminate.
Qed.
Lemma ainv_runs p0 ops w : fruns alone (f_start p0) ops w -> ainv ops w.
Proof. induction 1 as [|ops w o w' _ IH Ha E|ops w o w' e _ IH Ha E]; [apply ainv_start|exact (ainv_step _ _ _ _ IH Ha E)|exact (ainv_refused _ _ _ _ _ IH Ha E)]. Qed.

Lemma texts_of l : (forall r, In r l -> text r = DOk (line r)) -> Forall2 (fun r t => text r = DOk t) l (map line l).
Proof. induction l as [|r l IH]; intros H; cbn [map]; constructor; [apply H; now left|apply IH; intros x Hx; apply H; now right]. Qed.

Lemma alone_file p0 ops w p x : fruns alone (f_start p0) ops w -> f_procs w p = Some x -> f_log x = Some p ->
  exists d ts, f_files w p = Some d /\ Forall2 (fun r t => text r = DOk t) (recs_of p ops) ts /\ d ++ f_buf x = concat ts /\ (f_fate x = Exited -> f_buf x = []).
Proof.
  intros H Hp Hl. pose proof (ainv_runs _ _ _ H) as I. pose proof (ai_proc _ _ I p x Hp) as C. rewrite Hl in C. destruct C as [_ C]. destruct (C eq_refl) as (d & D1 & D2 & D3).
  exists d, (map line (recs_of p ops)). split; [exact D1|]. split; [apply texts_of; exact (ai_text _ _ I p)|]. split; [exact D2|exact D3].
Qed.
Lemma recs_in p ops r : In r (recs_of p ops) -> In (FRecord p r) ops.
Proof.
  unfold recs_of. intros H. apply in_flat_map in H as (o & Ho & H). destruct o as [q r'| | | |]; try destruct H. destruct (q =? p) eqn:E; [|destruct H]. destruct H as [<-|[]]. now replace p with q by lia.
Qed.
Lemma recs_writable p ops : all_writable ops -> Forall writable (recs_of p ops).
Proof. intros W. apply Forall_forall. intros r Hr. exact (W p r (recs_in p ops r Hr)). Qed.
Lemma alone_lines p0 ops w p x : fruns alone (f_start p0) ops w -> f_procs w p = Some x -> f_log x = Some p -> f_fate x = Exited -> f_files w p = Some (lines (recs_of p ops)).
Proof.
  intros H Hp Hl He. pose proof (ainv_runs _ _ _ H) as I. pose proof (ai_proc _ _ I p x Hp) as C. rewrite Hl in C. destruct C as [_ C]. destruct (C eq_refl) as (d & D1 & D2 & D3). rewrite (D3 He), app_nil_r in D2. congruence.
Qed.
Lemma alone_read strtod p0 ops w p x : fruns alone (f_start p0) ops w -> all_writable ops -> f_procs w p = Some x -> f_log x = Some p -> f_fate x = Exited ->
  exists d, f_files w p = Some d /\ (exists s, get_events strtod (mk_store (Some d) true true) = SOk s (map meant (recs_of p ops))) /\
    forall e l disk, recs_of p ops = RGeneric e :: l -> exists s, record_all (recs_of p ops) (mk_store disk true false) = SOk s tt /\ finished s = Some d.
Proof.
  intros H W Hp Hl He. exists (lines (recs_of p ops)). split; [exact (alone_lines _ _ _ _ _ H Hp Hl He)|]. pose proof (recs_writable p ops W) as Wp. split.
  - destruct (get_lines strtod (recs_of p ops) (mk_store (Some (lines (recs_of p ops))) true true) Wp eq_refl eq_refl eq_refl) as (s & Es & _). eauto.
  - intros e l disk E. rewrite E in *. destruct (record_file e l disk Wp) as (s & E1 & E2). exists s. split; [exact E1|]. exact (recording_finished _ _ E2).
Qed.

(** Early forks: no process ever has the log of another. *)
Lemma early_own p0 ops w : fruns early (f_start p0) ops w -> (forall p x f, f_procs w p = Some x -> f_log x = Some f -> f = p) /\ fruns alone (f_start p0) ops w.
Proof.
  assert (S : forall w o w', (forall p x f, f_procs w p = Some x -> f_log x = Some f -> f = p) -> early w o -> (fstep o w = Ok w' tt \/ exists e, fstep o w = Throw w' e) ->
    forall p x f, f_procs w' p = Some x -> f_log x = Some f -> f = p).
  { intros v o v' I He E z y f Hz Hy. destruct (step_running o v v' E) as (log & buf & Hp).
    assert (K : (forall g, log = Some g -> g = f_actor o)) by (intros g ->; exact (I _ _ g Hp eq_refl)).
    unfold fstep in E. rewrite Hp in E. destruct o as [p r|p n|p q|p|p]; cbn [f_actor] in *.
    - unfold f_record, f_open in E. cbn [f_log f_buf] in E. destruct log as [g|]; [pose proof (K g eq_refl) as ->|]; destruct (generic r), (text r); cbn in E; destruct E as [E|(e & E)]; try discriminate E;
        inversion E; subst v'; cbn [f_procs] in Hz; try (eapply I; eassumption);
        (destruct (Z.eq_dec z p) as [->|N]; [rewrite ?fset_eq in Hz; injection Hz as <-; cbn [f_log] in Hy; congruence|rewrite ?fset_ne in Hz by exact N; eapply I; eassumption]).
    - destruct E as [E|(e & E)]; [|discriminate]. injection E as <-. cbn [f_write f_procs f_log] in Hz. destruct (Z.eq_dec z p) as [->|N]; [rewrite fset_eq in Hz; injection Hz as <-; exact (K f Hy)|rewrite fset_ne in Hz by exact N; eapply I; eassumption].
    - destruct (f_procs v q) eqn:Hq; [destruct E as [E|(e & E)]; discriminate|]. destruct E as [E|(e & E)]; [|discriminate]. injection E as <-. cbn [f_procs] in Hz.
      destruct (Z.eq_dec z q) as [->|N]; [|rewrite fset_ne in Hz by exact N; eapply I; eassumption]. rewrite fset_eq in Hz. injection Hz as <-. specialize (He _ Hp). cbn [f_log] in *. congruence.
    - destruct E as [E|(e & E)]; [|discriminate]. injection E as <-. cbn [f_write f_procs f_log] in Hz. destruct (Z.eq_dec z p) as [->|N]; [rewrite fset_eq in Hz; injection Hz as <-; exact (K f Hy)|rewrite fset_ne in Hz by exact N; eapply I; eassumption].
    - destruct E as [E|(e & E)]; [|discriminate]. injection E as <-. cbn [f_procs] in Hz. destruct (Z.eq_dec z p) as [->|N]; [rewrite fset_eq in Hz; injection Hz as <-; exact (K f Hy)|rewrite fset_ne in Hz by exact N; eapply I; eassumption]. }
  assert (A : forall w o, (forall p x f, f_procs w p = Some x -> f_log x = Some f -> f = p) -> alone w o).
  { intros v [p r|p n|p q|p|p] I; cbn [alone]; auto; intros x f; apply I. }
  induction 1 as [|ops w o w' _ [I1 I2] He E|ops w o w' e _ [I1 I2] He E].
  - split; [|constructor]. cbn [f_start f_procs]. intros p x f H. destruct (Z.eq_dec p p0) as [->|N]; [rewrite fset_eq in H; injection H as <-; discriminate|rewrite fset_ne in H by exact N; discriminate].
  - split; [exact (S _ _ _ I1 He (or_introl E))|]. eapply fr_step; [exact I2|apply A; exact I1|exact E].
  - split; [exact (S _ _ _ I1 He (or_intror (ex_intro _ e E)))|]. eapply fr_refused; [exact I2|apply A; exact I1|exact E].
Qed.

(** ** Logs that several processes use, written in whole lines *)

Lemma line_shape r : writable r -> exists t, line r = t ++ [10] /\ ~ In 10 t.
Proof.
  intros W. destruct (text_ok r W) as (t & _ & T & P). exists t. split; [unfold line; now rewrite T|]. intros H. unfold printable in P. rewrite Forall_forall in P. specialize (P 10 H). lia.
Qed.
Lemma lines_nil l : Forall writable l -> lines l = [] -> l = [].
Proof.
  destruct l as [|r l]; [reflexivity|]. intros W H. inversion W; subst. destruct (line_shape r) as (t & E & _); [assumption|]. unfold lines in H. cbn [map concat] in H. rewrite E in H. destruct t; discriminate H.
Qed.
Lemma cut_lines l : Forall writable l -> forall n, firstn n (lines l) = [] \/ (exists u, firstn n (lines l) = u ++ [10]) ->
  exists k, firstn n (lines l) = lines (firstn k l) /\ skipn n (lines l) = lines (skipn k l).
Proof.
  induction 1 as [|r l W _ IH]; intros n H.
  - exists O. unfold lines. cbn. rewrite firstn_nil, skipn_nil. split; reflexivity.
  - destruct (line_shape r W) as (t & E & Ht). unfold lines in *. cbn [map concat] in *. rewrite E in *. rewrite firstn_app, skipn_app in *.
    destruct (Nat.le_gt_cases (length (t ++ [10])) n) as [L|L].
    + rewrite (firstn_all2 (t ++ [10])), (skipn_all2 (t ++ [10])) in * by lia. cbn [app]. destruct (IH (n - length (t ++ [10%Z]))%nat) as (k & K1 & K2).
      { destruct H as [H|(u & H)]; [destruct t; discriminate H|]. set (rest := firstn (n - length (t ++ [10])) (concat (map line l))) in *. destruct rest as [|c rest'] eqn:R; [now left|]. right.
        destruct (@exists_last _ (c :: rest')) as (v & z & V); [discriminate|]. rewrite V in *. rewrite app_assoc in H. apply app_inj_tail in H as [_ ->]. now exists v. }
      exists (S k). cbn [firstn skipn map concat]. rewrite E, K1, K2. split; reflexivity.
    + exists O. cbn [firstn skipn map concat]. rewrite E. destruct (Nat.eq_dec n 0) as [->|Hn]; [cbn [firstn skipn Nat.sub app]; split; reflexivity|]. exfalso.
      rewrite app_length in L. cbn [length] in L. replace (n - length (t ++ [10%Z]))%nat with O in H by (rewrite app_length; cbn [length]; lia). rewrite firstn_O, app_nil_r in H.
      rewrite firstn_app in H. replace (n - length t)%nat with O in H by lia. rewrite firstn_O, app_nil_r in H. destruct H as [H|(u & H)].
      * destruct t; cbn [length] in L; [lia|]. destruct n; [lia|discriminate H].
      * apply Ht. rewrite <- (firstn_skipn n t), H. apply in_or_app. left. apply in_elt.
Qed.

Definition upd {A} (m : Z -> A) (k : Z) (v : A) (z : Z) : A := if z =? k then v else m z.
Lemma upd_eq {A} (m : Z -> A) k v : upd m k v k = v.
Proof. unfold upd. now rewrite Z.eqb_refl. Qed.
Lemma upd_ne {A} (m : Z -> A) k v z : z <> k -> upd m k v z = m z.
Proof. unfold upd. intros H. now replace (z =? k) with false by lia. Qed.

Lemma sent_app p a b : sent p (a ++ b) = sent p a ++ sent p b.
Proof. unfold sent. now rewrite filter_app, map_app. Qed.
Lemma sent_own p l : sent p (map (pair p) l) = l.
Proof. unfold sent. induction l as [|r l IH]; [reflexivity|]. cbn [map filter fst]. rewrite Z.eqb_refl. cbn [map snd]. now rewrite IH. Qed.
Lemma sent_other p q l : p <> q -> sent p (map (pair q) l) = [].
Proof. intros H. unfold sent. induction l as [|r l IH]; [reflexivity|]. cbn [map filter fst]. replace (q =? p) with false by lia. exact IH. Qed.

Record winv (ops : list fop) (w : fworld) (inh pend : Z -> list rec) (tags : Z -> list (Z * rec)) : Prop := mkWinv {
  wi_proc : forall p x, f_procs w p = Some x ->
    f_buf x = lines (pend p) /\ (f_fate x = Exited -> pend p = []) /\
    match f_log x with
    | None => pend p = [] /\ inh p = [] /\ recs_of p ops = []
    | Some f => f_files w f <> None /\ f_procs w f <> None /\ sent p (tags f) ++ pend p = inh p ++ recs_of p ops
    end;
  wi_none : forall p, f_procs w p = None -> recs_of p ops = [] /\ f_files w p = None;
  wi_file : forall f d, f_files w f = Some d -> d = lines (map snd (tags f));
  wi_nofile : forall f, f_files w f = None -> tags f = [];
  wi_tags : forall f p r, In (p, r) (tags f) -> exists x, f_procs w p = Some x /\ f_log x = Some f;
  wi_writable : (forall p, Forall writable (pend p)) /\ (forall f, Forall writable (map snd (tags f)));
  wi_made : forall p x, f_procs w p = Some x -> f_log x = None -> f_files w p = None;
  wi_inh : forall p, inh p <> [] -> exists o1 o2 q l, ops = o1 ++ FFork q p :: o2 /\ f_procs w q <> None /\ inh q ++ recs_of q o1 = l ++ inh p }.

Lemma winv_start p0 : winv [] (f_start p0) (fun _ => []) (fun _ => []) (fun _ => []).
Proof.
  constructor; cbn [f_start f_procs f_files recs_of flat_map].
  - intros p x H. destruct (Z.eq_dec p p0) as [->|N]; [rewrite fset_eq in H; injection H as <-; cbn; repeat split; auto|rewrite fset_ne in H by exact N; discriminate].
  - intros p _. split; reflexivity.
  - discriminate.
  - reflexivity.
  - intros f p r [].
  - split; intros; constructor.
  - reflexivity.
  - intros p H. now elim H.
Qed.

Lemma winv_same ops o w inh pend tags : (forall p, recs_of p (ops ++ [o]) = recs_of p ops) -> winv ops w inh pend tags -> winv (ops ++ [o]) w inh pend tags.
Proof.
  intros E I. constructor; try apply I.
  - intros p x H. pose proof (wi_proc _ _ _ _ _ I p x H) as C. rewrite E. exact C.
  - intros p H. rewrite E. exact (wi_none _ _ _ _ _ I p H).
  - intros p H. destruct (wi_inh _ _ _ _ _ I p H) as (o1 & o2 & q & l & -> & H2 & H3). exists o1, (o2 ++ [o]), q, l. rewrite <- app_assoc. auto.
Qed.

Lemma winv_open ops w inh pend tags p log buf w1 x1 f : winv ops w inh pend tags -> f_procs w p = Some (mkProc log buf Running) ->
  f_open p (mkProc log buf Running) w = (w1, x1, f) -> winv ops w1 inh pend tags /\ f_procs w1 p = Some (mkProc (Some f) (f_buf x1) Running).
Proof.
  intros I Hp. unfold f_open. cbn [f_log]. destruct log as [g|]; intros [= <- <- <-]; [now split|]. split; [|cbn [f_procs f_buf]; apply fset_eq].
  pose proof (wi_proc _ _ _ _ _ I p _ Hp) as (C1 & C2 & C3). cbn [f_log f_buf f_fate] in *. destruct C3 as (C3 & C4 & C5). pose proof (wi_made _ _ _ _ _ I p _ Hp eq_refl) as Hf. pose proof (wi_nofile _ _ _ _ _ I p Hf) as Ht.
  constructor; cbn [f_procs f_files].
  - intros q y H. destruct (Z.eq_dec q p) as [->|N].
    + rewrite fset_eq in H. injection H as <-. cbn [f_log f_buf f_fate]. rewrite !fset_eq, C3, C4, C5, Ht. repeat split; auto; discriminate.
    + rewrite fset_ne in H by exact N. pose proof (wi_proc _ _ _ _ _ I q y H) as (D1 & D2 & D3). split; [exact D1|]. split; [exact D2|]. destruct (f_log y) as [g|]; [|exact D3]. destruct D3 as (D3 & D4 & D5).
      destruct (Z.eq_dec g p) as [->|N']; [contradiction|]. rewrite !fset_ne by exact N'. auto.
  - intros q H. destruct (Z.eq_dec q p) as [->|N]; [rewrite fset_eq in H; discriminate|]. rewrite fset_ne in H by exact N. rewrite fset_ne by exact N. exact (wi_none _ _ _ _ _ I q H).
  - intros g d H. destruct (Z.eq_dec g p) as [->|N]; [rewrite fset_eq in H; injection H as <-; rewrite Ht; reflexivity|]. rewrite fset_ne in H by exact N. exact (wi_file _ _ _ _ _ I g d H).
  - intros g H. destruct (Z.eq_dec g p) as [->|N]; [rewrite fset_eq in H; discriminate|]. rewrite fset_ne in H by exact N. exact (wi_nofile _ _ _ _ _ I g H).
  - intros g q r H. destruct (wi_tags _ _ _ _ _ I g q r H) as (y & Y1 & Y2). destruct (Z.eq_dec q p) as [->|N]; [|exists y; rewrite fset_ne by exact N; auto]. rewrite Hp in Y1. injection Y1 as <-. discriminate Y2.
  - exact (wi_writable _ _ _ _ _ I).
  - intros q y H Hy. destruct (Z.eq_dec q p) as [->|N]; [rewrite fset_eq in H; injection H as <-; discriminate|]. rewrite fset_ne in H by exact N. rewrite fset_ne by exact N. exact (wi_made _ _ _ _ _ I q y H Hy).
  - intros q H. destruct (wi_inh _ _ _ _ _ I q H) as (o1 & o2 & z & l & E & H2 & H3). exists o1, o2, z, l. split; [exact E|]. split; [|exact H3]. destruct (Z.eq_dec z p) as [->|N]; [rewrite fset_eq; discriminate|now rewrite fset_ne].
Qed.

Lemma winv_write ops w inh pend tags p n e log buf k : winv ops w inh pend tags -> f_procs w p = Some (mkProc log buf Running) ->
  firstn n buf = lines (firstn k (pend p)) -> skipn n buf = lines (skipn k (pend p)) -> (e = Exited -> skipn k (pend p) = []) ->
  winv ops (f_write p n e (mkProc log buf Running) w) inh (upd pend p (skipn k (pend p)))
    (match log with Some f => upd tags f (tags f ++ map (pair p) (firstn k (pend p))) | None => tags end).
Proof.
  intros I Hp Hk1 Hk2 He. unfold f_write. cbn [f_log f_buf]. pose proof (wi_proc _ _ _ _ _ I p _ Hp) as (C1 & C2 & C3). cbn [f_log f_buf f_fate] in *. destruct (wi_writable _ _ _ _ _ I) as [W1 W2].
  set (tags' := match log with Some f => upd tags f (tags f ++ map (pair p) (firstn k (pend p))) | None => tags end).
  assert (Ts : forall q g, q <> p -> sent q (tags' g) = sent q (tags g)).
  { intros q g N. unfold tags'. destruct log as [f|]; [|reflexivity]. destruct (Z.eq_dec g f) as [->|N']; [|now rewrite upd_ne]. rewrite upd_eq, sent_app, sent_other, app_nil_r by exact N. reflexivity. }
  assert (Pp : forall z, fset (f_procs w) p (mkProc log (skipn n buf) e) z <> None <-> f_procs w z <> None).
  { intros z. destruct (Z.eq_dec z p) as [->|N]; [rewrite fset_eq, Hp; split; discriminate|now rewrite fset_ne]. }
  set (files' := match log with Some f => match f_files w f with Some d => fset (f_files w) f (d ++ firstn n buf) | None => f_files w end | None => f_files w end).
  assert (Fp : forall z, files' z = None <-> f_files w z = None).
  { intros z. unfold files'. destruct log as [f|]; [|tauto]. destruct (f_files w f) as [d|] eqn:Ef; [|tauto]. destruct (Z.eq_dec z f) as [->|N]; [rewrite fset_eq, Ef; split; discriminate|now rewrite fset_ne]. }
  constructor; cbn [f_procs f_files].
  - intros q y H. destruct (Z.eq_dec q p) as [->|N].
    + rewrite fset_eq in H. injection H as <-. cbn [f_log f_buf f_fate]. rewrite upd_eq. split; [exact Hk2|]. split; [exact He|]. unfold tags'. destruct log as [f|].
      * destruct C3 as (C3 & C4 & C5). split; [rewrite Fp; exact C3|]. split; [apply Pp; exact C4|]. rewrite upd_eq, sent_app, sent_own, <- app_assoc, firstn_skipn. exact C5.
      * destruct C3 as (C3 & C4 & C5). rewrite C3. rewrite skipn_nil. auto.
    + rewrite fset_ne in H by exact N. rewrite upd_ne by exact N. pose proof (wi_proc _ _ _ _ _ I q y H) as (D1 & D2 & D3). split; [exact D1|]. split; [exact D2|]. destruct (f_log y) as [g|]; [|exact D3].
      destruct D3 as (D3 & D4 & D5). split; [rewrite Fp; exact D3|]. split; [apply Pp; exact D4|]. rewrite Ts by exact N. exact D5.
  - intros q H. assert (H' : f_procs w q = None). { destruct (f_procs w q) eqn:Q; [|reflexivity]. exfalso. apply (proj2 (Pp q)); [congruence|exact H]. } destruct (wi_none _ _ _ _ _ I q H') as [A B]. split; [exact A|]. apply Fp. exact B.
  - intros g d H. unfold files', tags' in *. destruct log as [f|]; [|exact (wi_file _ _ _ _ _ I g d H)]. destruct (f_files w f) as [d0|] eqn:Ef; [|destruct C3 as [C3 _]; congruence].
    destruct (Z.eq_dec g f) as [->|N]; [|rewrite fset_ne in H by exact N; rewrite upd_ne by exact N; exact (wi_file _ _ _ _ _ I g d H)].
    rewrite fset_eq in H. injection H as <-. rewrite upd_eq, map_app, lines_app, map_map. cbn [snd]. rewrite map_id, <- Hk1. f_equal. exact (wi_file _ _ _ _ _ I f d0 Ef).
  - intros g H. apply Fp in H. pose proof (wi_nofile _ _ _ _ _ I g H) as T. unfold tags'. destruct log as [f|]; [|exact T]. destruct (Z.eq_dec g f) as [->|N]; [destruct C3 as [C3 _]; congruence|now rewrite upd_ne].
  - intros g q r H.
    assert (K : In (q, r) (tags g) \/ (q = p /\ log = Some g)).
    { unfold tags' in H. destruct log as [f|]; [|now left]. destruct (Z.eq_dec g f) as [->|N]; [|rewrite upd_ne in H by exact N; now left]. rewrite upd_eq in H. apply in_app_iff in H as [H|H]; [now left|]. apply in_map_iff in H as (r' & E & _). injection E as -> _. now right. }
    destruct K as [K|[-> ->]].
    + destruct (wi_tags _ _ _ _ _ I g q r K) as (y & Y1 & Y2). destruct (Z.eq_dec q p) as [->|N]; [|exists y; rewrite fset_ne by exact N; auto]. rewrite Hp in Y1. injection Y1 as <-. cbn [f_log] in Y2. eexists. rewrite fset_eq. split; [reflexivity|exact Y2].
    + eexists. rewrite fset_eq. split; reflexivity.
  - split.
    + intros q. destruct (Z.eq_dec q p) as [->|N]; [rewrite upd_eq|now rewrite upd_ne]. specialize (W1 p). rewrite <- (firstn_skipn k (pend p)) in W1. apply Forall_app in W1. apply W1.
    + intros g. unfold tags'. destruct log as [f|]; [|apply W2]. destruct (Z.eq_dec g f) as [->|N]; [rewrite upd_eq, map_app, map_map; cbn [snd]; rewrite map_id|now rewrite upd_ne]. apply Forall_app. split; [apply W2|].
      specialize (W1 p). rewrite <- (firstn_skipn k (pend p)) in W1. apply Forall_app in W1. apply W1.
  - intros q y H Hy. apply Fp. destruct (Z.eq_dec q p) as [->|N]; [rewrite fset_eq in H; injection H as <-; exact (wi_made _ _ _ _ _ I p _ Hp Hy)|]. rewrite fset_ne in H by exact N. exact (wi_made _ _ _ _ _ I q y H Hy).
  - intros q H. destruct (wi_inh _ _ _ _ _ I q H) as (o1 & o2 & z & l & E & H2 & H3). exists o1, o2, z, l. split; [exact E|]. split; [now apply Pp|exact H3].
Qed.

Lemma winv_step ops w o w' inh pend tags : winv ops w inh pend tags -> whole w o -> (forall p r, o = FRecord p r -> writable r) -> fstep o w = Ok w' tt ->
  exists inh' pend' tags', winv (ops ++ [o]) w' inh' pend' tags' /\ inh' = match o with FFork p q => upd inh q (pend p) | _ => inh end.
Proof.
  intros I Hw Wr E. destruct (step_running o w w' (or_introl E)) as (log & buf & Hp). unfold fstep in E. rewrite Hp in E.
  assert (Cb : buf = lines (pend (f_actor o))) by (exact (proj1 (wi_proc _ _ _ _ _ I _ _ Hp))). destruct (wi_writable _ _ _ _ _ I) as [W1 W2].
  destruct o as [p r|p n|p q|p|p]; cbn [f_actor] in *.
  - unfold f_record in E. destruct (negb (generic r) && _); [discriminate|]. destruct (f_open p (mkProc log buf Running) w) as [[w1 x1] f] eqn:Eo.
    destruct (winv_open _ _ _ _ _ _ _ _ _ _ _ I Hp Eo) as (I1 & Hp1). destruct (text r) as [t| | |] eqn:Et; try discriminate. injection E as <-. assert (Er : line r = t) by (unfold line; now rewrite Et).
    pose proof (wi_proc _ _ _ _ _ I1 p _ Hp1) as (C1 & C2 & C3). cbn [f_log f_buf f_fate] in *. exists inh, (upd pend p (pend p ++ [r])), tags. split; [|reflexivity].
    assert (Pp : forall z v, fset (f_procs w1) p v z <> None <-> f_procs w1 z <> None).
    { intros z v. destruct (Z.eq_dec z p) as [->|N]; [rewrite fset_eq, Hp1; split; discriminate|now rewrite fset_ne]. }
    constructor; cbn [f_procs f_files].
    + intros q y H. rewrite recs_snoc. destruct (Z.eq_dec q p) as [->|N].
      * rewrite fset_eq in H. injection H as <-. cbn [f_log f_buf f_fate]. rewrite upd_eq, Z.eqb_refl. split; [now rewrite lines_app, lines_one, Er, C1|]. split; [discriminate|]. destruct C3 as (C3 & C4 & C5). split; [exact C3|]. split; [now apply Pp|].
        rewrite !app_assoc. now rewrite C5.
      * rewrite fset_ne in H by exact N. rewrite upd_ne by exact N. replace (p =? q) with false by lia. rewrite app_nil_r. pose proof (wi_proc _ _ _ _ _ I1 q y H) as (D1 & D2 & D3). split; [exact D1|]. split; [exact D2|]. destruct (f_log y) as [g|]; [|exact D3].
        destruct D3 as (D3 & D4 & D5). split; [exact D3|]. split; [now apply Pp|exact D5].
    + intros q H. destruct (Z.eq_dec q p) as [->|N]; [rewrite fset_eq in H; discriminate|]. rewrite fset_ne in H by exact N. rewrite recs_snoc. replace (p =? q) with false by lia. rewrite app_nil_r. exact (wi_none _ _ _ _ _ I1 q H).
    + exact (wi_file _ _ _ _ _ I1).
    + exact (wi_nofile _ _ _ _ _ I1).
    + intros g q r' H. destruct (wi_tags _ _ _ _ _ I1 g q r' H) as (y & Y1 & Y2). destruct (Z.eq_dec q p) as [->|N]; [|exists y; rewrite fset_ne by exact N; auto]. rewrite Hp1 in Y1. injection Y1 as <-. cbn [f_log] in Y2. eexists. rewrite fset_eq. split; [reflexivity|exact Y2].
    + split; [|exact W2]. intros q. destruct (Z.eq_dec q p) as [->|N]; [rewrite upd_eq|now rewrite upd_ne]. apply Forall_app. split; [apply W1|]. constructor; [exact (Wr p r eq_refl)|constructor].
    + intros q y H Hy. destruct (Z.eq_dec q p) as [->|N]; [rewrite fset_eq in H; injection H as <-; discriminate|]. rewrite fset_ne in H by exact N. exact (wi_made _ _ _ _ _ I1 q y H Hy).
    + intros q H. destruct (wi_inh _ _ _ _ _ I1 q H) as (o1 & o2 & z & l & -> & H2 & H3). exists o1, (o2 ++ [FRecord p r]), z, l. rewrite <- app_assoc. split; [reflexivity|]. split; [now apply Pp|exact H3].
  - injection E as <-. destruct (cut_lines (pend p) (W1 p) n) as (k & K1 & K2).
    { rewrite <- Cb. exact (Hw _ Hp). }
    do 3 eexists. split; [|reflexivity]. apply winv_same; [intros z; rewrite recs_snoc; apply app_nil_r|]. apply (winv_write _ _ _ _ _ _ _ _ _ _ k I Hp); [rewrite Cb; exact K1|rewrite Cb; exact K2|discriminate].
  - destruct (f_procs w q) as [y|] eqn:Hq; [discriminate|]. injection E as <-. assert (Npq : p <> q) by congruence. destruct (wi_none _ _ _ _ _ I q Hq) as [N1 N2].
    exists (upd inh q (pend p)), (upd pend q (pend p)), tags. split; [|reflexivity]. pose proof (wi_proc _ _ _ _ _ I p _ Hp) as (C1 & C2 & C3). cbn [f_log f_buf f_fate] in *.
    assert (Sq : forall f, sent q (tags f) = []).
    { intros f. destruct (sent q (tags f)) as [|r l] eqn:S; [reflexivity|]. exfalso. assert (Hr : In r (sent q (tags f))) by (rewrite S; now left). unfold sent in Hr. apply in_map_iff in Hr as ([a b] & E1 & E2). apply filter_In in E2 as [E2 E3]. cbn [fst snd] in *.
      replace a with q in E2 by lia. destruct (wi_tags _ _ _ _ _ I f q b E2) as (y & Y & _). congruence. }
    constructor; cbn [f_procs f_files].
    + intros z y H. rewrite recs_snoc, app_nil_r. destruct (Z.eq_dec z q) as [->|N].
      * rewrite fset_eq in H. injection H as <-. cbn [f_log f_buf f_fate]. rewrite !upd_eq, N1. split; [exact C1|]. split; [discriminate|]. destruct log as [f|].
        { destruct C3 as (C3 & C4 & C5). split; [exact C3|]. split; [|rewrite Sq, app_nil_r; reflexivity]. destruct (Z.eq_dec f q) as [->|N]; [rewrite fset_eq; discriminate|now rewrite fset_ne]. }
        destruct C3 as (C3 & C4 & C5). rewrite C3. auto.
      * rewrite fset_ne in H by exact N. rewrite !upd_ne by exact N. pose proof (wi_proc _ _ _ _ _ I z y H) as (D1 & D2 & D3). split; [exact D1|]. split; [exact D2|]. destruct (f_log y) as [g|]; [|exact D3].
        destruct D3 as (D3 & D4 & D5). split; [exact D3|]. split; [|exact D5]. destruct (Z.eq_dec g q) as [->|N']; [rewrite fset_eq; discriminate|now rewrite fset_ne].
    + intros z H. rewrite recs_snoc, app_nil_r. destruct (Z.eq_dec z q) as [->|N]; [rewrite fset_eq in H; discriminate|]. rewrite fset_ne in H by exact N. exact (wi_none _ _ _ _ _ I z H).
    + exact (wi_file _ _ _ _ _ I).
    + exact (wi_nofile _ _ _ _ _ I).
    + intros g z r' H. destruct (wi_tags _ _ _ _ _ I g z r' H) as (y & Y1 & Y2). exists y. split; [|exact Y2]. rewrite fset_ne; [exact Y1|]. congruence.
    + split; [|exact W2]. intros z. destruct (Z.eq_dec z q) as [->|N]; [rewrite upd_eq|rewrite upd_ne by exact N]; apply W1.
    + intros z y H Hy. destruct (Z.eq_dec z q) as [->|N]; [exact N2|]. rewrite fset_ne in H by exact N. exact (wi_made _ _ _ _ _ I z y H Hy).
    + intros z H. destruct (Z.eq_dec z q) as [->|N].
      * rewrite upd_eq in H. exists ops, [], p. rewrite upd_eq, upd_ne by exact Npq. destruct log as [f|]; [|destruct C3 as [C3 _]; contradiction]. destruct C3 as (C3 & C4 & C5). exists (sent p (tags f)). split; [reflexivity|]. split; [rewrite fset_ne by exact Npq; congruence|]. now rewrite C5.
      * rewrite upd_ne in H by exact N. destruct (wi_inh _ _ _ _ _ I z H) as (o1 & o2 & u & l & -> & H2 & H3). exists o1, (o2 ++ [FFork p q]), u, l. rewrite <- app_assoc. split; [reflexivity|].
        assert (u <> q) by congruence. rewrite fset_ne, !upd_ne by assumption. auto.
  - injection E as <-. do 3 eexists. split; [|reflexivity]. apply winv_same; [intros z; rewrite recs_snoc; apply app_nil_r|].
    apply (winv_write _ _ _ _ _ _ _ _ _ _ (length (pend p)) I Hp); [rewrite !firstn_all; exact Cb|rewrite !skipn_all; reflexivity|intros _; apply skipn_all].
  - injection E as <-. exists inh, pend, tags. split; [|reflexivity]. apply winv_same; [intros z; rewrite recs_snoc; apply app_nil_r|].
    assert (Pp : forall z v, fset (f_procs w) p v z <> None <-> f_procs w z <> None).
    { intros z v. destruct (Z.eq_dec z p) as [->|N]; [rewrite fset_eq, Hp; split; discriminate|now rewrite fset_ne]. }
    constructor; cbn [f_procs f_files]; try apply I.
    + intros q y H. destruct (Z.eq_dec q p) as [->|N].
      * rewrite fset_eq in H. injection H as <-. pose proof (wi_proc _ _ _ _ _ I p _ Hp) as (D1 & D2 & D3). cbn [f_log f_buf f_fate] in *. split; [exact D1|]. split; [discriminate|]. destruct log as [g|]; [|exact D3]. destruct D3 as (D3 & D4 & D5). split; [exact D3|]. split; [now apply Pp|exact D5].
      * rewrite fset_ne in H by exact N. pose proof (wi_proc _ _ _ _ _ I q y H) as (D1 & D2 & D3). split; [exact D1|]. split; [exact D2|]. destruct (f_log y) as [g|]; [|exact D3]. destruct D3 as (D3 & D4 & D5). split; [exact D3|]. split; [now apply Pp|exact D5].
    + intros q H. destruct (Z.eq_dec q p) as [->|N]; [rewrite fset_eq in H; discriminate|]. rewrite fset_ne in H by exact N. exact (wi_none _ _ _ _ _ I q H).
    + intros g q r' H. destruct (wi_tags _ _ _ _ _ I g q r' H) as (y & Y1 & Y2). destruct (Z.eq_dec q p) as [->|N]; [|exists y; rewrite fset_ne by exact N; auto]. rewrite Hp in Y1. injection Y1 as <-. cbn [f_log] in Y2. eexists. rewrite fset_eq. split; [reflexivity|exact Y2].
    + intros q y H Hy. destruct (Z.eq_dec q p) as [->|N]; [rewrite fset_eq in H; injection H as <-; exact (wi_made _ _ _ _ _ I p _ Hp Hy)|]. rewrite fset_ne in H by exact N. exact (wi_made _ _ _ _ _ I q y H Hy).
    + intros q H. destruct (wi_inh _ _ _ _ _ I q H) as (o1 & o2 & z & l & E & H2 & H3). exists o1, o2, z, l. split; [exact E|]. split; [now apply Pp|exact H3].
Qed.
Lemma winv_refused ops w o w' e inh pend tags : winv ops w inh pend tags -> fstep o w = Throw w' e -> winv ops w' inh pend tags.
Proof.
  intros I E. destruct (step_running o w w' (or_intror (ex_intro _ e E))) as (log & buf & Hp). unfold fstep in E. rewrite Hp in E. destruct o as [p r|p n|p q|p|p]; cbn [f_actor] in *; try discriminate.
  - unfold f_record in E. destruct (negb (generic r) && _); [discriminate|]. destruct (f_open p (mkProc log buf Running) w) as [[w1 x1] f] eqn:Eo.
    destruct (winv_open _ _ _ _ _ _ _ _ _ _ _ I Hp Eo) as (I1 & _). destruct (text r); try discriminate. injection E as <- <-. exact I1.
  - destruct (f_procs w q); discriminate.
Qed.

Lemma writable_snoc ops o : all_writable (ops ++ [o]) -> all_writable ops /\ forall p r, o = FRecord p r -> writable r.
Proof. intros H. split; [intros p r Hr; apply (H p r), in_or_app; now left|]. intros p r ->. apply (H p r), in_or_app. right. now left. Qed.

Lemma winv_runs p0 ops w : fruns whole (f_start p0) ops w -> all_writable ops -> exists inh pend tags, winv ops w inh pend tags.
Proof.
  induction 1 as [|ops w o w' _ IH Hw E|ops w o w' e _ IH Hw E]; intros W.
  - exists (fun _ => []), (fun _ => []), (fun _ => []). apply winv_start.
  - apply writable_snoc in W as [W Wo]. destruct (IH W) as (inh & pend & tags & I). destruct (winv_step _ _ _ _ _ _ _ I Hw Wo E) as (inh' & pend' & tags' & I' & _). eauto.
  - destruct (IH W) as (inh & pend & tags & I). exists inh, pend, tags. exact (winv_refused _ _ _ _ _ _ _ _ I E).
Qed.
Lemma settled_runs p0 ops w : fruns (both whole settled) (f_start p0) ops w -> all_writable ops -> exists pend tags, winv ops w (fun _ => []) pend tags.
Proof.
  induction 1 as [|ops w o w' _ IH [Hw Hs] E|ops w o w' e _ IH [Hw Hs] E]; intros W.
  - exists (fun _ => []), (fun _ => []). apply winv_start.
  - apply writable_snoc in W as [W Wo]. destruct (IH W) as (pend & tags & I). destruct (winv_step _ _ _ _ _ _ _ I Hw Wo E) as (inh' & pend' & tags' & I' & Ei).
    exists pend', tags'. assert (Z0 : forall z, inh' z = []).
    { intros z. rewrite Ei. destruct o as [p r|p n|p q|p|p]; try reflexivity. unfold upd. destruct (z =? q); [|reflexivity]. destruct (step_running _ w w' (or_introl E)) as (log & buf & Hp). cbn [f_actor] in Hp.
      apply lines_nil; [apply (wi_writable _ _ _ _ _ I)|]. rewrite <- (proj1 (wi_proc _ _ _ _ _ I _ _ Hp)). exact (Hs _ Hp). }
    clear Ei. constructor; try apply I'.
    + intros p x H. pose proof (wi_proc _ _ _ _ _ I' p x H) as C. rewrite Z0 in C. exact C.
    + intros p H. now elim H.
  - destruct (IH W) as (pend & tags & I). exists pend, tags. exact (winv_refused _ _ _ _ _ _ _ _ I E).
Qed.

Lemma read_tags strtod l d : Forall writable l -> d = lines l -> exists s, get_events strtod (mk_store (Some d) true true) = SOk s (map meant l).
Proof. intros W ->. destruct (get_lines strtod l (mk_store (Some (lines l)) true true) W eq_refl eq_refl eq_refl) as (s & E & _). eauto. Qed.

Lemma whole_file strtod p0 ops w f d : fruns whole (f_start p0) ops w -> all_writable ops -> f_files w f = Some d ->
  exists tags inh, (exists s, get_events strtod (mk_store (Some d) true true) = SOk s (map meant (map snd tags))) /\
    (forall p r, In (p, r) tags -> exists x, f_procs w p = Some x /\ f_log x = Some f) /\
    (forall p x, f_procs w p = Some x -> f_log x = Some f -> exists rest, inh p ++ recs_of p ops = sent p tags ++ rest /\ (f_fate x = Exited -> rest = [])) /\
    (forall p, inh p <> [] -> exists o1 o2 q l, ops = o1 ++ FFork q p :: o2 /\ inh q ++ recs_of q o1 = l ++ inh p).
Proof.
  intros H W Hf. destruct (winv_runs _ _ _ H W) as (inh & pend & tags & I). exists (tags f), inh. split; [apply read_tags; [apply (wi_writable _ _ _ _ _ I)|exact (wi_file _ _ _ _ _ I f d Hf)]|].
  split; [intros p r; apply (wi_tags _ _ _ _ _ I)|]. split.
  - intros p x Hp Hl. pose proof (wi_proc _ _ _ _ _ I p x Hp) as (_ & C2 & C3). rewrite Hl in C3. exists (pend p). split; [symmetry; apply C3|exact C2].
  - intros p Hn. destruct (wi_inh _ _ _ _ _ I p Hn) as (o1 & o2 & q & l & E & _ & E2). eauto 6.
Qed.
Lemma settled_file strtod p0 ops w f d : fruns (both whole settled) (f_start p0) ops w -> all_writable ops -> f_files w f = Some d ->
  exists tags, (exists s, get_events strtod (mk_store (Some d) true true) = SOk s (map meant (map snd tags))) /\
    (forall p r, In (p, r) tags -> exists x, f_procs w p = Some x /\ f_log x = Some f) /\
    (forall p x, f_procs w p = Some x -> f_log x = Some f -> exists rest, recs_of p ops = sent p tags ++ rest /\ (f_fate x = Exited -> rest = [])).
Proof.
  intros H W Hf. destruct (settled_runs _ _ _ H W) as (pend & tags & I). exists (tags f). split; [apply read_tags; [apply (wi_writable _ _ _ _ _ I)|exact (wi_file _ _ _ _ _ I f d Hf)]|].
  split; [intros p r; apply (wi_tags _ _ _ _ _ I)|]. intros p x Hp Hl. pose proof (wi_proc _ _ _ _ _ I p x Hp) as (_ & C2 & C3). rewrite Hl in C3. exists (pend p). split; [symmetry; apply C3|exact C2].
Qed.

(** A process that has ended takes no step and stays as it is; ending writes to no file but at exit. *)
Lemma ended o w w' : fstep o w = Ok w' tt ->
  (forall q x, f_procs w q = Some x -> f_fate x <> Running -> f_actor o <> q /\ f_procs w' q = Some x) /\
  (forall p, o = FKill p -> f_files w' = f_files w /\ exists x, f_procs w' p = Some x /\ f_fate x = Killed) /\
  (forall p, o = FExit p -> exists x, f_procs w' p = Some x /\ f_fate x = Exited).
Proof.
  intros H. unfold fstep in H. destruct (f_procs w (f_actor o)) as [[log buf fate]|] eqn:A; [|discriminate H]. destruct fate; try discriminate H.
  assert (N : forall q x, f_procs w q = Some x -> f_fate x <> Running -> f_actor o <> q) by (intros q x Q F <-; rewrite A in Q; injection Q as <-; apply F; reflexivity).
  assert (S : forall x', f_procs w' = fset (f_procs w) (f_actor o) x' -> forall q x, f_procs w q = Some x -> f_fate x <> Running -> f_actor o <> q /\ f_procs w' q = Some x).
  { intros x' E q x Q F. split; [exact (N q x Q F)|]. rewrite E, fset_ne; [exact Q|]. apply not_eq_sym. exact (N q x Q F). }
  destruct o as [p r|p n|p q|p|p]; cbn [f_actor] in *.
  - split; [|split; intros p'; discriminate]. unfold f_record in H. destruct (negb (generic r) && _); [discriminate H|]. unfold f_open in H. cbn [f_log] in H.
    destruct log as [f|]; cbn [f_buf] in H; destruct (text r); try discriminate H; injection H as <-; cbn [f_procs]; [eapply S; reflexivity|].
    intros q x Q F. split; [exact (N q x Q F)|]. assert (M := not_eq_sym (N q x Q F)). rewrite !fset_ne by exact M. exact Q.
  - injection H as <-. split; [eapply S; reflexivity|split; intros p'; discriminate].
  - destruct (f_procs w q) eqn:Q; [discriminate H|]. injection H as <-. split; [|split; intros p'; discriminate]. intros r x R F. split; [exact (N r x R F)|].
    cbn [f_procs]. rewrite fset_ne; [exact R|]. intros ->. congruence.
  - injection H as <-. split; [eapply S; reflexivity|]. split; [intros p'; discriminate|]. intros p' E. injection E as <-. eexists. cbn [f_write f_procs]. rewrite fset_eq. split; reflexivity.
  - injection H as <-. split; [eapply S; reflexivity|]. split; [|intros p'; discriminate]. intros p' E. injection E as <-. split; [reflexivity|]. eexists. cbn [f_procs]. rewrite fset_eq. split; reflexivity.
Qed.
