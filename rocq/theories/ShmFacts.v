(** Invariants of the processes that open one shared memory segment. *)
From Coq Require Import String.
From Verif Require Import Base SegModel SegSpec SegRun ShmModel ShmSpec.

Lemma seg_run_app a b st : seg_run (a ++ b) st = match seg_run a st with Some st' => seg_run b st' | None => None end.
Proof. revert st. induction a as [|op a IH]; intros st; cbn [app seg_run]; [reflexivity|]. destruct (seg_do op st); auto. Qed.

Lemma ops_of_cons o op log : ops_of o ((o, op) :: log) = ops_of o log ++ [op].
Proof. unfold ops_of. cbn [filter fst]. rewrite Nat.eqb_refl. reflexivity. Qed.
Lemma ops_of_other o o' op log : o <> o' -> ops_of o ((o', op) :: log) = ops_of o log.
Proof. intros N. unfold ops_of. cbn [filter fst]. destruct (Nat.eqb_spec o' o); [congruence|reflexivity]. Qed.

Lemma find_pointer_same n st : match find_pointer n st with Ok st' _ | Throw st' _ => st' = st | _ => True end.
Proof.
  assert (F : forall k o, match find_existing k o n st with Ok st' _ | Throw st' _ => st' = st | _ => True end).
  { induction k as [|k IH]; intros o; cbn [find_existing]; [exact I|]. destruct (o =? 0); [reflexivity|]. unfold load. destruct (sg_blk st o) as [b|]; cbn [bind]; [|exact I].
    destruct (_ && _); [reflexivity|apply IH]. }
  unfold find_pointer. specialize (F (steps st) (sg_used st)). destruct (find_existing _ _ n st) as [s1 o|s1 e| | |]; cbn [bind]; auto. subst s1.
  destruct (negb _); [|reflexivity]. unfold load. destruct (sg_blk st o); cbn [bind]; auto.
Qed.

Lemma polite_hist sz l st G st' : seghist sz st G -> polite l st G -> seg_run l st = Some st' -> exists G', seghist sz st' G'.
Proof.
  revert st G. induction l as [|op l IH]; intros st G H P E; cbn [seg_run] in E; [injection E as <-; eauto|].
  destruct op as [n r|p|n]; cbn [polite seg_do] in P, E.
  - destruct P as [A P]. destruct (allocate_named n r st) as [s1 q|s1 q| | |] eqn:Ea; try contradiction.
    + apply (IH s1 _ (gh_alloc sz st G n r s1 q H A Ea) P E).
    + apply (IH s1 _ (gh_fail sz st G n r s1 q H A Ea) P E).
  - destruct P as [A P]. destruct (seg_deallocate p st) as [s1 []| | | |] eqn:Ea; try contradiction. cbn [bind] in E.
    apply (IH s1 _ (gh_free sz st G p s1 H A Ea) P E).
  - pose proof (find_pointer_same n st) as F. destruct (find_pointer n st) as [s1 q|s1 q| | |]; try discriminate; subst s1; eauto.
Qed.

(** For the examples. *)
Fixpoint politeb (l : list sop) (st : segment) (G : list live) : bool :=
  match l with
  | [] => true
  | SAllocate n req :: l => ask_okb G n req &&
      match allocate_named n req st with
      | Ok st' p => politeb l st' (note_alloc n p (sg_actual st' - sg_actual st) req G)
      | Throw st' _ => politeb l st' G
      | _ => false
      end
  | SDeallocate p :: l => existsb (at_off p) G && match seg_deallocate p st with Ok st' _ => politeb l st' (note_free p G) | _ => false end
  | SFind _ :: l => politeb l st G
  end.
Lemma politeb_ok l st G : politeb l st G = true -> polite l st G.
Proof.
  revert st G. induction l as [|[n r|p|n] l IH]; intros st G H; cbn [politeb polite] in *; auto; try (apply andb_prop in H; destruct H as [H1 H2]).
  - split; [now apply ask_okb_ok|]. destruct (allocate_named n r st); auto; discriminate.
  - split; [apply existsb_exists in H1; destruct H1 as (e & He & Eo); exists e; split; [exact He|unfold at_off in Eo; lia]|].
    destruct (seg_deallocate p st); auto; discriminate.
Qed.

Section Inv.
  Context (req : Z -> Z) (Hreq : forall p, 0 <= req p < M64).

  (** What the state of a process says about its object. *)
  Definition place_ok (g : shm) (p : Z) : Prop :=
    let X := s_obj g in
    match s_pc g p with
    | Start | Retry | Gone | Failed | Dead => True
    | Sizing o => (o < s_next g)%nat /\ o_maker (X o) = p /\ o_size (X o) = 0 /\ o_flag (X o) = 0
    | MapNew o => (o < s_next g)%nat /\ o_maker (X o) = p /\ o_size (X o) = req p /\ o_flag (X o) = 0
    | Flag1 o sz => (o < s_next g)%nat /\ o_maker (X o) = p /\ o_size (X o) = sz /\ sz = req p /\ 0 < sz /\ o_flag (X o) = 0
    | Mutex o sz => (o < s_next g)%nat /\ o_maker (X o) = p /\ o_size (X o) = sz /\ sz = req p /\ 0 < sz /\ o_flag (X o) = 1
    | Header o sz => (o < s_next g)%nat /\ o_maker (X o) = p /\ o_size (X o) = sz /\ sz = req p /\ 0 < sz /\ o_flag (X o) = 1 /\ o_mutex (X o) = true
    | Flag2 o sz => (o < s_next g)%nat /\ o_maker (X o) = p /\ o_size (X o) = sz /\ sz = req p /\ 0 < sz /\ o_flag (X o) = 1 /\ o_mutex (X o) = true /\
                    o_seg (X o) = Some (seg_init sz)
    | Wait o => (o < s_next g)%nat
    | MapOld o => (o < s_next g)%nat /\ 0 < o_size (X o)
    | Spin o sz => (o < s_next g)%nat /\ o_size (X o) = sz /\ 0 < sz
    | Ready o sz => (o < s_next g)%nat /\ o_size (X o) = sz /\ 0 < sz /\ o_flag (X o) = 2
    | Unlinking o | Closing o => True
    end.

  (** What is known of an object. *)
  Definition obj_ok (g : shm) (o : nat) : Prop :=
    let x := s_obj g o in
    (0 < o_size x -> o_size x = req (o_maker x) /\ o_size x < 2 ^ 63) /\ 0 <= o_size x /\
    (o_flag x = 2 -> o_mutex x = true /\ 0 < o_size x /\ exists st, o_seg x = Some st /\ seg_run (ops_of o (s_log g)) (seg_init (o_size x)) = Some st) /\
    (o_flag x <> 2 -> ops_of o (s_log g) = []).

  Definition inv (g : shm) : Prop :=
    (forall p, place_ok g p) /\ (forall o, obj_ok g o) /\ (forall o, s_name g = Some o -> (o < s_next g)%nat) /\
    (forall o, (s_next g <= o)%nat -> o_size (s_obj g o) = 0 /\ o_flag (s_obj g o) = 0).

  Lemma inv_init : inv s_init.
  Proof.
    unfold inv, s_init. cbn. repeat split; auto; try discriminate; try lia; intros; cbn; try discriminate; lia.
  Qed.

  (** A process that does not make object [o] may think the same when [o] changes in the ways its maker changes it. *)
  Definition grows (x y : obj) : Prop :=
    o_maker y = o_maker x /\ (0 < o_size x -> o_size y = o_size x) /\ (o_flag x = 2 -> o_flag y = 2).

  Definition making (c : pc) : option nat :=
    match c with Sizing o | MapNew o | Flag1 o _ | Mutex o _ | Header o _ | Flag2 o _ => Some o | _ => None end.

  Lemma place_grows g g' q : place_ok g q -> s_pc g' q = s_pc g q -> (s_next g <= s_next g')%nat ->
    (forall o, (o < s_next g)%nat -> (o_maker (s_obj g o) = q /\ making (s_pc g q) = Some o /\ s_obj g' o = s_obj g o) \/
      (making (s_pc g q) <> Some o /\ grows (s_obj g o) (s_obj g' o))) -> place_ok g' q.
  Proof.
    unfold place_ok. intros H E L K. rewrite E.
    assert (M : forall o, (o < s_next g)%nat -> making (s_pc g q) = Some o -> s_obj g' o = s_obj g o).
    { intros o Ho Em. destruct (K o Ho) as [(_ & _ & Eo)|[N _]]; [exact Eo|contradiction]. }
    assert (W : forall o, (o < s_next g)%nat -> grows (s_obj g o) (s_obj g' o)).
    { intros o Ho. destruct (K o Ho) as [(_ & _ & Eo)|[_ Gr]]; [rewrite Eo; repeat split; auto|exact Gr]. }
    destruct (s_pc g q) as [| |o|o|o sz|o sz|o sz|o sz|o|o|o sz|o sz|o|o| | |]; auto.
    1-6: destruct H as (Ho & H); rewrite (M o Ho eq_refl); split; [lia|exact H].
    - lia.
    - destruct H as (Ho & H). destruct (W o Ho) as (_ & Ws & _). split; [lia|]. rewrite (Ws H). exact H.
    - destruct H as (Ho & H & H0). destruct (W o Ho) as (_ & Ws & _). split; [lia|]. rewrite Ws by lia. auto.
    - destruct H as (Ho & H & H0 & Hf). destruct (W o Ho) as (_ & Ws & Wf). split; [lia|]. rewrite Ws by lia. auto.
  Qed.

  Lemma grows_refl x : grows x x.
  Proof. repeat split; auto. Qed.

  (** A process that changes only its own state. *)
  Lemma inv_pc g p x : inv g -> place_ok (put_pc g p x) p -> inv (put_pc g p x).
  Proof.
    intros (P & O & N & F) H. split; [|split; [exact O|split; [exact N|exact F]]].
    intros q. destruct (Z.eqb_spec q p) as [->|Nq]; [exact H|].
    apply (place_grows g _ q (P q)); [cbn; destruct (Z.eqb_spec q p); [contradiction|reflexivity]|cbn; lia|].
    intros o Ho. cbn [put_pc s_obj]. destruct (making (s_pc g q)) as [o'|] eqn:Em.
    - destruct (Nat.eq_dec o' o) as [->|No]; [|right; split; [congruence|apply grows_refl]].
      left. split; [|auto]. specialize (P q). unfold place_ok in P. destruct (s_pc g q); cbn in Em; try discriminate; injection Em as ->; tauto.
    - right. split; [discriminate|apply grows_refl].
  Qed.

  Lemma maker_making g q o : place_ok g q -> making (s_pc g q) = Some o -> o_maker (s_obj g o) = q.
  Proof. unfold place_ok. intros P Em. destruct (s_pc g q); cbn in Em; try discriminate; injection Em as ->; tauto. Qed.

  (** A process that changes its own state and the object it makes. *)
  Lemma inv_make g p o x c : inv g -> making (s_pc g p) = Some o -> (o < s_next g)%nat -> grows (s_obj g o) x ->
    obj_ok (put_obj g o x) o -> place_ok (put_pc (put_obj g o x) p c) p -> inv (put_pc (put_obj g o x) p c).
  Proof.
    intros (P & O & N & F) Em Ho Gr Ox H. split; [|split; [|split; [exact N|]]].
    - intros q. destruct (Z.eqb_spec q p) as [->|Nq]; [exact H|].
      apply (place_grows g _ q (P q)); [cbn; destruct (Z.eqb_spec q p); [contradiction|reflexivity]|cbn; lia|].
      intros k Hk. cbn [put_pc put_obj s_obj]. destruct (Nat.eqb_spec k o) as [->|Nk].
      + right. split; [|exact Gr]. intros Eq. apply Nq. rewrite <- (maker_making g q o (P q) Eq). exact (maker_making g p o (P p) Em).
      + destruct (making (s_pc g q)) as [o'|] eqn:Eq.
        * destruct (Nat.eq_dec o' k) as [->|No]; [|right; split; [congruence|apply grows_refl]].
          left. repeat split; auto. exact (maker_making g q k (P q) Eq).
        * right. split; [discriminate|apply grows_refl].
    - intros k. destruct (Nat.eq_dec k o) as [->|Nk]; [exact Ox|].
      specialize (O k). unfold obj_ok in *. cbn [put_pc put_obj s_obj s_log]. destruct (Nat.eqb_spec k o); [contradiction|exact O].
    - intros k Hk. cbn [put_pc put_obj s_obj s_next] in *. destruct (Nat.eqb_spec k o); [lia|apply F; exact Hk].
  Qed.

  Lemma put_pc_self g p x : s_pc (put_pc g p x) p = x.
  Proof. cbn. now rewrite Z.eqb_refl. Qed.
  Lemma put_obj_self g o x : s_obj (put_obj g o x) o = x.
  Proof. cbn. now rewrite Nat.eqb_refl. Qed.

  Lemma inv_step g p : inv g -> inv (step req p g).
  Proof.
    intros I. pose proof I as (P & O & N & F). pose proof (P p) as Pp. unfold place_ok in Pp. unfold step. pose proof (Hreq p) as Rp. unfold M64 in Rp.
    destruct (s_pc g p) as [| |o|o|o sz|o sz|o sz|o sz|o|o|o sz|o sz|o|o| | |] eqn:E; auto.
    - (* Start *) destruct (s_name g) as [o|] eqn:En.
      + apply inv_pc; [exact I|]. unfold place_ok. now rewrite put_pc_self.
      + set (x := mkObj 0 0 false None None p). set (g1 := mkShm (Some (s_next g)) (S (s_next g)) (s_obj (put_obj g (s_next g) x)) (s_pc g) (s_log g)).
        destruct (F (s_next g) (le_n _)) as [F1 F2]. pose proof (O (s_next g)) as Oo. unfold obj_ok in Oo. rewrite F1, F2 in Oo.
        split; [|split; [|split]].
        * intros q. destruct (Z.eqb_spec q p) as [->|Nq].
          -- unfold place_ok. rewrite put_pc_self. cbn [put_pc s_obj s_next g1]. rewrite put_obj_self. unfold x. cbn. repeat split; lia.
          -- apply (place_grows g _ q (P q)); [cbn; destruct (Z.eqb_spec q p); [contradiction|reflexivity]|cbn; lia|].
             intros k Hk. cbn [put_pc g1 put_obj s_obj]. destruct (Nat.eqb_spec k (s_next g)); [lia|].
             destruct (making (s_pc g q)) as [o'|] eqn:Eq; [|right; split; [discriminate|apply grows_refl]].
             destruct (Nat.eq_dec o' k) as [->|No]; [|right; split; [congruence|apply grows_refl]].
             left. repeat split; auto. exact (maker_making g q k (P q) Eq).
        * intros k. unfold obj_ok. cbn [put_pc g1 put_obj s_obj s_log]. destruct (Nat.eqb_spec k (s_next g)) as [->|Nk]; [|apply O].
          unfold x. cbn. repeat split; try lia. intros _. apply Oo. lia.
        * cbn. intros k [= <-]. lia.
        * cbn. intros k Hk. destruct (Nat.eqb_spec k (s_next g)); [lia|]. apply F. lia.
    - (* Retry *) destruct (s_name g) as [o|] eqn:En; apply inv_pc; auto; unfold place_ok; rewrite put_pc_self; [exact (N o eq_refl)|exact Logic.I].
    - (* Sizing *) destruct (Z.ltb_spec (req p) (2 ^ 63)) as [L|L]; [|apply inv_pc; [exact I|unfold place_ok; now rewrite put_pc_self]].
      destruct Pp as (Ho & Hm & Hs & Hf). pose proof (O o) as (_ & _ & _ & O4). rewrite Hf in O4.
      apply inv_make; auto; [now rewrite E|repeat split; auto; cbn; lia| |].
      + unfold obj_ok. rewrite put_obj_self. cbn [set_size o_size o_flag o_maker o_mutex o_seg put_obj s_log]. rewrite Hm, Hf. repeat split; auto; try lia. all: intros; discriminate.
      + unfold place_ok. rewrite put_pc_self. cbn [put_pc s_obj s_next put_obj]. rewrite Nat.eqb_refl. cbn. auto.
    - (* MapNew *) destruct Pp as (Ho & Hm & Hs & Hf). destruct (Z.eqb_spec (o_size (s_obj g o)) 0) as [Z0|NZ];
        (apply inv_pc; [exact I|]); unfold place_ok; rewrite put_pc_self; [exact Logic.I|]. cbn. repeat split; auto; lia.
    - (* Flag1 *) destruct Pp as (Ho & Hm & Hs & Hq & H0 & Hf). pose proof (O o) as (O1 & O2 & _ & O4). rewrite Hf in O4.
      apply inv_make; auto; [now rewrite E|repeat split; auto; cbn; lia| |].
      + unfold obj_ok. rewrite put_obj_self. cbn [set_flag o_size o_flag o_maker o_mutex o_seg put_obj s_log]. repeat split; auto; try lia; try apply O1; auto. intros _. apply O4. lia.
      + unfold place_ok. rewrite put_pc_self. cbn [put_pc s_obj s_next put_obj]. rewrite Nat.eqb_refl. cbn. auto 10.
    - (* Mutex *) destruct Pp as (Ho & Hm & Hs & Hq & H0 & Hf). pose proof (O o) as (O1 & O2 & _ & O4). rewrite Hf in O4.
      apply inv_make; auto; [now rewrite E|repeat split; auto| |].
      + unfold obj_ok. rewrite put_obj_self. cbn [set_mutex o_size o_flag o_maker o_mutex o_seg put_obj s_log]. rewrite Hf. repeat split; auto; try lia; try apply O1; auto. 
      + unfold place_ok. rewrite put_pc_self. cbn [put_pc s_obj s_next put_obj]. rewrite Nat.eqb_refl. cbn. auto 10.
    - (* Header *) destruct Pp as (Ho & Hm & Hs & Hq & H0 & Hf & Hx). pose proof (O o) as (O1 & O2 & _ & O4). rewrite Hf in O4.
      apply inv_make; auto; [now rewrite E|repeat split; auto| |].
      + unfold obj_ok. rewrite put_obj_self. cbn [set_seg o_size o_flag o_maker o_mutex o_seg put_obj s_log]. rewrite Hf. repeat split; auto; try lia; try apply O1; auto.
      + unfold place_ok. rewrite put_pc_self. cbn [put_pc s_obj s_next put_obj]. rewrite Nat.eqb_refl. cbn. rewrite Hq. repeat split; auto; lia.
    - (* Flag2 *) destruct Pp as (Ho & Hm & Hs & Hq & H0 & Hf & Hx & Hg). pose proof (O o) as (O1 & O2 & _ & O4). rewrite Hf in O4.
      apply inv_make; auto; [now rewrite E|repeat split; auto| |].
      + unfold obj_ok. rewrite put_obj_self. cbn [set_flag o_size o_flag o_maker o_mutex o_seg put_obj s_log]. repeat split; auto; try lia; try apply O1; auto.
        exists (seg_init sz). rewrite O4 by lia. cbn [seg_run]. rewrite Hs. auto.
      + unfold place_ok. rewrite put_pc_self. cbn [put_pc s_obj s_next put_obj]. rewrite Nat.eqb_refl. cbn. auto.
    - (* Wait *) destruct (Z.eqb_spec (o_size (s_obj g o)) 0); [exact I|]. apply inv_pc; [exact I|]. unfold place_ok. rewrite put_pc_self. cbn. pose proof (O o) as (_ & O2 & _). split; [exact Pp|lia].
    - (* MapOld *) apply inv_pc; [exact I|]. unfold place_ok. rewrite put_pc_self. cbn. tauto.
    - (* Spin *) destruct (Z.eqb_spec (o_flag (s_obj g o)) 2); [|exact I]. apply inv_pc; [exact I|]. unfold place_ok. rewrite put_pc_self. cbn. tauto.
    - (* Unlinking *) set (g1 := mkShm None (s_next g) (s_obj g) (s_pc g) (s_log g)).
      assert (I1 : inv g1). { split; [exact P|split; [exact O|split; [intros k; discriminate|exact F]]]. }
      apply inv_pc; [exact I1|]. unfold place_ok. now rewrite put_pc_self.
    - apply inv_pc; [exact I|]. unfold place_ok. now rewrite put_pc_self.
  Qed.

  (** A change of a finished object. *)
  Lemma inv_use g o x lg : inv g -> o_flag (s_obj g o) = 2 -> o_size x = o_size (s_obj g o) -> o_flag x = 2 -> o_maker x = o_maker (s_obj g o) ->
    obj_ok (mkShm (s_name g) (s_next g) (s_obj (put_obj g o x)) (s_pc g) lg) o -> (forall k, k <> o -> ops_of k lg = ops_of k (s_log g)) ->
    inv (mkShm (s_name g) (s_next g) (s_obj (put_obj g o x)) (s_pc g) lg).
  Proof.
    intros (P & O & N & F) Hf Es Ef Em Ox Hl. split; [|split; [|split; [exact N|]]].
    - intros q. apply (place_grows g _ q (P q)); [reflexivity|cbn; lia|]. intros k Hk. cbn [put_obj s_obj].
      destruct (Nat.eqb_spec k o) as [->|Nk].
      + right. split; [|repeat split; auto]. intros Eq. specialize (P q). unfold place_ok in P.
        destruct (s_pc g q); cbn in Eq; try discriminate; injection Eq as ->; destruct P as (_ & P); intuition congruence.
      + destruct (making (s_pc g q)) as [o'|] eqn:Eq; [|right; split; [discriminate|apply grows_refl]].
        destruct (Nat.eq_dec o' k) as [->|No]; [|right; split; [congruence|apply grows_refl]].
        left. repeat split; auto. exact (maker_making g q k (P q) Eq).
    - intros k. destruct (Nat.eq_dec k o) as [->|Nk]; [exact Ox|]. specialize (O k). unfold obj_ok in *. cbn [put_obj s_obj s_log].
      destruct (Nat.eqb_spec k o); [contradiction|]. rewrite (Hl k Nk). exact O.
    - intros k Hk. cbn [put_obj s_obj s_next] in *. destruct (Nat.eqb_spec k o) as [->|]; [|apply F; exact Hk].
      destruct (F o Hk). congruence.
  Qed.

  Lemma inv_exec a g g' : inv g -> exec req a g = Ok g' tt -> inv g'.
  Proof.
    intros I E. destruct a as [p|p|p|p op|p|p]; cbn [exec] in E.
    - injection E as <-. now apply inv_step.
    - destruct (s_pc g p); injection E as <-; auto; apply inv_pc; auto; unfold place_ok; now rewrite put_pc_self.
    - injection E as <-. apply inv_pc; auto. unfold place_ok. now rewrite put_pc_self.
    - destruct (s_pc g p) as [| |o|o|o sz|o sz|o sz|o sz|o|o|o sz|o sz|o|o| | |] eqn:Ep; try (injection E as <-; exact I).
      pose proof I as (P & O & N & F). specialize (P p). unfold place_ok in P. rewrite Ep in P. destruct P as (Ho & Hs & H0 & Hf).
      destruct (o_lock (s_obj g o)) eqn:El; [injection E as <-; exact I|].
      destruct (O o) as (O1 & O2 & O3 & O4). destruct (O3 Hf) as (Hm & _ & st & Hg & Hr). rewrite Hm, Hg in E.
      assert (K : forall st', (exists r, seg_do op st = Ok st' r) \/ (exists r, seg_do op st = Throw st' r) ->
        inv (let g := put_obj g o (set_seg st' (s_obj g o)) in mkShm (s_name g) (s_next g) (s_obj g) (s_pc g) ((o, op) :: s_log g))).
      { intros st' D. apply (inv_use g o (set_seg st' (s_obj g o)) ((o, op) :: s_log g)); auto; [|intros k Nk; now apply ops_of_other]. unfold obj_ok. cbn [s_obj s_log]. rewrite put_obj_self.
        cbn [set_seg o_size o_flag o_maker o_mutex o_seg]. split; [exact O1|]. split; [exact O2|]. split; [|intros X; now destruct (X Hf)].
        intros _. split; [exact Hm|]. split; [lia|].
        exists st'. split; [reflexivity|]. rewrite ops_of_cons, seg_run_app, Hr. cbn [seg_run]. destruct D as [[r ->]|[r ->]]; reflexivity. }
      destruct (seg_do op st) eqn:Ed; try discriminate; injection E as <-; apply K; eauto.
    - destruct (s_pc g p) as [| |o|o|o sz|o sz|o sz|o sz|o|o|o sz|o sz|o|o| | |] eqn:Ep;
        try (injection E as <-; apply inv_pc; auto; unfold place_ok; now rewrite put_pc_self).
      destruct (o_lock (s_obj g o)) eqn:El; injection E as <-; [apply inv_pc; auto; unfold place_ok; now rewrite put_pc_self|].
      apply inv_pc; [|unfold place_ok; now rewrite put_pc_self].
      pose proof I as (P & O & N & F). specialize (P p). unfold place_ok in P. rewrite Ep in P. destruct P as (Ho & Hs & H0 & Hf).
      apply (inv_use g o (set_lock p (s_obj g o)) (s_log g)); auto. unfold obj_ok. cbn [s_obj s_log]. rewrite put_obj_self. exact (O o).
    - destruct (s_pc g p) eqn:Ep; injection E as <-; auto. apply inv_pc; auto. unfold place_ok. now rewrite put_pc_self.
  Qed.

  Lemma execs_ind (J : shm -> Prop) l : (forall a g g', In a l -> J g -> exec req a g = Ok g' tt -> J g') ->
    forall g g', J g -> execs req l g = Ok g' tt -> J g'.
  Proof.
    induction l as [|a l IH]; intros K g g' Hg E; cbn [execs] in E; [injection E as <-; exact Hg|].
    destruct (exec req a g) as [g1 []| | | |] eqn:Ea; cbn [bind] in E; try discriminate.
    apply (IH (fun b x y Hb => K b x y (or_intror Hb)) g1 g'); [|exact E]. apply (K a g g1); auto. now left.
  Qed.

  Lemma inv_execs l g g' : inv g -> execs req l g = Ok g' tt -> inv g'.
  Proof. apply execs_ind. intros a x y _. apply inv_exec. Qed.

  Lemma ready_ok l g p o sz : execs req l s_init = Ok g tt -> ready g p o sz ->
    let x := s_obj g o in
    o_flag x = 2 /\ o_mutex x = true /\ o_size x = sz /\ sz = req (o_maker x) /\ 0 < sz < 2 ^ 63 /\
    exists st, o_seg x = Some st /\ seg_run (ops_of o (s_log g)) (seg_init sz) = Some st.
  Proof.
    intros E R x. destruct (inv_execs _ _ _ inv_init E) as (P & O & _). specialize (P p). unfold place_ok in P. rewrite R in P.
    destruct P as (_ & Hs & H0 & Hf). destruct (O o) as (O1 & _ & O3 & _). fold x in Hs, Hf, O1, O3. rewrite <- Hs in *.
    destruct (O1 H0) as [O1a O1b]. destruct (O3 Hf) as (Hm & _ & st & Hg & Hr). repeat split; eauto.
  Qed.

  Lemma op_defined l g p op : execs req l s_init = Ok g tt -> exec req (AOp p op) g = UB ->
    exists o sz st, ready g p o sz /\ o_seg (s_obj g o) = Some st /\ seg_do op st = UB.
  Proof.
    intros E U. cbn [exec] in U. destruct (s_pc g p) as [| |o|o|o sz|o sz|o sz|o sz|o|o|o sz|o sz|o|o| | |] eqn:Ep; try discriminate.
    destruct (ready_ok l g p o sz E Ep) as (_ & Hm & _ & _ & _ & st & Hg & _). rewrite Hm, Hg in U.
    exists o, sz, st. repeat split; auto. destruct (o_lock _); [discriminate|]. destruct (seg_do op st); try discriminate. reflexivity.
  Qed.

  (** Nobody leaves: there is one object. *)
  Definition single (g : shm) : Prop :=
    inv g /\ (forall p, match s_pc g p with Unlinking _ | Closing _ | Gone => False | _ => True end) /\
    (s_name g = None -> s_next g = 0%nat) /\ (s_next g <= 1)%nat.

  Lemma single_pc g p x : single g -> inv (put_pc g p x) -> match x with Unlinking _ | Closing _ | Gone => False | _ => True end -> single (put_pc g p x).
  Proof.
    intros (_ & C & N & L) I X. split; [exact I|]. split; [|auto]. intros q. cbn. destruct (q =? p); [exact X|apply C].
  Qed.

  Lemma single_exec a g g' : stays a -> single g -> exec req a g = Ok g' tt -> single g'.
  Proof.
    intros St S E. pose proof S as (I & C & N & L). pose proof (inv_exec a g g' I E) as I'.
    assert (Q : s_name g' = s_name g -> s_next g' = s_next g -> (forall p, s_pc g' p = s_pc g p \/ s_pc g' p = Dead \/ s_pc g' p = Failed) -> single g').
    { intros E1 E2 E3. split; [exact I'|]. rewrite E1, E2. split; [|auto]. intros p. destruct (E3 p) as [-> |[-> | ->]]; auto. apply C. }
    assert (Qp : forall p x, g' = put_pc g p x -> x = Dead \/ x = Failed -> single g').
    { intros p x -> Hx. apply Q; auto. intros q. cbn. destruct (q =? p); intuition. }
    destruct a as [p|p|p|p op|p|p]; cbn [exec] in E; [| | | | |contradiction].
    - injection E as <-. pose proof (C p) as Cp. unfold step in *. destruct (s_pc g p) as [| |o|o|o sz|o sz|o sz|o sz|o|o|o sz|o sz|o|o| | |] eqn:Ep; auto; try contradiction.
      + destruct (s_name g) eqn:En; [apply single_pc; auto|]. split; [exact I'|]. rewrite (N eq_refl). cbn. split; [|split; [discriminate|lia]].
        intros q. destruct (q =? p); [auto|apply C].
      + destruct (s_name g) eqn:En; apply single_pc; auto.
      + destruct (req p <? 2 ^ 63); [|apply single_pc; auto]. split; [exact I'|split; [|auto]]. intros q. cbn. destruct (q =? p); [auto|apply C].
      + destruct (o_size _ =? 0); apply single_pc; auto.
      + split; [exact I'|split; [|auto]]. intros q. cbn. destruct (q =? p); [auto|apply C].
      + split; [exact I'|split; [|auto]]. intros q. cbn. destruct (q =? p); [auto|apply C].
      + split; [exact I'|split; [|auto]]. intros q. cbn. destruct (q =? p); [auto|apply C].
      + split; [exact I'|split; [|auto]]. intros q. cbn. destruct (q =? p); [auto|apply C].
      + destruct (o_size _ =? 0); [exact S|apply single_pc; auto].
      + apply single_pc; auto.
      + destruct (o_flag _ =? 2); [apply single_pc; auto|exact S].
    - destruct (s_pc g p); injection E as <-; auto; eapply Qp; eauto.
    - injection E as <-. eapply Qp; eauto.
    - destruct (s_pc g p); try (injection E as <-; exact S). destruct (o_lock _); [injection E as <-; exact S|].
      destruct (o_mutex _); [|discriminate]. destruct (o_seg _); [|discriminate]. destruct (seg_do op _); try discriminate; injection E as <-; apply Q; auto.
    - destruct (s_pc g p); try (injection E as <-; eapply Qp; eauto; fail). destruct (o_lock _); injection E as <-; [eapply Qp; eauto|].
      apply Q; auto. intros q. cbn. destruct (q =? p); auto.
  Qed.

  Lemma single_init : single s_init.
  Proof. split; [exact inv_init|]. cbn. repeat split; auto. Qed.

  Lemma single_execs l g g' : Forall stays l -> single g -> execs req l g = Ok g' tt -> single g'.
  Proof. intros F. apply execs_ind. intros a x y Ha. apply single_exec. now apply (proj1 (Forall_forall _ _) F). Qed.

  Lemma together l g p q o o' sz sz' : Forall stays l -> execs req l s_init = Ok g tt -> ready g p o sz -> ready g q o' sz' -> o = o' /\ sz = sz'.
  Proof.
    intros F E Rp Rq. destruct (single_execs _ _ _ F single_init E) as ((P & _) & _ & _ & L). pose proof (P p) as P1. pose proof (P q) as P2.
    unfold place_ok, ready in *. rewrite Rp in P1. rewrite Rq in P2. destruct P1 as (A1 & A2 & _), P2 as (B1 & B2 & _).
    assert (o = o') as <- by lia. split; [reflexivity|congruence].
  Qed.

  (** Nobody can finish the object. *)
  Definition stuck (o : nat) (g : shm) : Prop :=
    s_name g = Some o /\ o_flag (s_obj g o) <> 2 /\
    forall p, match s_pc g p with Start | Retry | Failed | Dead => True | Wait k | MapOld k | Spin k _ => k = o | _ => False end.

  Lemma stuck_pc o g p x : stuck o g -> match x with Start | Retry | Failed | Dead => True | Wait k | MapOld k | Spin k _ => k = o | _ => False end -> stuck o (put_pc g p x).
  Proof. intros (N & Fl & C) X. split; [exact N|split; [exact Fl|]]. intros q. cbn. destruct (q =? p); [exact X|apply C]. Qed.

  Lemma stuck_exec o a g g' : stuck o g -> exec req a g = Ok g' tt -> stuck o g'.
  Proof.
    intros S E. pose proof S as (N & Fl & C). destruct a as [p|p|p|p op|p|p]; cbn [exec] in E; pose proof (C p) as Cp.
    - injection E as <-. unfold step. destruct (s_pc g p) as [| |k|k|k sz|k sz|k sz|k sz|k|k|k sz|k sz|k|k| | |]; auto; try contradiction; subst; rewrite ?N.
      + now apply stuck_pc.
      + now apply stuck_pc.
      + destruct (o_size _ =? 0); [exact S|now apply stuck_pc].
      + now apply stuck_pc.
      + destruct (Z.eqb_spec (o_flag (s_obj g o)) 2); [contradiction|exact S].
    - destruct (s_pc g p); injection E as <-; auto; now apply stuck_pc.
    - injection E as <-. now apply stuck_pc.
    - destruct (s_pc g p); try contradiction; injection E as <-; exact S.
    - destruct (s_pc g p); try contradiction; injection E as <-; now apply stuck_pc.
    - destruct (s_pc g p); try contradiction; injection E as <-; exact S.
  Qed.

  Lemma stuck_hopeless o g : stuck o g -> hopeless req g.
  Proof.
    intros S acts g' p k sz E R. assert (S' : stuck o g') by (revert E; apply (execs_ind (stuck o)); [intros a x y _; apply stuck_exec|exact S]).
    destruct S' as (_ & _ & C). specialize (C p). unfold ready in R. now rewrite R in C.
  Qed.

  Lemma abandoned l g o : Forall stays l -> execs req l s_init = Ok g tt -> s_name g = Some o -> o_flag (s_obj g o) <> 2 ->
    over (s_pc g (o_maker (s_obj g o))) -> hopeless req g.
  Proof.
    intros F E En Fl Ov. destruct (single_execs _ _ _ F single_init E) as ((P & _ & Nm & _) & C & _ & L). pose proof (Nm o En) as Lo.
    apply (stuck_hopeless o). split; [exact En|split; [exact Fl|]]. intros p. specialize (P p). specialize (C p). unfold place_ok in P.
    destruct (s_pc g p) as [| |k|k|k sz|k sz|k sz|k sz|k|k|k sz|k sz|k|k| | |] eqn:Ep; auto; try contradiction; try lia.
    all: assert (k = o) as -> by lia.
    1-6: destruct P as (_ & Em & _); rewrite Em, Ep in Ov; exact Ov.
    apply Fl. tauto.
  Qed.

  (** The mutex of a process killed inside an operation. *)
  Lemma locked_exec o q a g g' : (o < s_next g)%nat /\ o_lock (s_obj g o) = Some q -> exec req a g = Ok g' tt ->
    ((o < s_next g')%nat /\ o_lock (s_obj g' o) = Some q) /\ ops_of o (s_log g') = ops_of o (s_log g) /\ (o_seg (s_obj g o) <> None -> inv g -> o_flag (s_obj g o) = 2 -> o_seg (s_obj g' o) = o_seg (s_obj g o)).
  Proof.
    intros [L K] E. destruct a as [p|p|p|p op|p|p]; cbn [exec] in E.
    - injection E as <-. unfold step. destruct (s_pc g p) as [| |k|k|k sz|k sz|k sz|k sz|k|k|k sz|k sz|k|k| | |] eqn:Ep; auto.
      + destruct (s_name g); cbn; [auto|]. destruct (Nat.eqb_spec o (s_next g)); [lia|]. auto.
      + destruct (s_name g); cbn; auto.
      + destruct (req p <? 2 ^ 63); cbn; auto. destruct (Nat.eqb_spec o k) as [->|]; cbn; auto.
      + destruct (o_size _ =? 0); cbn; auto.
      + cbn. destruct (Nat.eqb_spec o k) as [->|]; cbn; auto.
      + cbn. destruct (Nat.eqb_spec o k) as [->|]; cbn; auto.
      + cbn. destruct (Nat.eqb_spec o k) as [->|]; cbn; auto. split; [auto|]. split; [auto|]. intros _ (P & _) Hf. specialize (P p). unfold place_ok in P. rewrite Ep in P. intuition congruence.
      + cbn. destruct (Nat.eqb_spec o k) as [->|]; cbn; auto.
      + destruct (o_size _ =? 0); cbn; auto.
      + destruct (o_flag _ =? 2); cbn; auto.
    - destruct (s_pc g p); injection E as <-; cbn; auto.
    - injection E as <-. cbn. auto.
    - destruct (s_pc g p) as [| |k|k|k sz|k sz|k sz|k sz|k|k|k sz|k sz|k|k| | |]; try (injection E as <-; cbn; auto; fail).
      destruct (o_lock (s_obj g k)) eqn:El; [injection E as <-; auto|]. destruct (o_mutex (s_obj g k)); [|discriminate]. destruct (o_seg (s_obj g k)); [|discriminate].
      assert (No : o <> k) by congruence.
      destruct (seg_do op _); try discriminate; injection E as <-; cbn [s_next s_obj put_obj s_log]; (destruct (Nat.eqb_spec o k); [contradiction|]); rewrite ops_of_other by exact No; auto.
    - destruct (s_pc g p) as [| |k|k|k sz|k sz|k sz|k sz|k|k|k sz|k sz|k|k| | |]; try (injection E as <-; cbn; auto; fail).
      destruct (o_lock (s_obj g k)) eqn:El; injection E as <-; cbn; auto. destruct (Nat.eqb_spec o k) as [->|]; [congruence|]. auto.
    - destruct (s_pc g p); injection E as <-; cbn; auto.
  Qed.

  Lemma locked l1 l2 g g' p o sz q : execs req l1 s_init = Ok g tt -> ready g p o sz -> o_lock (s_obj g o) = Some q -> execs req l2 g = Ok g' tt ->
    ops_of o (s_log g') = ops_of o (s_log g) /\ o_seg (s_obj g' o) = o_seg (s_obj g o).
  Proof.
    intros E1 R K E2. pose proof (inv_execs _ _ _ inv_init E1) as I. pose proof I as (P & O & _). specialize (P p). unfold place_ok in P. rewrite R in P.
    destruct P as (L & _ & _ & Hf). destruct (O o) as (_ & _ & O3 & _). destruct (O3 Hf) as (_ & _ & st & Hs & _).
    assert (J : inv g' /\ ((o < s_next g')%nat /\ o_lock (s_obj g' o) = Some q) /\ o_flag (s_obj g' o) = 2 /\ ops_of o (s_log g') = ops_of o (s_log g) /\ o_seg (s_obj g' o) = o_seg (s_obj g o)); [|tauto].
    revert E2. apply (execs_ind (fun g' => inv g' /\ ((o < s_next g')%nat /\ o_lock (s_obj g' o) = Some q) /\ o_flag (s_obj g' o) = 2 /\ ops_of o (s_log g') = ops_of o (s_log g) /\ o_seg (s_obj g' o) = o_seg (s_obj g o))); [|tauto].
    intros a x y _ (Ix & Lx & Fx & Ox & Sx) Ea. pose proof (inv_exec _ _ _ Ix Ea) as Iy. destruct (locked_exec o q a x y Lx Ea) as (Ly & Oy & Sy).
    assert (Sn : o_seg (s_obj x o) <> None) by (rewrite Sx, Hs; discriminate). specialize (Sy Sn Ix Fx).
    split; [exact Iy|]. split; [exact Ly|]. split; [|split; congruence].
    (* the flag of a finished object stays *)
    clear - Ea Ix Fx Lx. pose proof Ix as (P & _). destruct Lx as [Lx _].
    destruct a as [p|p|p|p op|p|p]; cbn [exec] in Ea.
    - injection Ea as <-. specialize (P p). unfold place_ok in P. unfold step.
      destruct (s_pc x p) as [| |k|k|k sz|k sz|k sz|k sz|k|k|k sz|k sz|k|k| | |] eqn:Ep; auto.
      + destruct (s_name x); cbn; auto. destruct (Nat.eqb_spec o (s_next x)); [lia|auto].
      + destruct (s_name x); auto.
      + destruct (req p <? 2 ^ 63); auto. cbn. destruct (Nat.eqb_spec o k) as [->|]; auto.
      + destruct (o_size _ =? 0); auto.
      + cbn. destruct (Nat.eqb_spec o k) as [->|]; auto. intuition congruence.
      + cbn. destruct (Nat.eqb_spec o k) as [->|]; auto.
      + cbn. destruct (Nat.eqb_spec o k) as [->|]; auto.
      + cbn. destruct (Nat.eqb_spec o k) as [->|]; auto.
      + destruct (o_size _ =? 0); auto.
      + destruct (o_flag (s_obj x k) =? 2); auto.
    - destruct (s_pc x p); injection Ea as <-; auto.
    - injection Ea as <-. auto.
    - destruct (s_pc x p) as [| |k|k|k sz|k sz|k sz|k sz|k|k|k sz|k sz|k|k| | |]; try (injection Ea as <-; auto; fail).
      destruct (o_lock (s_obj x k)); [injection Ea as <-; auto|]. destruct (o_mutex (s_obj x k)); [|discriminate]. destruct (o_seg (s_obj x k)); [|discriminate].
      destruct (seg_do op _); try discriminate; injection Ea as <-; cbn; destruct (Nat.eqb_spec o k) as [->|]; auto.
    - destruct (s_pc x p) as [| |k|k|k sz|k sz|k sz|k sz|k|k|k sz|k sz|k|k| | |]; try (injection Ea as <-; auto; fail).
      destruct (o_lock (s_obj x k)); injection Ea as <-; cbn; auto. destruct (Nat.eqb_spec o k) as [->|]; auto.
    - destruct (s_pc x p); injection Ea as <-; auto.
  Qed.

  (** The one who made the object that has the name has not finished leaving. *)
  Definition kept (g : shm) : Prop :=
    inv g /\ (forall p, ~ over (s_pc g p)) /\
    (forall o, s_name g = Some o -> let c := s_pc g (o_maker (s_obj g o)) in making c = Some o \/ (exists sz, c = Ready o sz) \/ c = Unlinking o).

  Lemma kept_pc g p x : kept g -> inv (put_pc g p x) -> ~ over x ->
    (forall o, s_pc g p = Unlinking o -> False) -> (forall o, making (s_pc g p) = Some o -> making x = Some o) ->
    (forall o sz, s_pc g p = Ready o sz -> x = Unlinking o) -> kept (put_pc g p x).
  Proof.
    intros (_ & V & K) I X U M R. split; [exact I|]. split; [intros q; cbn; destruct (q =? p); auto|].
    intros o En. cbn [put_pc s_name s_obj s_pc] in *. specialize (K o En). cbn zeta in *.
    destruct (Z.eqb_spec (o_maker (s_obj g o)) p) as [Ep|]; [|exact K]. rewrite Ep in K. destruct K as [K|[[sz K]|K]].
    - left. auto.
    - right. right. eauto.
    - exfalso. eauto.
  Qed.

  Lemma kept_make g p o x c : kept g -> inv (put_pc (put_obj g o x) p c) -> making (s_pc g p) = Some o -> o_maker x = o_maker (s_obj g o) ->
    making c = Some o \/ (exists sz, c = Ready o sz) -> kept (put_pc (put_obj g o x) p c).
  Proof.
    intros (_ & V & K) I M E Hc. split; [exact I|]. split; [intros q; cbn; destruct (q =? p); [|apply V]; destruct Hc as [Hc|[sz ->]]; [destruct c; cbn in *; try discriminate; auto|auto]|].
    intros k En. cbn [put_pc put_obj s_name s_obj s_pc] in *. specialize (K k En). cbn zeta in *.
    assert (Em : o_maker (if Nat.eqb k o then x else s_obj g k) = o_maker (s_obj g k)) by (destruct (Nat.eqb_spec k o) as [->|]; auto). rewrite Em.
    destruct (Z.eqb_spec (o_maker (s_obj g k)) p) as [Ep|]; [|exact K]. rewrite Ep in K. destruct K as [K|[[sz K]|K]].
    - rewrite M in K. injection K as ->. tauto.
    - rewrite K in M. discriminate.
    - rewrite K in M. discriminate.
  Qed.

  Lemma kept_exec a g g' : (forall p, 0 < req p < 2 ^ 63) -> orderly a -> kept g -> exec req a g = Ok g' tt -> kept g'.
  Proof.
    intros Hq Or S E. pose proof S as (I & V & K). pose proof (inv_exec a g g' I E) as I'.
    destruct a as [p|p|p|p op|p|p]; cbn [exec] in E; try contradiction.
    - injection E as <-. pose proof I as (P & _). specialize (P p). unfold place_ok in P. unfold step in *.
      destruct (s_pc g p) as [| |o|o|o sz|o sz|o sz|o sz|o|o|o sz|o sz|o|o| | |] eqn:Ep; auto.
      + destruct (s_name g) eqn:En; [apply kept_pc; auto; rewrite Ep; cbn; discriminate|]. split; [exact I'|]. split; [intros q; cbn; destruct (q =? p); auto|].
        cbn [put_pc put_obj s_name s_obj s_pc]. intros o [= <-]. rewrite Nat.eqb_refl. cbn. rewrite Z.eqb_refl. auto.
      + destruct (s_name g) eqn:En; apply kept_pc; auto; rewrite Ep; cbn; discriminate.
      + pose proof (Hq p). destruct (Z.ltb_spec (req p) (2 ^ 63)); [|lia]. apply kept_make; auto; now rewrite Ep.
      + pose proof (Hq p). destruct (Z.eqb_spec (o_size (s_obj g o)) 0); [lia|]. apply kept_pc; auto; rewrite Ep; cbn; try discriminate; auto.
      + apply kept_make; auto; now rewrite Ep.
      + apply kept_make; auto; now rewrite Ep.
      + apply kept_make; auto; now rewrite Ep.
      + apply kept_make; eauto; now rewrite Ep.
      + destruct (o_size _ =? 0); [exact S|]. apply kept_pc; auto; rewrite Ep; cbn; discriminate.
      + apply kept_pc; auto; rewrite Ep; cbn; discriminate.
      + destruct (o_flag _ =? 2); [|exact S]. apply kept_pc; auto; rewrite Ep; cbn; discriminate.
      + split; [exact I'|]. split; [intros q; cbn; destruct (q =? p); auto|]. cbn. discriminate.
      + apply kept_pc; auto; rewrite Ep; cbn; discriminate.
    - destruct (s_pc g p) as [| |o|o|o sz|o sz|o sz|o sz|o|o|o sz|o sz|o|o| | |]; try (injection E as <-; exact S). destruct (o_lock _); [injection E as <-; exact S|].
      destruct (o_mutex _); [|discriminate]. destruct (o_seg _); [|discriminate].
      destruct (seg_do op _); try discriminate; injection E as <-; (split; [exact I'|]); (split; [exact V|]);
        cbn [put_obj s_name s_obj s_pc]; intros k En; specialize (K k En); destruct (Nat.eqb_spec k o) as [->|]; exact K.
    - destruct (s_pc g p) eqn:Ep; injection E as <-; auto. apply kept_pc; auto; rewrite Ep; cbn; try discriminate. congruence.
  Qed.

  Lemma leaves l g : (forall p, 0 < req p < 2 ^ 63) -> Forall orderly l -> execs req l s_init = Ok g tt -> (forall p, outside (s_pc g p)) -> s_name g = None.
  Proof.
    intros Hq F E Out. assert (K : kept g).
    { revert E. apply (execs_ind kept); [intros a x y Ha; apply kept_exec; auto; now apply (proj1 (Forall_forall _ _) F)|].
      split; [exact inv_init|]. cbn. split; [auto|discriminate]. }
    destruct K as (_ & _ & K). destruct (s_name g) as [o|]; [|reflexivity]. specialize (K o eq_refl). cbn zeta in K. specialize (Out (o_maker (s_obj g o))).
    destruct K as [K|[[sz K]|K]]; [|rewrite K in Out; contradiction|rewrite K in Out; contradiction]. destruct (s_pc g (o_maker (s_obj g o))); cbn in *; discriminate || contradiction.
  Qed.

  (** Steps until the segment is ready. *)
  Definition left (c : pc) : nat :=
    match c with
    | Sizing _ => 6 | MapNew _ => 5 | Flag1 _ _ => 4 | Mutex _ _ => 3 | Header _ _ => 2 | Flag2 _ _ => 1
    | Start => 5 | Retry => 4 | Wait _ => 3 | MapOld _ => 2 | Spin _ _ => 1 | _ => 0
    end.

  Definition going (c : Z) (g : shm) : Prop :=
    inv g /\ s_name g = Some 0%nat /\ o_maker (s_obj g 0%nat) = c /\ s_next g = 1%nat /\ (forall o, o_lock (s_obj g o) = None) /\
    forall p, match s_pc g p with
              | Start | Retry | Wait _ | MapOld _ | Spin _ _ => p <> c
              | Ready _ _ => True
              | Sizing _ | MapNew _ | Flag1 _ _ | Mutex _ _ | Header _ _ | Flag2 _ _ => p = c
              | _ => False
              end.

  Lemma going_exec c a g g' : 0 < req c < 2 ^ 63 -> quiet a -> going c g -> exec req a g = Ok g' tt ->
    going c g' /\ forall p, (left (s_pc g' p) <= left (s_pc g p))%nat /\
      (a = AStep p -> p = c \/ left (s_pc g c) = 0%nat -> (left (s_pc g' p) <= left (s_pc g p) - 1)%nat).
  Proof.
    intros Hc Qa G E. pose proof G as (I & En & Em & Ex & Lk & C). pose proof (inv_exec a g g' I E) as I'.
    destruct a as [p|p|p|p op|p|p]; cbn [exec] in E; try contradiction.
    - injection E as <-. pose proof I as (P & O & _). pose proof (P p) as Pp. pose proof (C p) as Cp. unfold place_ok in Pp.
      assert (Step : going c (step req p g) /\ (forall q, q <> p -> s_pc (step req p g) q = s_pc g q) /\
        (left (s_pc (step req p g) p) <= left (s_pc g p))%nat /\ (p = c \/ left (s_pc g c) = 0%nat -> (left (s_pc (step req p g) p) <= left (s_pc g p) - 1)%nat)).
      2:{ destruct Step as (S1 & S2 & S3 & S4). split; [exact S1|]. intros q. destruct (Z.eq_dec q p) as [->|Nq]; [split; [exact S3|intros _; exact S4]|].
          rewrite S2 by exact Nq. split; [lia|]. intros [= ->]. contradiction. }
      assert (Pc : forall x, inv (put_pc g p x) -> match x with
              | Start | Retry | Wait _ | MapOld _ | Spin _ _ => p <> c
              | Ready _ _ => True
              | Sizing _ | MapNew _ | Flag1 _ _ | Mutex _ _ | Header _ _ | Flag2 _ _ => p = c
              | _ => False
              end -> going c (put_pc g p x)).
      { intros x Ix Hx. split; [exact Ix|]. cbn. repeat split; auto. intros q. destruct (Z.eqb_spec q p) as [->|]; [exact Hx|apply C]. }
      assert (Mk : forall x y, inv (put_pc (put_obj g 0 y) p x) -> o_maker y = c -> o_lock y = None -> p = c -> match x with
              | Ready _ _ => True
              | Sizing _ | MapNew _ | Flag1 _ _ | Mutex _ _ | Header _ _ | Flag2 _ _ => p = c
              | _ => False
              end -> going c (put_pc (put_obj g 0 y) p x)).
      { intros x y Ix Hy Hl Hp Hx. split; [exact Ix|]. cbn. repeat split; auto; [intros o; destruct (Nat.eqb o 0); auto|].
        intros q. destruct (Z.eqb_spec q p) as [->|]; [destruct x; auto; contradiction|apply C]. }
      assert (Z0 : forall o, (o < s_next g)%nat -> o = 0%nat) by (intros; lia).
      assert (Other : forall x q, q <> p -> s_pc (put_pc g p x) q = s_pc g q) by (intros x q Nq; cbn; destruct (Z.eqb_spec q p); [contradiction|reflexivity]).
      assert (Other2 : forall x y q, q <> p -> s_pc (put_pc (put_obj g 0 y) p x) q = s_pc g q) by (intros x y q Nq; cbn; destruct (Z.eqb_spec q p); [contradiction|reflexivity]).
      unfold step in *. destruct (s_pc g p) as [| |o|o|o sz|o sz|o sz|o sz|o|o|o sz|o sz|o|o| | |] eqn:Ep; try contradiction.
      + rewrite En in *. rewrite put_pc_self. cbn [left]. (split; [first [apply Pc; auto; fail|apply Mk; [exact I'|exact Em|exact (Lk 0%nat)|reflexivity|cbn; auto]|exact G]|split; [auto|split; [lia|intros _; lia]]]).
      + rewrite En in *. rewrite put_pc_self. cbn [left]. (split; [first [apply Pc; auto; fail|apply Mk; [exact I'|exact Em|exact (Lk 0%nat)|reflexivity|cbn; auto]|exact G]|split; [auto|split; [lia|intros _; lia]]]).
      + subst p. destruct Pp as (Po & Pp). rewrite (Z0 o Po) in *. destruct (Z.ltb_spec (req c) (2 ^ 63)); [|lia]. rewrite put_pc_self. cbn [left]. (split; [first [apply Pc; auto; fail|apply Mk; [exact I'|exact Em|exact (Lk 0%nat)|reflexivity|cbn; auto]|exact G]|split; [auto|split; [lia|intros _; lia]]]).
      + subst p. destruct Pp as (Po & _ & Ps & _). rewrite (Z0 o Po) in *. destruct (Z.eqb_spec (o_size (s_obj g 0%nat)) 0); [lia|]. rewrite put_pc_self. cbn [left]. (split; [first [apply Pc; auto; fail|apply Mk; [exact I'|exact Em|exact (Lk 0%nat)|reflexivity|cbn; auto]|exact G]|split; [auto|split; [lia|intros _; lia]]]).
      + subst p. destruct Pp as (Po & Pp). rewrite (Z0 o Po) in *. rewrite put_pc_self. cbn [left]. (split; [first [apply Pc; auto; fail|apply Mk; [exact I'|exact Em|exact (Lk 0%nat)|reflexivity|cbn; auto]|exact G]|split; [auto|split; [lia|intros _; lia]]]).
      + subst p. destruct Pp as (Po & Pp). rewrite (Z0 o Po) in *. rewrite put_pc_self. cbn [left]. (split; [first [apply Pc; auto; fail|apply Mk; [exact I'|exact Em|exact (Lk 0%nat)|reflexivity|cbn; auto]|exact G]|split; [auto|split; [lia|intros _; lia]]]).
      + subst p. destruct Pp as (Po & Pp). rewrite (Z0 o Po) in *. rewrite put_pc_self. cbn [left]. (split; [first [apply Pc; auto; fail|apply Mk; [exact I'|exact Em|exact (Lk 0%nat)|reflexivity|cbn; auto]|exact G]|split; [auto|split; [lia|intros _; lia]]]).
      + subst p. destruct Pp as (Po & Pp). rewrite (Z0 o Po) in *. rewrite put_pc_self. cbn [left]. (split; [first [apply Pc; auto; fail|apply Mk; [exact I'|exact Em|exact (Lk 0%nat)|reflexivity|cbn; auto]|exact G]|split; [auto|split; [lia|intros _; lia]]]).
      + rewrite (Z0 o Pp) in *. destruct (Z.eqb_spec (o_size (s_obj g 0%nat)) 0) as [Es|]; [|rewrite put_pc_self; cbn [left]; (split; [first [apply Pc; auto; fail|apply Mk; [exact I'|exact Em|exact (Lk 0%nat)|reflexivity|cbn; auto]|exact G]|split; [auto|split; [lia|intros _; lia]]])].
        rewrite Ep. cbn [left]. split; [exact G|split; [auto|split; [lia|]]]. intros [->|Hl]; [contradiction|]. exfalso.
        pose proof (P c) as Pq. unfold place_ok in Pq. pose proof (C c) as Cc. destruct (s_pc g c) as [| |k|k|k sz|k sz|k sz|k sz|k|k|k sz|k sz|k|k| | |]; cbn in Hl; try discriminate; try contradiction.
        destruct Pq as (Pk & P1 & P2 & _). rewrite (Z0 k Pk) in *. lia.
      + rewrite put_pc_self. cbn [left]. (split; [first [apply Pc; auto; fail|apply Mk; [exact I'|exact Em|exact (Lk 0%nat)|reflexivity|cbn; auto]|exact G]|split; [auto|split; [lia|intros _; lia]]]).
      + destruct Pp as (Po & Pp). rewrite (Z0 o Po) in *. destruct (Z.eqb_spec (o_flag (s_obj g 0%nat)) 2) as [|Nf]; [rewrite put_pc_self; cbn [left]; (split; [first [apply Pc; auto; fail|apply Mk; [exact I'|exact Em|exact (Lk 0%nat)|reflexivity|cbn; auto]|exact G]|split; [auto|split; [lia|intros _; lia]]])|].
        rewrite Ep. cbn [left]. split; [exact G|split; [auto|split; [lia|]]]. intros [->|Hl]; [contradiction|]. exfalso.
        pose proof (P c) as Pq. unfold place_ok in Pq. pose proof (C c) as Cc. destruct (s_pc g c) as [| |k|k|k sz'|k sz'|k sz'|k sz'|k|k|k sz'|k sz'|k|k| | |]; cbn in Hl; try discriminate; try contradiction.
        destruct Pq as (Pk & _ & _ & P2). rewrite (Z0 k Pk) in *. contradiction.
      + rewrite Ep. cbn [left]. (split; [first [apply Pc; auto; fail|apply Mk; [exact I'|exact Em|exact (Lk 0%nat)|reflexivity|cbn; auto]|exact G]|split; [auto|split; [lia|intros _; lia]]]).
    - destruct (s_pc g p) as [| |o|o|o sz|o sz|o sz|o sz|o|o|o sz|o sz|o|o| | |] eqn:Ep;
        try (injection E as <-; split; [exact G|intros q; split; [lia|discriminate]]; fail). rewrite Lk in E.
      destruct (o_mutex _); [|discriminate]. destruct (o_seg _); [|discriminate].
      destruct (seg_do op _); try discriminate; injection E as <-;
        (split; [split; [exact I'|]|intros q; cbn; split; [lia|discriminate]]); cbn [put_obj s_name s_next s_obj s_pc];
        (repeat split; auto; [destruct (Nat.eqb_spec 0 o) as [<-|]; auto|intros k; destruct (Nat.eqb_spec k o) as [->|]; cbn; auto]).
  Qed.

  Lemma going_execs c l g g' : 0 < req c < 2 ^ 63 -> Forall quiet l -> going c g -> execs req l g = Ok g' tt ->
    going c g' /\ forall p, (p = c \/ left (s_pc g c) = 0%nat -> (left (s_pc g' p) <= left (s_pc g p) - turns p l)%nat).
  Proof.
    intros Hc. revert g. induction l as [|a l IH]; intros g F G E; cbn [execs] in E.
    - injection E as <-. split; [exact G|]. intros p _. cbn. lia.
    - apply Forall_cons_iff in F. destruct F as [Fa F]. destruct (exec req a g) as [g1 []| | | |] eqn:Ea; cbn [bind] in E; try discriminate.
      destruct (going_exec c a g g1 Hc Fa G Ea) as [G1 D1]. destruct (IH g1 F G1 E) as [G2 D2]. split; [exact G2|]. intros p Hp.
      assert (Hp1 : p = c \/ left (s_pc g1 c) = 0%nat) by (destruct Hp as [Hp|Hp]; [left; exact Hp|right; destruct (D1 c); lia]).
      specialize (D2 p Hp1). destruct (D1 p) as [D3 D4]. unfold turns in *. cbn [filter].
      destruct a as [q|q|q|q op|q|q]; try lia. destruct (Z.eqb_spec q p) as [->|]; [|lia]. cbn [length]. specialize (D4 eq_refl Hp). lia.
  Qed.

  Lemma execs_app l1 l2 g : execs req (l1 ++ l2) g = bind (execs req l1 g) (fun g _ => execs req l2 g).
  Proof. revert g. induction l1 as [|a l IH]; intros g; cbn [app execs bind]; [reflexivity|]. destruct (exec req a g) as [g1 []| | | |]; cbn [bind]; auto. Qed.

  Lemma opens c l1 l2 g p : 0 < req c < 2 ^ 63 -> Forall quiet l1 -> Forall quiet l2 -> (6 <= turns c l1)%nat -> (5 <= turns p l2)%nat ->
    execs req (AStep c :: l1 ++ l2) s_init = Ok g tt -> ready g p 0%nat (req c).
  Proof.
    intros Hc F1 F2 T1 T2 E. change (execs req (l1 ++ l2) (step req c s_init) = Ok g tt) in E. rewrite execs_app in E.
    destruct (execs req l1 (step req c s_init)) as [g1 []| | | |] eqn:E1; cbn [bind] in E; try discriminate.
    assert (G0 : going c (step req c s_init)).
    { split; [exact (inv_step _ c inv_init)|]. cbn. repeat split; auto; [intros o; destruct (Nat.eqb o 0); reflexivity|]. intros q. destruct (Z.eqb_spec q c); auto. }
    destruct (going_execs c l1 _ _ Hc F1 G0 E1) as [G1 D1]. specialize (D1 c (or_introl eq_refl)).
    assert (X : left (s_pc (step req c s_init) c) = 6%nat) by (cbn; now rewrite Z.eqb_refl). rewrite X in D1.
    destruct (going_execs c l2 _ _ Hc F2 G1 E) as [G2 D2]. assert (Z1 : left (s_pc g1 c) = 0%nat) by lia. pose proof (D2 p (or_intror Z1)) as D3.
    destruct G1 as (_ & _ & _ & _ & _ & C1). specialize (C1 p).
    assert (Z2 : left (s_pc g p) = 0%nat).
    { destruct (Z.eq_dec p c) as [->|Np]; [lia|]. destruct (s_pc g1 p); cbn [left] in D3; cbn in C1; try contradiction; lia. }
    destruct G2 as ((P & O & _) & En & Em & Ex & _ & C2). specialize (C2 p). specialize (P p). unfold place_ok in P. unfold ready.
    destruct (s_pc g p) as [| |k|k|k sz|k sz|k sz|k sz|k|k|k sz|k sz|k|k| | |]; cbn in Z2; try discriminate; try contradiction.
    destruct P as (Pk & P1 & P2 & _). assert (k = 0%nat) as -> by lia. destruct (O 0%nat) as (O1 & _). rewrite P1, Em in O1. destruct (O1 P2) as [-> _]. reflexivity.
  Qed.

  Lemma bad_size c : req c = 0 \/ 2 ^ 63 <= req c -> exists g, execs req [AStep c; AStep c; AStep c] s_init = Ok g tt /\ s_pc g c = Failed /\ hopeless req g.
  Proof.
    intros Hc. eexists. split; [reflexivity|].
    assert (X : s_pc (step req c (step req c (step req c s_init))) c = Failed /\ stuck 0 (step req c (step req c (step req c s_init)))).
    { unfold step at 3 6. cbn [s_pc s_init s_name]. unfold step at 2 4. cbn [put_pc s_pc]. rewrite Z.eqb_refl. cbn [s_next].
      destruct (Z.ltb_spec (req c) (2 ^ 63)) as [L|L].
      - assert (Z0 : req c = 0) by lia. rewrite Z0. unfold step. cbn. rewrite Z.eqb_refl. cbn. rewrite Z.eqb_refl. split; [reflexivity|]. split; [reflexivity|]. split; [cbn; discriminate|].
        intros q. cbn. destruct (q =? c); auto.
      - unfold step. cbn. rewrite Z.eqb_refl. cbn. rewrite Z.eqb_refl. split; [reflexivity|]. split; [reflexivity|]. split; [cbn; discriminate|].
        intros q. cbn. destruct (q =? c); auto. }
    destruct X as [X1 X2]. split; [exact X1|]. apply (stuck_hopeless 0). exact X2.
  Qed.
End Inv.
