(** Proofs about the C and Fortran interface. *)
From Coq Require Import String Ascii.
From Verif Require Import Base BaseFacts CfModel CfSpec.

(** ** Strings *)

Lemma no_nul_tail : forall c t, no_nul (String c t) -> Ascii.eqb c zero = false /\ no_nul t.
Proof.
  intros c t H. split.
  - destruct (Ascii.eqb_spec c zero) as [E | E]; [exfalso | reflexivity].
    apply (H EmptyString t). rewrite E. reflexivity.
  - intros a b E. apply (H (String c a) b). rewrite E. reflexivity.
Qed.

Lemma c_str_id : forall s, no_nul s -> c_str s = s.
Proof.
  induction s as [ | c t IH]; intros H; [reflexivity | ].
  destruct (no_nul_tail c t H) as [E Ht]. cbn [c_str]. rewrite E, (IH Ht). reflexivity.
Qed.

Lemma strncpy_id : forall s, no_nul s -> strncpy_all s = s.
Proof.
  induction s as [ | c t IH]; intros H; [reflexivity | ].
  destruct (no_nul_tail c t H) as [E Ht]. cbn [strncpy_all]. rewrite E, (IH Ht). reflexivity.
Qed.

Lemma no_end_blank_tail : forall c t, no_end_blank (String c t) -> no_end_blank t.
Proof. intros c t H a E. apply (H (String c a)). rewrite E. reflexivity. Qed.

Lemma f_trim_id : forall s, no_end_blank s -> f_trim s = s.
Proof.
  induction s as [ | c t IH]; intros H; [reflexivity | ].
  cbn [f_trim]. rewrite (IH (no_end_blank_tail c t H)).
  destruct t as [ | c' t']; [ | reflexivity].
  destruct (Ascii.eqb_spec c " ") as [E | E]; [exfalso | reflexivity].
  apply (H EmptyString). rewrite E. reflexivity.
Qed.

Lemma f_trim_no_end_blank : forall s, no_end_blank (f_trim s).
Proof.
  induction s as [ | c t IH]; intros a E.
  - cbn in E. destruct a; discriminate.
  - cbn [f_trim] in E. destruct (f_trim t) as [ | c' t'] eqn:Et.
    + destruct (Ascii.eqb_spec c " ") as [E1 | E1].
      * destruct a; discriminate.
      * destruct a as [ | d a]; [injection E; congruence | ].
        injection E; intros E2 _. destruct a; discriminate.
    + destruct a as [ | d a]; [injection E; intros; discriminate | ].
      injection E; intros E2 _. exact (IH a E2).
Qed.

Lemma c_str_no_nul : forall s, no_nul (c_str s).
Proof.
  induction s as [ | c t IH]; intros a b E.
  - destruct a; discriminate.
  - cbn [c_str] in E. destruct (Ascii.eqb_spec c zero) as [E1 | E1]; [destruct a; discriminate | ].
    destruct a as [ | d a]; injection E; [congruence | intros E2 _; exact (IH a b E2)].
Qed.

Lemma name_in_good : forall fortran s, good_name fortran s -> name_in fortran s = s.
Proof. intros [ | ] s H; [exact (f_trim_id s H) | exact (c_str_id s H)]. Qed.

Lemma name_in_is_good : forall fortran s, good_name fortran (name_in fortran s).
Proof. intros [ | ] s; [exact (f_trim_no_end_blank s) | exact (c_str_no_nul s)]. Qed.

Lemma name_out_good : forall fortran s, no_nul s -> name_out fortran s = s.
Proof. intros [ | ] s H; [exact (strncpy_id s H) | exact (c_str_id s H)]. Qed.

Lemma size_w64 : forall n, size_t n -> w64 n = n.
Proof. intros n H. apply w64_small. unfold size_t in H. exact H. Qed.

Lemma kind_in_good : forall fortran k, good_kind fortran k -> kind_in fortran k = k.
Proof.
  intros f [i b | i b | op d | | | n | d] H; cbn [kind_in good_kind] in *; try reflexivity.
  - destruct H as [H1 H2]. rewrite (size_w64 _ H1), (size_w64 _ H2). reflexivity.
  - destruct H as [H1 H2]. rewrite (size_w64 _ H1), (size_w64 _ H2). reflexivity.
  - rewrite (name_in_good _ _ H). reflexivity.
  - rewrite (size_w64 _ H). reflexivity.
Qed.

(** ** Lists of objects *)

Lemma max_ge : forall l x, In x l -> x <= fold_right Z.max 0 l.
Proof. induction l as [ | y l IH]; cbn [In fold_right]; intros x []; [lia | ]. specialize (IH x H). lia. Qed.

(** ** Fortran arrays *)

Lemma w64_mul : forall a b, w64 (w64 a * b) = w64 (a * b).
Proof. intros a b. unfold w64. rewrite Zmult_mod_idemp_l. reflexivity. Qed.

Lemma fold_wrap : forall dims p, w64 (fold_left (fun p d => w64 (p * d)) dims p) = w64 (p * volume dims).
Proof.
  induction dims as [ | d ds IH]; intros p; cbn [fold_left].
  - unfold volume. cbn [fold_right]. f_equal. lia.
  - rewrite IH, w64_mul. f_equal. unfold volume. cbn [fold_right]. fold (volume ds). ring.
Qed.

Lemma f_bytes_mod : forall elt dims, f_bytes elt dims = w64 (elt * volume dims).
Proof.
  intros elt dims. unfold f_bytes. rewrite <- w64_mul, fold_wrap, w64_mul. f_equal. ring.
Qed.

Lemma volume_nonneg : forall dims, Forall (fun d => 0 <= d) dims -> 0 <= volume dims.
Proof.
  induction 1; unfold volume; cbn [fold_right]; [lia | ]. fold (volume l). apply Z.mul_nonneg_nonneg; assumption.
Qed.

Lemma f_bytes_exact : forall elt dims, 0 < elt -> Forall (fun d => 0 <= d) dims -> elt * volume dims < 2 ^ 64 ->
  f_bytes elt dims = elt * volume dims.
Proof.
  intros elt dims He Hd Hlt. rewrite f_bytes_mod. apply w64_small. unfold M64.
  pose proof (volume_nonneg dims Hd). split; [apply Z.mul_nonneg_nonneg; lia | exact Hlt].
Qed.

Lemma element_range : forall dims idx, in_extents dims idx -> 0 <= element dims idx < volume dims.
Proof.
  induction 1 as [ | d i ds is_ Hi _ IH]; unfold volume; cbn [element fold_right]; [lia | ].
  fold (volume ds). nia.
Qed.

Lemma element_inj : forall dims idx, in_extents dims idx -> forall idx', in_extents dims idx' ->
  element dims idx = element dims idx' -> idx = idx'.
Proof.
  induction 1 as [ | d i ds is_ Hi Hrest IH]; intros idx' H' E; inversion H' as [ | ? i' ? is' Hi' Hrest']; subst; [reflexivity | ].
  cbn [element] in E. pose proof (element_range _ _ Hrest). pose proof (element_range _ _ Hrest').
  assert (element ds is_ = element ds is') by nia.
  f_equal; [nia | apply IH; assumption].
Qed.

Section Facts.
  Context {W : Type} (api : xcall -> W -> outcome W xres) (place : nat -> list Z -> Z) (unwinds fortran : bool).

  Lemma new_addr_ok : forall c : @cstate W, 0 < new_addr place c /\ ~ In (new_addr place c) (in_use c).
  Proof.
    intros c. unfold new_addr. set (a := place (c_news c) (in_use c)).
    destruct ((0 <? a) && negb (existsb (Z.eqb a) (in_use c))) eqn:E.
    - apply andb_true_iff in E. destruct E as [E1 E2]. split; [lia | ].
      intros Hin. apply negb_true_iff in E2. rewrite <- not_true_iff_false in E2. apply E2.
      apply existsb_exists. exists a. split; [exact Hin | apply Z.eqb_refl].
    - assert (H0 : 0 <= fold_right Z.max 0 (in_use c)) by (generalize (in_use c); induction l; cbn [fold_right]; lia).
      split; [lia | ]. intros Hin. apply max_ge in Hin. lia.
  Qed.

  (** An entry of the table: token, address, strategy. *)
  Definition tok (e : nat * (Z * Z)) : nat := fst e.
  Definition addr (e : nat * (Z * Z)) : Z := fst (snd e).

  Record rel (c : @cstate W) (x : @xstate W) (o : owner) (L : list (nat * (Z * Z))) : Prop := mkRel {
    r_w : c_w c = x_w x;
    r_objs : c_objs c = List.map snd L;
    r_strs : c_strs c = [];
    r_live : own_live o = List.map tok L;
    r_toks : NoDup (List.map tok L);
    r_addrs : NoDup (List.map addr L);
    r_pos : Forall (fun e => 0 < addr e) L;
    r_next : Forall (fun e => (tok e < own_next o)%nat) L;
    r_vars : forall v, match own_vars o v with
                       | None => cp_addr (c_vars c v) = 0
                       | Some t => (t < own_next o)%nat /\
                                   forall e, In e L -> tok e = t ->
                                     cp_addr (c_vars c v) = addr e /\ x_vars x v = Some (snd (snd e))
                       end
  }.

  Lemma rel_start : forall w, rel (c_start w) (x_start w) own_start [].
  Proof. intros w. split; cbn; try reflexivity; try constructor. Qed.

  Lemma find_addr : forall (L : list (nat * (Z * Z))) e, NoDup (List.map addr L) -> In e L ->
    List.find (fun o => fst o =? addr e) (List.map snd L) = Some (snd e).
  Proof.
    induction L as [ | y L IH]; intros e Hnd []; cbn [List.map List.find].
    - subst y. unfold addr at 1. rewrite Z.eqb_refl. reflexivity.
    - cbn [List.map] in Hnd. apply NoDup_cons_iff in Hnd. destruct Hnd as [Hn Hnd].
      destruct (fst (snd y) =? addr e) eqn:E; [ | exact (IH e Hnd H)].
      exfalso. apply Hn. apply Z.eqb_eq in E. fold (addr y) in E. rewrite E. apply in_map. exact H.
  Qed.

  Lemma holds_entry : forall c x o L v, rel c x o L -> holds o v ->
    exists e, In e L /\ own_vars o v = Some (tok e) /\ cp_addr (c_vars c v) = addr e /\ x_vars x v = Some (snd (snd e)).
  Proof.
    intros c x o L v R (t & E & Hin). rewrite (r_live _ _ _ _ R) in Hin. apply in_map_iff in Hin.
    destruct Hin as (e & Et & He). exists e. pose proof (r_vars _ _ _ _ R v) as Hv. rewrite E in Hv.
    destruct (proj2 Hv e He Et) as [H1 H2]. rewrite E, Et. auto.
  Qed.

  Lemma holds_at : forall c x o L v, rel c x o L -> holds o v ->
    exists s, at_addr (cp_addr (c_vars c v)) c = Some s /\ x_vars x v = Some s.
  Proof.
    intros c x o L v R Hh. destruct (holds_entry _ _ _ _ _ R Hh) as (e & He & _ & Ha & Hx).
    exists (snd (snd e)). split; [ | exact Hx]. unfold at_addr. rewrite Ha, (r_objs _ _ _ _ R).
    rewrite (find_addr L e (r_addrs _ _ _ _ R) He). reflexivity.
  Qed.

  Lemma rel_set_w : forall c x o L w, rel c x o L -> rel (set_w w c) (mkX w (x_vars x)) o L.
  Proof. intros c x o L w [H1 H2 H3 H4 H5 H6 H7 H8 H9]. split; cbn; auto. Qed.

  Lemma map_store : forall (l : list (Z * Z)) a s, ~ In a (List.map fst l) ->
    List.map (fun o => if fst o =? a then (a, s) else o) l = l.
  Proof.
    induction l as [ | y l IH]; cbn [List.map In]; intros a s Hn; [reflexivity | ].
    rewrite IH by tauto. destruct (fst y =? a) eqn:E; [exfalso; apply Hn; left; lia | reflexivity].
  Qed.

  (** What a step must do on the C side, given what the C++ program does. *)
  Definition agree {A : Type} (R : @cstate W -> @xstate W -> Prop) (oc : outcome (@cstate W) A) (ox : outcome (@xstate W) A) : Prop :=
    match ox with
    | Ok x r => exists c, oc = Ok c r /\ R c x
    | Throw x e => if unwinds then exists c, oc = Throw c e /\ c_w c = x_w x else oc = Abort
    | UB => oc = UB
    | Abort => oc = Abort
    | NoFuel => oc = NoFuel
    end.

  Lemma obtain_agree : forall c x o L v q, good_api api -> rel c x o L ->
    agree (fun c' x' => exists L', rel c' x' (own_new v o) L')
          (c_obtain api place unwinds v q c) (x_bind api v q x).
  Proof.
    intros c x o L v q Hg R. unfold agree, c_obtain, x_bind, x_call, new_allocator, call.
    pose proof (new_addr_ok c) as [Hpos Hnew]. set (a := new_addr place c) in *. clearbody a.
    cbn [c_w]. rewrite (r_w _ _ _ _ R).
    destruct (api q (x_w x)) as [w r | w e | | | ] eqn:E; cbn [omap bind leave]; try reflexivity.
    2: { destruct unwinds; [ | reflexivity]. eexists. split; [reflexivity | reflexivity]. }
    destruct r as [ | z | b | s | s]; try reflexivity.
    eexists. split; [reflexivity | ].
    exists ((own_next o, (a, s)) :: L).
    assert (Ha : ~ In a (List.map addr L)).
    { intros Hin. apply Hnew. unfold in_use. rewrite (r_objs _ _ _ _ R). apply in_or_app. left.
      rewrite map_map. exact Hin. }
    destruct R as [H1 H2 H3 H4 H5 H6 H7 H8 H9].
    assert (Hmap : List.map fst (List.map snd L) = List.map addr L) by (rewrite map_map; reflexivity).
    split; cbn.
    - reflexivity.
    - rewrite Z.eqb_refl, H2, map_store by (rewrite Hmap; exact Ha). reflexivity.
    - exact H3.
    - rewrite H4. reflexivity.
    - apply NoDup_cons; [ | exact H5]. intros Hin. apply in_map_iff in Hin. destruct Hin as (e & Ee & He).
      rewrite Forall_forall in H8. specialize (H8 e He). cbv beta in H8. unfold tok in *. lia.
    - apply NoDup_cons; [exact Ha | exact H6].
    - constructor; [exact Hpos | exact H7].
    - constructor; [unfold tok; cbn; lia | ].
      eapply Forall_impl; [ | exact H8]. intros e. cbv beta. lia.
    - intros u. destruct (Nat.eqb u v).
      + split; [lia | ]. intros e [<- | He] Et; [split; reflexivity | exfalso].
        rewrite Forall_forall in H8. specialize (H8 e He). cbv beta in H8. lia.
      + specialize (H9 u). destruct (own_vars o u) as [t | ]; [ | exact H9].
        destruct H9 as [Ht H9]. split; [lia | ]. intros e [<- | He] Et; [unfold tok in Et; cbn in Et; lia | exact (H9 e He Et)].
  Qed.

  Lemma call_agree : forall c x o L q f, rel c x o L ->
    (forall w r, api q (x_w x) = Ok w r -> f r = r) ->
    agree (fun c' x' => exists L', rel c' x' o L')
          (leave unwinds (omap (fun c' => c') f (call api q c))) (x_call api q x).
  Proof.
    intros c x o L q f R Hf. unfold agree, x_call, call. rewrite (r_w _ _ _ _ R).
    destruct (api q (x_w x)) as [w r | w e | | | ] eqn:E; cbn [omap leave]; try reflexivity.
    - rewrite (Hf w r eq_refl). eexists. split; [reflexivity | ]. exists L. apply rel_set_w. exact R.
    - destruct unwinds; [ | reflexivity]. eexists. split; [reflexivity | reflexivity].
  Qed.

  Lemma call_agree_id : forall c x o L q, rel c x o L ->
    agree (fun c' x' => exists L', rel c' x' o L') (leave unwinds (call api q c)) (x_call api q x).
  Proof.
    intros c x o L q R. pose proof (call_agree c x o L q (fun r => r) R (fun _ _ _ => eq_refl)) as H.
    replace (omap (fun c' => c') (fun r => r) (call api q c)) with (call api q c) in H; [exact H | ].
    destruct (call api q c); reflexivity.
  Qed.

  Lemma drop_filter : forall (L : list (nat * (Z * Z))) e, NoDup (List.map tok L) -> NoDup (List.map addr L) -> In e L ->
    drop_addr (addr e) (List.map snd L) = List.map snd (filter (fun d => negb (Nat.eqb (tok d) (tok e))) L).
  Proof.
    intros L e. unfold drop_addr. intros Ht Ha He.
    assert (Hsame : forall d, In d L -> (fst (snd d) =? addr e) = Nat.eqb (tok d) (tok e)).
    { intros d Hd. change (fst (snd d)) with (addr d). destruct (Nat.eqb_spec (tok d) (tok e)) as [E | E].
      - assert (Hde : d = e).
        { clear Ha. induction L as [ | y L IH]; [destruct Hd | ]. cbn [List.map] in Ht. apply NoDup_cons_iff in Ht.
          destruct Ht as [Hn Ht]. destruct Hd as [<- | Hd], He as [<- | He]; auto.
          - exfalso. apply Hn. rewrite E. apply in_map. exact He.
          - exfalso. apply Hn. rewrite <- E. apply in_map. exact Hd. }
        rewrite Hde. apply Z.eqb_refl.
      - apply Z.eqb_neq. intros Ea. apply E. f_equal.
        clear Ht. induction L as [ | y L IH]; [destruct Hd | ]. cbn [List.map] in Ha. apply NoDup_cons_iff in Ha.
        destruct Ha as [Hn Ha]. destruct Hd as [<- | Hd], He as [<- | He]; auto.
        + exfalso. apply Hn. rewrite Ea. apply in_map. exact He.
        + exfalso. apply Hn. rewrite <- Ea. apply in_map. exact Hd. }
    clear Ht Ha He. induction L as [ | y L IH]; [reflexivity | ]. cbn [List.map filter].
    rewrite (Hsame y (or_introl eq_refl)), IH by (intros d Hd; apply Hsame; right; exact Hd).
    destruct (Nat.eqb (tok y) (tok e)); reflexivity.
  Qed.

  Lemma map_tok_filter : forall (L : list (nat * (Z * Z))) t,
    filter (fun u => negb (Nat.eqb u t)) (List.map tok L) = List.map tok (filter (fun d => negb (Nat.eqb (tok d) t)) L).
  Proof.
    induction L as [ | y L IH]; intros t; [reflexivity | ]. cbn [List.map filter]. rewrite IH.
    destruct (Nat.eqb (tok y) t); reflexivity.
  Qed.

  Lemma NoDup_map_filter : forall {A B} (f : A -> B) (p : A -> bool) l, NoDup (List.map f l) -> NoDup (List.map f (filter p l)).
  Proof.
    induction l as [ | y l IH]; cbn [List.map filter]; intros H; [constructor | ]. apply NoDup_cons_iff in H.
    destruct H as [Hn H]. destruct (p y); [ | exact (IH H)]. cbn [List.map]. apply NoDup_cons; [ | exact (IH H)].
    intros Hin. apply Hn. apply in_map_iff in Hin. destruct Hin as (d & E & Hd). apply filter_In in Hd.
    rewrite <- E. apply in_map. tauto.
  Qed.

  Lemma Forall_filter' : forall {A} (P : A -> Prop) (p : A -> bool) l, Forall P l -> Forall P (filter p l).
  Proof.
    intros A P p l H. rewrite Forall_forall in *. intros y Hy. apply filter_In in Hy. apply H. tauto.
  Qed.

  Lemma delete_agree : forall c x o L v, rel c x o L -> own_ok (SDelete v) o ->
    agree (fun c' x' => exists L', rel c' x' (own_step (SDelete v) o) L') (c_delete v c) (Ok x RUnit).
  Proof.
    intros c x o L v R Hok. cbn [agree own_step own_ok] in *. unfold c_delete.
    destruct Hok as [Hn | Hh].
    - pose proof (r_vars _ _ _ _ R v) as Hv. rewrite Hn in Hv |- *. rewrite Hv. cbn [Z.eqb].
      eexists. split; [reflexivity | ]. exists L. destruct R as [H1 H2 H3 H4 H5 H6 H7 H8 H9]. split; cbn; auto.
      intros u. destruct (Nat.eqb_spec u v) as [-> | _]; [rewrite Hn; reflexivity | exact (H9 u)].
    - destruct (holds_entry _ _ _ _ _ R Hh) as (e & He & Ht & Ha & Hx). rewrite Ht, Ha.
      assert (Hpos : 0 < addr e) by (pose proof (r_pos _ _ _ _ R) as Hp; rewrite Forall_forall in Hp; exact (Hp e He)).
      replace (addr e =? 0) with false by lia.
      assert (Hl : is_live (addr e) (c_objs c) = true).
      { unfold is_live. apply existsb_exists. exists (snd e). split; [ | apply Z.eqb_refl].
        rewrite (r_objs _ _ _ _ R). apply in_map. exact He. }
      rewrite Hl. eexists. split; [reflexivity | ].
      exists (filter (fun d => negb (Nat.eqb (tok d) (tok e))) L).
      destruct R as [H1 H2 H3 H4 H5 H6 H7 H8 H9]. split; cbn.
      + exact H1.
      + rewrite H2. apply drop_filter; assumption.
      + exact H3.
      + rewrite H4. apply map_tok_filter.
      + apply NoDup_map_filter. exact H5.
      + apply NoDup_map_filter. exact H6.
      + apply Forall_filter'. exact H7.
      + apply Forall_filter'. exact H8.
      + intros u. destruct (Nat.eqb u v); [reflexivity | ]. specialize (H9 u).
        destruct (own_vars o u) as [t | ]; [ | exact H9]. destruct H9 as [Hlt H9]. split; [exact Hlt | ].
        intros d Hd. apply filter_In in Hd. apply H9. tauto.
  Qed.

  Lemma backtrace_agree : forall c x o L p, good_api api -> rel c x o L ->
    agree (fun c' x' => exists L', rel c' x' o L') (f_backtrace api place unwinds p c) (x_call api (XBacktrace p) x).
  Proof.
    intros c x o L p Hg R. unfold agree, f_backtrace, x_call, call.
    pose proof (new_addr_ok c) as [Hpos Hnew]. set (a := new_addr place c) in *. clearbody a.
    cbn [c_w]. rewrite (r_w _ _ _ _ R).
    destruct (api (XBacktrace p) (x_w x)) as [w r | w e | | | ] eqn:E; cbn [omap bind leave]; try reflexivity.
    2: { destruct unwinds; cbn [bind]; [ | reflexivity]. eexists. split; reflexivity. }
    destruct (Hg _ _ _ _ E) as (s & -> & Hs).
    cbn. rewrite (r_strs _ _ _ _ R). cbn. rewrite Z.eqb_refl. unfold destructor. cbn.
    replace (a =? 0) with false by lia. unfold is_live, drop_addr. cbn. rewrite Z.eqb_refl. cbn.
    rewrite (strncpy_id s Hs). eexists. split; [reflexivity | ]. exists L.
    destruct R as [H1 H2 H3 H4 H5 H6 H7 H8 H9]. split; cbn; auto.
  Qed.

  Lemma act_call_good : forall v s a, good_stmt fortran (SAct v a) -> act_call fortran s a = x_act s a.
  Proof.
    intros v s a H. destruct a; cbn [act_call x_act good_stmt] in *; try reflexivity;
      try rewrite (size_w64 _ H); try rewrite (name_in_good _ _ H); reflexivity.
  Qed.

  Lemma step_agree : forall s c x o L, good_api api -> good_stmt fortran s -> rel c x o L -> own_ok s o ->
    agree (fun c' x' => exists L', rel c' x' (own_step s o) L')
          (c_exec api place unwinds fortran s c) (x_exec api s x).
  Proof.
    intros s c x o L Hg Hs R Hok. destruct s as [v f | v k n parent | v a | a | v | v v']; cbn [c_exec x_exec own_step].
    - destruct f as [n | i | p]; unfold c_get.
      + cbn in Hs. rewrite (name_in_good _ _ Hs). eapply obtain_agree; eassumption.
      + eapply obtain_agree; eassumption.
      + eapply obtain_agree; eassumption.
    - destruct Hs as [Hk Hn]. destruct (holds_at _ _ _ _ _ R Hok) as (b & Hb & Hx). unfold c_make.
      rewrite Hb, Hx, (kind_in_good _ _ Hk), (name_in_good _ _ Hn). eapply obtain_agree; eassumption.
    - destruct (holds_at _ _ _ _ _ R Hok) as (b & Hb & Hx). unfold c_act. rewrite Hb, Hx.
      rewrite (act_call_good v b a Hs). eapply call_agree; [exact R | ].
      intros w r E. apply Hg in E. destruct a; try reflexivity.
      + destruct E as (t & -> & Ht). cbn. rewrite (name_out_good _ _ Ht). reflexivity.
      + destruct E as (i & -> & Hi). cbn [act_result]. rewrite (size_w64 _ Hi). reflexivity.
    - destruct a; cbn [good_stmt] in Hs; cbn [c_plain plain_call x_plain]; try contradiction;
        try rewrite (size_w64 _ Hs); try rewrite (name_in_good _ _ Hs);
        try (eapply call_agree_id; eassumption).
      eapply backtrace_agree; eassumption.
    - eapply delete_agree; eassumption.
    - cbn [agree]. eexists. split; [reflexivity | ]. exists L.
      destruct R as [H1 H2 H3 H4 H5 H6 H7 H8 H9]. split; cbn; auto.
      intros u. destruct (Nat.eqb u v); [exact (H9 v') | exact (H9 u)].
  Qed.

  Lemma run_agree : forall p o c x L, good_api api -> Forall (good_stmt fortran) p ->
    (forall a s b, p = a ++ s :: b -> own_ok s (own_after a o)) -> rel c x o L ->
    agree (fun c' x' => exists L', rel c' x' (own_after p o) L')
          (c_run api place unwinds fortran p c) (x_run api p x).
  Proof.
    induction p as [ | s t IH]; intros o c x L Hg Hp Hc R.
    - cbn. eexists. split; [reflexivity | ]. exists L. exact R.
    - inversion Hp as [ | ? ? Hs Ht]; subst. pose proof (Hc [] s t eq_refl) as Hok. cbn in Hok.
      pose proof (step_agree s c x o L Hg Hs R Hok) as Hstep. cbn [c_run x_run].
      destruct (x_exec api s x) as [x1 r | x1 e | | | ] eqn:E; unfold agree in Hstep.
      + destruct Hstep as (c1 & -> & L1 & R1). cbn [bind].
        assert (Hc' : forall a s' b, t = a ++ s' :: b -> own_ok s' (own_after a (own_step s o))).
        { intros a s' b Et. apply (Hc (s :: a) s' b). rewrite Et. reflexivity. }
        pose proof (IH (own_step s o) c1 x1 L1 Hg Ht Hc' R1) as Hrest. unfold agree in *.
        destruct (x_run api t x1) as [x2 rs | x2 e | | | ].
        * destruct Hrest as (c2 & -> & H2). cbn [bind]. exists c2. split; [reflexivity | exact H2].
        * destruct unwinds; [destruct Hrest as (c2 & -> & H2); exists c2; split; [reflexivity | exact H2] | rewrite Hrest; reflexivity].
        * rewrite Hrest. reflexivity.
        * rewrite Hrest. reflexivity.
        * rewrite Hrest. reflexivity.
      + unfold agree. destruct unwinds; [destruct Hstep as (c1 & -> & H1); exists c1; split; [reflexivity | exact H1] | rewrite Hstep; reflexivity].
      + unfold agree. rewrite Hstep. reflexivity.
      + unfold agree. rewrite Hstep. reflexivity.
      + unfold agree. rewrite Hstep. reflexivity.
  Qed.

  Lemma same_as_cpp : forall p w, good_api api -> Forall (good_stmt fortran) p -> careful p ->
    match x_run api p (x_start w) with
    | Ok x rs =>
        exists c, c_run api place unwinds fortran p (c_start w) = Ok c rs /\ c_w c = x_w x /\
                  length (c_objs c) = length (own_live (own_after p own_start)) /\ c_strs c = []
    | Throw x e =>
        if unwinds then exists c, c_run api place unwinds fortran p (c_start w) = Throw c e /\ c_w c = x_w x
        else c_run api place unwinds fortran p (c_start w) = Abort
    | UB => c_run api place unwinds fortran p (c_start w) = UB
    | Abort => c_run api place unwinds fortran p (c_start w) = Abort
    | NoFuel => c_run api place unwinds fortran p (c_start w) = NoFuel
    end.
  Proof.
    intros p w Hg Hp Hc. pose proof (run_agree p own_start (c_start w) (x_start w) [] Hg Hp Hc (rel_start w)) as H.
    unfold agree in H. destruct (x_run api p (x_start w)) as [x rs | x e | | | ]; try exact H.
    destruct H as (c & E & L & R). exists c. split; [exact E | ]. split; [exact (r_w _ _ _ _ R) | ].
    split; [ | exact (r_strs _ _ _ _ R)]. rewrite (r_objs _ _ _ _ R), (r_live _ _ _ _ R), !map_length. reflexivity.
  Qed.

  (** Equality of handles. *)
  Lemma eq_tokens : forall p w c rs v v', good_api api -> Forall (good_stmt fortran) p -> careful p ->
    c_run api place unwinds fortran p (c_start w) = Ok c rs ->
    holds (own_after p own_start) v -> holds (own_after p own_start) v' ->
    (f_eq v v' c = true <-> own_vars (own_after p own_start) v = own_vars (own_after p own_start) v').
  Proof.
    intros p w c rs v v' Hg Hp Hc Erun Hv Hv'.
    pose proof (run_agree p own_start (c_start w) (x_start w) [] Hg Hp Hc (rel_start w)) as H.
    unfold agree in H. rewrite Erun in H.
    destruct (x_run api p (x_start w)) as [x rs' | x e | | | ]; try discriminate.
    2: { destruct unwinds; [destruct H as (? & H & _) | ]; discriminate. }
    destruct H as (c' & E & L & R). injection E; intros _ <-. clear E Erun.
    destruct (holds_entry _ _ _ _ _ R Hv) as (e & He & Ht & Ha & _).
    destruct (holds_entry _ _ _ _ _ R Hv') as (e' & He' & Ht' & Ha' & _).
    rewrite Ht, Ht'. unfold f_eq. rewrite Ha, Ha'.
    assert (Hpos : 0 < addr e) by (pose proof (r_pos _ _ _ _ R) as Hp0; rewrite Forall_forall in Hp0; exact (Hp0 e He)).
    replace (addr e =? 0) with false by lia. cbn [negb andb].
    pose proof (find_addr L e (r_addrs _ _ _ _ R) He) as F. pose proof (find_addr L e' (r_addrs _ _ _ _ R) He') as F'.
    split.
    - intros Eq. f_equal. apply Z.eqb_eq in Eq.
      pose proof (r_addrs _ _ _ _ R) as Hnd. clear - Hnd He He' Eq.
      induction L as [ | y L IH]; [destruct He | ]. cbn [List.map] in Hnd. apply NoDup_cons_iff in Hnd.
      destruct Hnd as [Hn Hnd]. destruct He as [<- | He], He' as [<- | He']; auto.
      + exfalso. apply Hn. rewrite Eq. apply in_map. exact He'.
      + exfalso. apply Hn. rewrite <- Eq. apply in_map. exact He.
    - intros Eq. injection Eq; intros Et. apply Z.eqb_eq.
      pose proof (r_toks _ _ _ _ R) as Hnd. clear - Hnd He He' Et.
      induction L as [ | y L IH]; [destruct He | ]. cbn [List.map] in Hnd. apply NoDup_cons_iff in Hnd.
      destruct Hnd as [Hn Hnd]. destruct He as [<- | He], He' as [<- | He']; auto.
      + exfalso. apply Hn. rewrite Et. apply in_map. exact He'.
      + exfalso. apply Hn. rewrite <- Et. apply in_map. exact He.
  Qed.

  (** What a variable may hold: nothing, or an object that the generated destructor knows to be an Allocator. *)
  Definition caps_ok (c : @cstate W) : Prop := forall v, cp_addr (c_vars c v) = 0 \/ cp_idtor (c_vars c v) = 1.

  Lemma call_vars : forall q c c' r, call api q c = Ok c' r -> c_vars c' = c_vars c.
  Proof. intros q c c' r H. unfold call in H. destruct (api q (c_w c)); cbn [omap] in H; try discriminate. injection H as <- _. reflexivity. Qed.

  Lemma leave_ok : forall {A} (o : outcome (@cstate W) A) c' r, leave unwinds o = Ok c' r -> o = Ok c' r.
  Proof. intros A o c' r. unfold leave. destruct o; auto; destruct unwinds; discriminate. Qed.

  Lemma obtain_caps : forall v q c c' r, c_obtain api place unwinds v q c = Ok c' r -> caps_ok c -> caps_ok c'.
  Proof.
    intros v q c c' r H Hc. apply leave_ok in H. destruct (new_allocator place c) as [c1 a] eqn:En.
    assert (V : c_vars c1 = c_vars c) by (unfold new_allocator in En; injection En as <- _; reflexivity).
    destruct (call api q c1) as [c2 r2 | | | | ] eqn:Ec; cbn [bind] in H; try discriminate.
    apply call_vars in Ec. destruct r2; try discriminate. injection H as <- _. intros u. cbn.
    destruct (Nat.eqb u v); [right; reflexivity | ]. rewrite Ec, V. apply Hc.
  Qed.

  Lemma exec_caps : forall s c c' r, c_exec api place unwinds fortran s c = Ok c' r -> caps_ok c -> caps_ok c'.
  Proof.
    intros s c c' r H Hc. destruct s as [v f | v k n parent | v x | x | v | v v']; cbn [c_exec] in H.
    - unfold c_get in H. destruct f; eauto using obtain_caps.
    - unfold c_make in H. destruct (at_addr _ c); [ | discriminate]. eauto using obtain_caps.
    - assert (V : c_vars c' = c_vars c); [ | intros u; rewrite V; apply Hc].
      unfold c_act in H. destruct (at_addr _ c) as [s | ]; [ | discriminate]. apply leave_ok in H.
      destruct (call api _ c) as [c1 r1 | | | | ] eqn:E; cbn [bind] in H; try discriminate. apply call_vars in E.
      destruct x, r1; try discriminate; injection H as <- _; exact E.
    - assert (V : c_vars c' = c_vars c); [ | intros u; rewrite V; apply Hc].
      destruct x; cbn [c_plain] in H; try (apply leave_ok in H; eapply call_vars; exact H).
      unfold f_backtrace in H. destruct (leave unwinds _) as [c2 r2 | | | | ] eqn:E; cbn [bind] in H; try discriminate.
      apply leave_ok, call_vars in E. destruct r2; try discriminate. unfold destructor in H. cbn [cp_idtor cp_addr Z.eqb] in H.
      cbn [Pos.eqb] in H.
      destruct (new_addr place c =? 0); [injection H as <- _; exact E | ].
      destruct (is_live _ _); cbn [bind] in H; [ | discriminate]. injection H as <- _. exact E.
    - unfold c_delete in H. destruct (cp_addr (c_vars c v) =? 0).
      + injection H as <- _. intros u. cbn. destruct (Nat.eqb u v); [left; reflexivity | apply Hc].
      + destruct (is_live _ _); [ | discriminate]. injection H as <- _. intros u. cbn. destruct (Nat.eqb u v); [left; reflexivity | apply Hc].
    - injection H as <- _. intros u. cbn. destruct (Nat.eqb u v); apply Hc.
  Qed.

  Lemma run_caps : forall p c c' rs, c_run api place unwinds fortran p c = Ok c' rs -> caps_ok c -> caps_ok c'.
  Proof.
    induction p as [ | s p IH]; intros c c' rs H Hc; cbn [c_run] in H; [injection H as <- _; exact Hc | ].
    destruct (c_exec api place unwinds fortran s c) as [c1 r | | | | ] eqn:E; cbn [bind] in H; try discriminate.
    destruct (c_run api place unwinds fortran p c1) as [c2 rs' | | | | ] eqn:E2; cbn [bind] in H; try discriminate.
    injection H as <- _. eapply IH; [exact E2 | ]. eapply exec_caps; eassumption.
  Qed.

  Lemma destructor_deletes : forall p w c rs v, c_run api place unwinds fortran p (c_start w) = Ok c rs ->
    match c_delete v c with
    | Ok c' _ =>
        exists c'', destructor (c_vars c v) c = Ok c'' (mkCap 0 0) /\ c_w c'' = c_w c' /\ c_objs c'' = c_objs c' /\
        c_strs c'' = c_strs c' /\ destructor (mkCap 0 0) c'' = Ok c'' (mkCap 0 0)
    | _ => destructor (c_vars c v) c = UB
    end.
  Proof.
    intros p w c rs v H. assert (Hc : caps_ok c) by (eapply run_caps; [exact H | intros u; left; reflexivity]).
    specialize (Hc v). unfold c_delete. destruct (Z.eqb_spec (cp_addr (c_vars c v)) 0) as [E | E].
    - exists c. split; [ | repeat split; reflexivity]. unfold destructor. rewrite E.
      destruct (cp_idtor (c_vars c v) =? 1); [reflexivity | ]. destruct (cp_idtor (c_vars c v) =? 2); reflexivity.
    - destruct Hc as [Hc | Hc]; [contradiction | ].
      assert (D : destructor (c_vars c v) c = if is_live (cp_addr (c_vars c v)) (c_objs c)
                  then Ok (set_objs (drop_addr (cp_addr (c_vars c v)) (c_objs c)) c) (mkCap 0 0) else UB).
      { unfold destructor. rewrite Hc, (proj2 (Z.eqb_neq _ _) E). reflexivity. }
      rewrite D. destruct (is_live _ _); [ | reflexivity]. eexists. split; [reflexivity | ]. repeat split; reflexivity.
  Qed.

  (** A throw out of a function that returns an allocator. *)
  Lemma obtain_throw : forall v q (c : @cstate W) w e, api q (c_w c) = Throw w e ->
    c_obtain api place true v q c =
    Throw (mkC w ((new_addr place c, -1) :: c_objs c) (c_strs c) (S (c_news c)) (c_vars c)) e
    /\ c_obtain api place false v q c = Abort.
  Proof.
    intros v q c w e E. unfold c_obtain, new_allocator, call. cbn [c_w]. rewrite E. split; reflexivity.
  Qed.

  Lemma array_alloc : forall v elt rank dims c c' a,
    f_allocate_array api unwinds fortran v elt rank dims c = Ok c' a ->
    fa_dims a = dims /\ length dims = rank /\
    exists s, at_addr (cp_addr (c_vars c v)) c = Some s /\
              api (XAllocate s (f_bytes elt dims)) (c_w c) = Ok (c_w c') (RNum (fa_base a)) /\
              c' = set_w (c_w c') c.
  Proof.
    clear place. intros v elt rank dims c c' a E. unfold f_allocate_array, c_act in E.
    destruct (at_addr (cp_addr (c_vars c v)) c) as [s | ]; [ | discriminate].
    cbn [act_call] in E. unfold call in E.
    assert (Ew : w64 (f_bytes elt dims) = f_bytes elt dims).
    { unfold f_bytes, w64. apply Z.mod_mod. unfold M64. lia. }
    rewrite Ew in E.
    destruct (api (XAllocate s (f_bytes elt dims)) (c_w c)) as [w r | w e | | | ] eqn:Ea; cbn [omap leave bind act_result] in E.
    - destruct r as [ | z | b | z | t]; try discriminate.
      destruct (Nat.eqb_spec (length dims) rank); [ | discriminate].
      injection E; intros <- <-. cbn. split; [reflexivity | ]. split; [assumption | ]. exists s. split; [reflexivity | ]. split; [exact Ea | reflexivity].
    - destruct unwinds; discriminate.
    - discriminate.
    - discriminate.
    - discriminate.
  Qed.
End Facts.

(** ** Checking care *)

Fixpoint careful_from (p : list stmt) (o : owner) : Prop :=
  match p with
  | [] => True
  | s :: t => own_ok s o /\ careful_from t (own_step s o)
  end.

Lemma careful_from_ok : forall p o, careful_from p o -> forall a s b, p = a ++ s :: b -> own_ok s (own_after a o).
Proof.
  induction p as [ | s' p IH]; intros o H a s b E; [destruct a; discriminate | ].
  destruct H as [H1 H2]. destruct a as [ | s0 a]; injection E; intros; subst; [exact H1 | ].
  cbn. exact (IH _ H2 a s b eq_refl).
Qed.

Lemma no_leak : forall {W : Type} (api : xcall -> W -> outcome W xres) place unwinds fortran p w c rs,
  good_api api -> Forall (good_stmt fortran) p -> careful p -> own_live (own_after p own_start) = [] ->
  c_run api place unwinds fortran p (c_start w) = Ok c rs -> c_objs c = [] /\ c_strs c = [].
Proof.
  intros W api place unwinds fortran p w c rs Hg Hp Hc Hl E.
  pose proof (same_as_cpp api place unwinds fortran p w Hg Hp Hc) as H. rewrite E in H.
  destruct (x_run api p (x_start w)) as [x rs' | x e | | | ]; try discriminate.
  - destruct H as (c' & E' & _ & Hlen & Hs). injection E'; intros _ <-. rewrite Hl in Hlen. cbn in Hlen.
    split; [ | exact Hs]. destruct (c_objs c); [reflexivity | discriminate].
  - destruct unwinds; [destruct H as (? & H & _) | ]; discriminate.
Qed.

(** ** A small library: two allocators, two words of memory at 1 and 2 *)

Definition toy (x : xcall) (w : Z * Z) : outcome (Z * Z) xres :=
  match x with
  | XByName n => if String.eqb n "HOST" then Ok w (RAlloc 10) else if String.eqb n "POOL" then Ok w (RAlloc 20)
                 else Throw w RuntimeError
  | XById i => Ok w (RAlloc i)
  | XForPtr p => Throw w UnknownPointer
  | XMake _ _ a => Ok w (RAlloc (a + 1))
  | XName a => Ok w (RStr (if a =? 10 then "HOST" else "POOL"))
  | XId a => Ok w (RNum (a mod 2))
  | XAllocate _ n => Ok w (RNum 4096)
  | XGetSize _ _ | XHighWatermark _ | XCurrentSize _ | XActualSize _ | XCount _
  | XReallocate _ _ | XReallocateWith _ _ _ | XMove _ _ | XRmGetSize _ => Ok w (RNum 64)
  | XIsName _ | XIsId _ | XHas _ => Ok w (RBool true)
  | XBacktrace _ => Ok w (RStr "[none]")
  | XCopy dst src _ => Ok (if src =? 1 then (if dst =? 2 then (fst w, fst w) else w)
                           else if dst =? 1 then (snd w, snd w) else w) RUnit
  | _ => Ok w RUnit
  end.

Fixpoint nul_free (s : string) : bool :=
  match s with EmptyString => true | String c t => negb (Ascii.eqb c zero) && nul_free t end.
Lemma nul_free_ok : forall s, nul_free s = true -> no_nul s.
Proof.
  induction s as [ | c t IH]; cbn [nul_free]; intros H a b E.
  - destruct a; discriminate.
  - apply andb_true_iff in H. destruct H as [H1 H2]. destruct a as [ | d a]; injection E; intros.
    + subst c. discriminate.
    + exact (IH H2 a b H).
Qed.
Lemma trimmed_ok : forall s, String.eqb (f_trim s) s = true -> no_end_blank s.
Proof. intros s H. apply String.eqb_eq in H. rewrite <- H. apply f_trim_no_end_blank. Qed.

Lemma toy_good : good_api toy.
Proof.
  intros x w w' r E. destruct x; cbn in E |- *;
    repeat match type of E with context [if ?b then _ else _] => destruct b eqn:?; try discriminate end;
    try discriminate; injection E; intros; subst; eauto;
    try (eexists; split; [reflexivity | apply nul_free_ok; reflexivity]).
  eexists. split; [reflexivity | ]. unfold size_t. pose proof (Z.mod_pos_bound a 2). lia.
Qed.

(** ** Arrays *)

Lemma array_inside : forall {W : Type} (api : xcall -> W -> outcome W xres) unwinds v elt rank dims c c' a,
  0 < elt -> Forall (fun d => 0 <= d) dims -> elt * volume dims < 2 ^ 64 ->
  f_allocate_array api unwinds true v elt rank dims c = Ok c' a ->
  exists s n, at_addr (cp_addr (c_vars c v)) c = Some s /\ api (XAllocate s n) (c_w c) = Ok (c_w c') (RNum (fa_base a)) /\
    n = elt * volume dims /\ fa_dims a = dims /\ length dims = rank /\
    forall idx b, in_extents (fa_dims a) idx -> elem_byte a elt idx b -> fa_base a <= b < fa_base a + n.
Proof.
  intros W api unwinds v elt rank dims c c' a He Hd Hlt E.
  destruct (array_alloc api unwinds true v elt rank dims c c' a E) as (E1 & E2 & s & Hs & Ha & _).
  rewrite (f_bytes_exact elt dims He Hd Hlt) in Ha.
  exists s, (elt * volume dims). split; [exact Hs|]. split; [exact Ha|]. split; [reflexivity|]. split; [exact E1|].
  split; [exact E2|]. rewrite E1. intros idx b Hi Hb. unfold elem_byte in Hb. rewrite E1 in Hb.
  pose proof (element_range _ _ Hi). nia.
Qed.

Lemma array_apart : forall a elt idx idx' b, 0 < elt -> in_extents (fa_dims a) idx -> in_extents (fa_dims a) idx' ->
  elem_byte a elt idx b -> elem_byte a elt idx' b -> idx = idx'.
Proof.
  intros a elt idx idx' b He H H' Hb Hb'. apply (element_inj _ _ H _ H'). unfold elem_byte in *. nia.
Qed.

Lemma element_onto : forall dims k, Forall (fun d => 0 <= d) dims -> 0 <= k < volume dims ->
  exists idx, in_extents dims idx /\ element dims idx = k.
Proof.
  induction dims as [|d ds IH]; intros k Hd Hk.
  - exists []. split; [constructor|]. unfold volume in Hk. cbn in *. lia.
  - inversion Hd as [|? ? Hd0 Hds]; subst. unfold volume in Hk. cbn [fold_right] in Hk. fold (volume ds) in Hk.
    pose proof (volume_nonneg ds Hds) as Hv. assert (Hd1 : 0 < d) by nia.
    pose proof (Z.div_mod k d ltac:(lia)) as Edm. pose proof (Z.mod_pos_bound k d Hd1) as Hm.
    destruct (IH (k / d) Hds) as (idx & Hi & Ei).
    { split; [apply Z.div_pos; lia|]. apply Z.div_lt_upper_bound; lia. }
    exists ((k mod d + 1) :: idx). split; [constructor; [lia|exact Hi]|]. cbn [element]. rewrite Ei. lia.
Qed.

Lemma array_filled : forall a elt b, 0 < elt -> Forall (fun d => 0 <= d) (fa_dims a) ->
  fa_base a <= b < fa_base a + elt * volume (fa_dims a) -> exists idx, in_extents (fa_dims a) idx /\ elem_byte a elt idx b.
Proof.
  intros a elt b He Hd Hb.
  pose proof (Z.div_mod (b - fa_base a) elt ltac:(lia)) as Edm. pose proof (Z.mod_pos_bound (b - fa_base a) elt He) as Hm.
  destruct (element_onto (fa_dims a) ((b - fa_base a) / elt) Hd) as (idx & Hi & Ei).
  { split; [apply Z.div_pos; lia|]. apply Z.div_lt_upper_bound; lia. }
  exists idx. split; [exact Hi|]. unfold elem_byte. rewrite Ei. lia.
Qed.

Lemma array_round_trip : forall {W : Type} (api : xcall -> W -> outcome W xres) unwinds v elt rank dims c c' a w r,
  f_allocate_array api unwinds true v elt rank dims c = Ok c' a ->
  forall s p, at_addr (cp_addr (c_vars c v)) c = Some s ->
  api (XAllocate s (f_bytes elt dims)) (c_w c) = Ok (c_w c') (RNum p) ->
  api (XDeallocate s p) (c_w c') = Ok w r -> f_deallocate_array api unwinds true v a c' = Ok (set_w w c') r.
Proof.
  intros W api unwinds v elt rank dims c c' a w r E s p Hs Hp Hd.
  destruct (array_alloc api unwinds true v elt rank dims c c' a E) as (_ & _ & s' & Hs' & Ha & Ec).
  rewrite Hs in Hs'. injection Hs'; intros <-. rewrite Hp in Ha. injection Ha; intros Ep.
  unfold f_deallocate_array, c_act. rewrite <- Ep.
  assert (Hs2 : at_addr (cp_addr (c_vars c' v)) c' = Some s) by (rewrite Ec; exact Hs).
  rewrite Hs2. cbn [act_call]. unfold call. rewrite Hd. cbn [omap leave]. destruct r; reflexivity.
Qed.
