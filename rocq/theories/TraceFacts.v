(** Proofs about logs of programs. *)
From Coq Require Import String Ascii DecimalString DecimalN.
From Verif Require Import Base BaseFacts NamingModel ReplayModel ReplaySpec ReplayFacts JsonModel StoreModel JsonSpec
  JsonFacts ParseFacts StoreFacts TornFacts TraceModel.

Lemma sb_bs s : sb (bs s) = s.
Proof.
  induction s as [|c s IH]; [reflexivity|]. cbn [bs sb]. rewrite IH, N2Z.id, ascii_N_embedding. reflexivity.
Qed.
Lemma bs_inj a b : bs a = bs b -> a = b.
Proof. intros H. rewrite <- (sb_bs a), H. apply sb_bs. Qed.

Lemma dec_inj a b : 0 <= a -> 0 <= b -> dec a = dec b -> a = b.
Proof.
  intros Ha Hb H. unfold dec in H.
  assert (K : forall n, N.to_uint n <> Decimal.Nil).
  { intros n E.  assert (Y := DecimalN.Unsigned.of_to n). rewrite E in Y. cbn in Y. subst n. discriminate E. }
  assert (X := f_equal NilZero.uint_of_string H). rewrite !NilZero.usu in X by apply K.
  injection X as X. apply (f_equal N.of_uint) in X. rewrite !DecimalN.Unsigned.of_to in X. lia.
Qed.
Lemma argk_inj i j : argk i = argk j -> i = j.
Proof. unfold argk. cbn [append]. intros H. injection H as H. apply dec_inj in H; lia. Qed.

(** ** Lookups in what the builders made *)
Definition keyed {A} (m : list (bytes * A)) : Prop := Forall (fun kv => exists k, fst kv = bs k) m.

Lemma keyed_mset {A} k (v : A) m : keyed m -> keyed (mset (bs k) v m).
Proof.
  unfold keyed. induction 1 as [|[k' v'] m (x & E) Hm IH]; cbn [mset].
  - constructor; [exists k; reflexivity | constructor].
  - cbn [fst] in E. destruct (bcmp (bs k) k').
    + constructor; [exists x; exact E | exact Hm].
    + constructor; [exists k; reflexivity|]. constructor; [exists x; exact E | exact Hm].
    + constructor; [exists x; exact E | exact IH].
Qed.

Definition pairs {A B} (f : A -> B) (m : list (bytes * A)) : list (string * B) := map (fun kv => (sb (fst kv), f (snd kv))) m.

Lemma afind_mset {A B} (f : A -> B) k k' v m : keyed m ->
  afind k (pairs f (mset (bs k') v m)) = if String.eqb k k' then Some (f v) else afind k (pairs f m).
Proof.
  induction 1 as [|[y w] m (x & E) Hm IH]; cbn [mset pairs map afind fst snd].
  - rewrite sb_bs. reflexivity.
  - cbn [fst] in E. subst y. destruct (bcmp (bs k') (bs x)) eqn:C; cbn [map afind fst snd]; rewrite ?sb_bs.
    + apply bcmp_eq, bs_inj in C. subst x. destruct (String.eqb k k'); reflexivity.
    + reflexivity.
    + fold (pairs f (mset (bs k') v m)). rewrite IH. destruct (String.eqb_spec k x); [|reflexivity]. subst x.
      destruct (String.eqb_spec k k'); [|reflexivity]. subst k'. rewrite bcmp_refl in C. discriminate.
Qed.

Section Congruence.
  Variables (fsize : Z) (e e' : event) (st : cstate).
  Hypotheses (N : e_name e = "make_allocator"%string) (N' : e_name e' = "make_allocator"%string)
    (O : e_oper e = true) (O' : e_oper e' = true)
    (S : forall k, afind k (e_str e) = afind k (e_str e')) (M : forall k, afind k (e_num e) = afind k (e_num e'))
    (T : afind "allocator_name" (e_tag e) = afind "allocator_name" (e_tag e')).

  Lemma grab_same n : grab e n = grab e' n.
  Proof.
    induction n as [|n IH]; [reflexivity|]. cbn [grab]. rewrite M. destruct (afind _ (e_num e')); [|exact IH].
    apply map_ext. intros i. unfold nget. rewrite M. reflexivity.
  Qed.
  Lemma args_same cls : args_of cls e = args_of cls e'.
  Proof. unfold args_of, advisor_args, nget, sget. rewrite !S, !M, !grab_same. reflexivity. Qed.
  Lemma make_same : compile_event fsize e st = compile_event fsize e' st.
  Proof.
    unfold compile_event. rewrite N, N', O, O'. cbn [negb String.eqb Ascii.eqb Bool.eqb].
    unfold compile_make_allocator, sget, nget. rewrite !S, !M, T, args_same. reflexivity.
  Qed.
End Congruence.

(** ** The arguments of a new allocator *)
Definition e_keyed (e : ev) : Prop := keyed (v_str e) /\ keyed (v_num e) /\ keyed (v_tag e).

Definition numf (z : Z) : Z := z.
Definition over {A} (a b : option A) : option A := match a with Some v => Some v | None => b end.

(** Keys that no later argument has. *)
Lemma args_other l k i : (forall j, (i <= j)%nat -> k <> argk j) -> forall n, (i <= n)%nat ->
  afind k (arg_strs n l) = None /\ afind k (arg_nums n l) = None.
Proof.
  intros H. induction l as [|a l IH]; intros n Hn; [split; reflexivity|].
  destruct (IH (S n) ltac:(lia)) as (A & B). destruct a; cbn [arg_strs arg_nums afind]; split; try assumption;
    (destruct (String.eqb_spec k (argk n)) as [X|X]; [destruct (H n Hn X) | assumption]).
Qed.

Lemma args_built l : forall i e, e_keyed e ->
  let e' := fold_left bstep (bargs i l) e in
  e_keyed e' /\ v_name e' = v_name e /\ v_cat e' = v_cat e /\ v_tag e' = v_tag e /\
  forall k, afind k (pairs sb (v_str e')) = over (afind k (arg_strs i l)) (afind k (pairs sb (v_str e))) /\
            afind k (pairs numf (v_num e')) = over (afind k (arg_nums i l)) (afind k (pairs numf (v_num e))).
Proof.
  induction l as [|a l IH]; intros i e K; cbn [bargs fold_left].
  - cbn [arg_strs arg_nums afind over]. repeat split; try apply K; reflexivity.
  - destruct (args_other l (argk i) (S i)) with (n := S i) as (Gs & Gn).
    { intros j Hj E. apply argk_inj in E. lia. } { lia. }
    destruct a as [s|z]; cbn [fold_left]; set (e1 := bstep e _).
    + assert (K1 : e_keyed e1).
      { destruct K as (K1 & K2 & K3). split; [apply keyed_mset; exact K1|]. split; assumption. }
      destruct (IH (S i) e1 K1) as (A & B & C & D & U). split; [exact A|]. split; [exact B|]. split; [exact C|]. split; [exact D|].
      intros k. destruct (U k) as (-> & ->). cbn [e1 bstep v_str v_num]. rewrite afind_mset, sb_bs by apply K.
      cbn [arg_strs arg_nums afind]. split; [|reflexivity]. destruct (String.eqb_spec k (argk i)) as [->|X]; [rewrite Gs|]; reflexivity.
    + assert (K1 : e_keyed e1).
      { destruct K as (K1 & K2 & K3). split; [exact K1|]. split; [apply keyed_mset; exact K2 | exact K3]. }
      destruct (IH (S i) e1 K1) as (A & B & C & D & U). split; [exact A|]. split; [exact B|]. split; [exact C|]. split; [exact D|].
      intros k. destruct (U k) as (-> & ->). cbn [e1 bstep v_str v_num]. rewrite afind_mset by apply K.
      cbn [arg_strs arg_nums afind]. split; [reflexivity|]. destruct (String.eqb_spec k (argk i)) as [->|X]; [rewrite Gn|]; reflexivity.
Qed.

(** The tool does the same with the one event and the other. *)
Definition alike (r : rec) (e : event) : Prop :=
  forall fsize st, compile_event fsize (view (meant r)) st = compile_event fsize e st.

Lemma alike_make t r name cls base (tracked : bool) args :
  alike (oper_event t "make_allocator"
         ([BPtr (bs "allocator_ref") r; BStr (bs "type") (bs cls); BNum (bs "introspection") (if tracked then 1 else 0);
           BStr (bs "arg0") (bs base)] ++ bargs 1 args ++ [ntag (bs name); rtag]))
        (mk_event "make_allocator"
         (("allocator_ref", show_s r) :: ("type", cls) :: ("arg0", base) :: arg_strs 1 args)%string
         (("introspection", if tracked then 1 else 0) :: arg_nums 1 args)%string [("allocator_name", name)]%string).
Proof.
  intros fsize st. unfold oper_event, meant, StoreModel.build.
  rewrite (app_comm_cons _ _ (BCat Operation)), (app_comm_cons _ _ (BName _)), !fold_left_app.
  set (e0 := fold_left bstep (BName _ :: _) _).
  assert (K0 : e_keyed e0).
  { split; [|split]; cbn [e0 fold_left bstep v_str v_num v_tag ev0]; repeat apply keyed_mset; constructor. }
  destruct (args_built args 1 e0 K0) as (K & Nm & C & T & U). set (e1 := fold_left bstep (bargs 1 args) e0) in *.
  assert (S0 : forall k, afind k (pairs sb (v_str e0)) = afind k [("allocator_ref", show_s r); ("type", cls); ("arg0", base)]%string).
  { intros k. cbn [e0 fold_left bstep v_str ev0]. rewrite !afind_mset, !sb_bs by (repeat apply keyed_mset; constructor).
    cbn [pairs map afind]. destruct (String.eqb_spec k "arg0") as [->|]; [reflexivity|].
    destruct (String.eqb_spec k "type") as [->|]; reflexivity. }
  assert (M0 : forall k, afind k (pairs numf (v_num e0)) = afind k [("introspection", if tracked then 1 else 0)]%string).
  { intros k. cbn [e0 fold_left bstep v_num ev0]. rewrite !afind_mset by constructor. destruct tracked; reflexivity. }
  assert (Y : forall k, In k ["allocator_ref"; "type"; "introspection"; "arg0"]%string ->
              afind k (arg_strs 1 args) = None /\ afind k (arg_nums 1 args) = None).
  { intros k Hk. apply (args_other args k 1); [|lia]. intros n Hn E.
    cbn [In] in Hk. destruct Hk as [<-|[<-|[<-|[<-|[]]]]]; try discriminate E.
    change "arg0"%string with (argk 0) in E. apply argk_inj in E. lia. }
  apply make_same.
  - cbn [fold_left bstep ntag rtag view e_name v_name]. rewrite Nm. reflexivity.
  - reflexivity.
  - cbn [fold_left bstep ntag rtag view e_oper v_cat]. rewrite C. reflexivity.
  - reflexivity.
  - intros k. cbn [fold_left bstep ntag rtag view e_str v_str mk_event]. change (afind k (pairs sb (v_str e1)) =
      afind k (("allocator_ref", show_s r) :: ("type", cls) :: ("arg0", base) :: arg_strs 1 args)%string).
    destruct (U k) as (-> & _). rewrite S0. cbn [afind].
    destruct (String.eqb_spec k "allocator_ref") as [->|]; [rewrite (proj1 (Y "allocator_ref"%string ltac:(cbn; tauto))); reflexivity|].
    destruct (String.eqb_spec k "type") as [->|]; [rewrite (proj1 (Y "type"%string ltac:(cbn; tauto))); reflexivity|].
    destruct (String.eqb_spec k "arg0") as [->|]; [rewrite (proj1 (Y "arg0"%string ltac:(cbn; tauto))); reflexivity|].
    destruct (afind k (arg_strs 1 args)); reflexivity.
  - intros k. cbn [fold_left bstep ntag rtag view e_num v_num mk_event]. change (afind k (pairs numf (v_num e1)) =
      afind k (("introspection", if tracked then 1 else 0) :: arg_nums 1 args)%string).
    destruct (U k) as (_ & ->). rewrite M0. cbn [afind].
    destruct (String.eqb_spec k "introspection") as [->|]; [rewrite (proj2 (Y "introspection"%string ltac:(cbn; tauto))); reflexivity|].
    destruct (afind k (arg_nums 1 args)); reflexivity.
  - cbn [fold_left bstep ntag rtag view e_tag v_tag mk_event]. change (afind "allocator_name" (pairs sb
      (mset (bs "replay") (bs "true") (mset (bs "allocator_name") (bs name) (v_tag e1)))) = Some name).
    rewrite !afind_mset by (repeat apply keyed_mset; apply K). cbn. rewrite sb_bs. reflexivity.
Qed.

(** ** Events of a fixed shape *)
Lemma details_kept l : forall e, Forall detail l ->
  v_name (fold_left bstep l e) = v_name e /\ v_cat (fold_left bstep l e) = v_cat e.
Proof.
  induction l as [|a l IH]; intros e H; [split; reflexivity|]. inversion H as [|? ? Ha Hl]; subst. cbn [fold_left].
  destruct (IH (bstep e a) Hl) as (-> & ->). destruct a; try contradiction; split; reflexivity.
Qed.

Lemma view_named t name c l : Forall detail l ->
  let v := view (meant (RGeneric (StoreModel.build t (BName (bs name) :: BCat c :: l)))) in
  e_name v = name /\ e_oper v = match c with Operation => true | _ => false end.
Proof.
  intros H. cbn [meant view e_name e_oper]. unfold StoreModel.build. cbn [fold_left].
  match goal with |- context [fold_left bstep l ?e] => destruct (details_kept l e H) as (-> & ->) end.
  cbn [bstep v_name v_cat]. rewrite sb_bs. split; reflexivity.
Qed.

Lemma alike_free t name l : Forall detail l ->
  In name ["copy"; "move"; "memset"; "register_external_allocation"; "deregister_external_allocation"]%string ->
  alike (oper_event t name l) (mk_event name [] [] []).
Proof.
  intros H I fsize st. destruct (view_named t name Operation l H) as (A & B). unfold oper_event, compile_event.
  rewrite A, B. cbn [In] in I. destruct I as [<-|[<-|[<-|[<-|[<-|[]]]]]]; reflexivity.
Qed.

Lemma alike_meta t name l : Forall detail l ->
  alike (RGeneric (StoreModel.build t (BName (bs name) :: BCat Metadata :: l)))
        {| e_name := name; e_oper := false; e_str := []; e_num := []; e_tag := [] |}.
Proof.
  intros H fsize st. destruct (view_named t name Metadata l H) as (A & B). unfold compile_event. rewrite B. reflexivity.
Qed.

Lemma alike_res t r name (tracking : bool) :
  alike (oper_event t "make_memory_resource"
         [BPtr (bs "allocator_ref") r; BNum (bs "introspection") (if tracking then 1 else 0); ntag (bs name); rtag])
        (mk_event "make_memory_resource" [("allocator_ref", show_s r)] [("introspection", 1)] [("allocator_name", name)])%string.
Proof.
  intros fsize st. transitivity (compile_event fsize (mk_event "make_memory_resource" [("allocator_ref", sb (bs (show_s r)))]
    [("introspection", w64 (if tracking then 1 else 0))] [("allocator_name", sb (bs name)); ("replay", "true")])%string st); [reflexivity|].
  rewrite !sb_bs. reflexivity.
Qed.

Lemma alike_ref t a r name : In name ["set_default_allocator"; "release"]%string ->
  alike (oper_event t name [BPtr (bs "allocator_ref") r; ntag a; rtag]) (mk_event name [("allocator_ref"%string, show_s r)] [] []).
Proof.
  intros I fsize st. transitivity (compile_event fsize (mk_event (sb (bs name)) [("allocator_ref", sb (bs (show_s r)))] []
    [("allocator_name", sb a); ("replay", "true")])%string st); [reflexivity|].
  rewrite !sb_bs. cbn [In] in I. destruct I as [<-|[<-|[]]]; reflexivity.
Qed.

Lemma alike_coalesce t name :
  alike (oper_event t "coalesce" [ntag (bs name); rtag]) (mk_event "coalesce" [] [] [("allocator_name", name)])%string.
Proof.
  intros fsize st. transitivity (compile_event fsize (mk_event "coalesce" [] []
    [("allocator_name", sb (bs name)); ("replay", "true")])%string st); [reflexivity|]. rewrite !sb_bs. reflexivity.
Qed.

Lemma alike_re1 t a r p n : 0 <= n < 2 ^ 64 ->
  alike (oper_event t "reallocate" [BPtr (bs "current_ptr") p; BNum (bs "size") n; BPtr (bs "allocator_ref") r; ntag a; rtag])
        (mk_event "reallocate" [("current_ptr", show_s p); ("allocator_ref", show_s r)] [("size", n)] [])%string.
Proof.
  intros Hn fsize st. transitivity (compile_event fsize (mk_event "reallocate"
    [("allocator_ref", sb (bs (show_s r))); ("current_ptr", sb (bs (show_s p)))] [("size", w64 n)]
    [("allocator_name", sb a); ("replay", "true")])%string st); [reflexivity|].
  rewrite !sb_bs, w64_small by exact Hn. reflexivity.
Qed.

Lemma alike_re2 t a r q :
  alike (oper_event t "reallocate" [BPtr (bs "allocator_ref") r; ntag a; BPtr (bs "new_ptr") q])
        (mk_event "reallocate" [("new_ptr", show_s q); ("allocator_ref", show_s r)] [] [])%string.
Proof.
  intros fsize st. transitivity (compile_event fsize (mk_event "reallocate"
    [("allocator_ref", sb (bs (show_s r))); ("new_ptr", sb (bs (show_s q)))] [] [("allocator_name", sb a)])%string st); [reflexivity|].
  rewrite !sb_bs. reflexivity.
Qed.

Lemma alike_alloc t r n q : alike (RAllocate n r q t)
  (mk_event "allocate" [("allocator_ref", show_p r); ("pointer", show_p q)] [("size", n)] [("replay", "true")])%string.
Proof.
  intros fsize st. transitivity (compile_event fsize (mk_event "allocate"
    [("allocator_ref", sb (bs (show_p r))); ("pointer", sb (bs (show_p q)))] [("size", n)] [("replay", "true")])%string st); [reflexivity|].
  rewrite !sb_bs. reflexivity.
Qed.
Lemma alike_dealloc t r p : alike (RDeallocate r p t)
  (mk_event "deallocate" [("allocator_ref", show_p r); ("pointer", show_p p)] [] [("replay", "true")])%string.
Proof.
  intros fsize st. transitivity (compile_event fsize (mk_event "deallocate"
    [("allocator_ref", sb (bs (show_p r))); ("pointer", sb (bs (show_p p)))] [] [("replay", "true")])%string st); [reflexivity|].
  rewrite !sb_bs. reflexivity.
Qed.
Lemma alike_named t r name n q s m g : alike (RNamed n r q name t) (mk_event "named_allocate" s m g).
Proof. intros fsize st. reflexivity. Qed.

(** ** Whole logs *)
Scheme logs_rec' := Induction for logs Sort Prop with logs_all_rec' := Induction for logs_all Sort Prop.

Lemma logs_alike H l : logs_all H l -> Forall2 alike l (records H).
Proof.
  intros L. refine (logs_all_rec' (fun c l _ => Forall2 alike l (record c)) (fun H l _ => Forall2 alike l (records H))
    _ _ _ _ _ _ _ _ _ _ _ _ _ _ _ _ _ H l L); clear H l L; intros.
  - constructor; [apply alike_res | constructor].
  - constructor; [apply alike_make | constructor].
  - constructor; [apply alike_alloc | constructor].
  - constructor; [apply alike_named | constructor].
  - constructor; [apply alike_dealloc | constructor].
  - cbn [record]. constructor; [apply alike_re1; assumption|]. apply Forall2_app; [assumption|].
    destruct q; [constructor; [apply alike_re2|]|]; constructor.
  - constructor; [apply alike_ref; cbn; tauto | constructor].
  - constructor; [apply alike_ref; cbn; tauto | constructor].
  - constructor; [apply alike_coalesce | constructor].
  - constructor; [apply alike_free; cbn; tauto | constructor].
  - constructor; [apply alike_free; cbn; tauto | constructor].
  - constructor; [apply alike_free; cbn; tauto | constructor].
  - constructor; [apply alike_free; cbn; tauto | constructor].
  - constructor; [apply alike_free; cbn; tauto | constructor].
  - constructor; [apply alike_meta; assumption | constructor].
  - constructor.
  - cbn [records]. apply Forall2_app; assumption.
Qed.

Lemma compile_alike fsize l es : Forall2 alike l es -> forall st,
  compile fsize (map view (map meant l)) st = compile fsize es st.
Proof.
  induction 1 as [|r e l es A F IH]; intros st; [reflexivity|]. cbn [map compile]. rewrite A.
  destruct (compile_event fsize e st); cbn [bind]; try reflexivity. apply IH.
Qed.

(** ** The lines are long enough *)
Lemma dump_obj_long m t : dump (JObj m) = DOk t -> (2 <= length t)%nat.
Proof.
  rewrite dump_obj. destruct m as [|kv m]; [intros H; injection H as <-; cbn; lia|]. intros H.
  assert (D := H). change (dump (JObj (kv :: m)) = DOk t) in D || (rewrite <- dump_obj in D).
  destruct (dump_obj_end _ _ D) as (t' & ->). destruct (dmembers (kv :: m)) as [c| | |]; try discriminate.
  cbn [dapp] in H. injection H as H. destruct t' as [|x t']; [destruct c; discriminate H|]. rewrite app_length. cbn. lia.
Qed.

Lemma dump_str_long s t : dump_str s = DOk t -> (2 <= length t)%nat.
Proof.
  unfold dump_str. destruct (dump_escaped s) as [u| | |]; cbn [dbind dapp]; try discriminate.
  intros H. injection H as <-. cbn [app length]. rewrite app_length. cbn [length]. lia.
Qed.
Lemma dmembers_cons k x m t : dmembers ((k, x) :: m) = DOk t ->
  exists a b, dump_str k = DOk a /\ dump x = DOk b /\
    ((m = [] /\ length t = length a + length b + 2)%nat \/
     exists c, dmembers m = DOk c /\ (length t = length a + length b + 2 + length c)%nat).
Proof.
  cbn [dmembers]. destruct (dump_str k) as [a| | |]; cbn [dbind]; try discriminate.
  destruct (dump x) as [b| | |]; cbn [dbind]; try discriminate. intros H. exists a, b. split; [reflexivity|]. split; [reflexivity|].
  destruct m as [|y m].
  - left. split; [reflexivity|]. injection H as <-. rewrite app_length. cbn [length]. rewrite app_length. cbn [length]. lia.
  - right. destruct (dmembers (y :: m)) as [c| | |]; cbn [dapp] in H; try discriminate. exists c. split; [reflexivity|].
    injection H as <-. rewrite !app_length. cbn [length]. rewrite app_length. cbn [length]. lia.
Qed.

Lemma dump_members kv m t : dump (JObj (kv :: m)) = DOk t -> exists u, dmembers (kv :: m) = DOk u /\ length t = S (length u).
Proof.
  rewrite dump_obj. generalize (dmembers (kv :: m)). intros [u| | |]; cbn [dapp]; try discriminate.
  intros H. injection H as <-. exists u. split; reflexivity.
Qed.

Lemma generic_long e t : dump (to_json e) = DOk t -> (72 <= length t)%nat.
Proof.
  rewrite to_json_eq. intros H. apply dump_members in H. destruct H as (u & E & ->).
  apply dmembers_cons in E. destruct E as (a1 & b1 & A1 & B1 & [(X & _)|(c1 & E & L1)]); [discriminate X|].
  apply dmembers_cons in E. destruct E as (a2 & b2 & A2 & B2 & [(X & _)|(c2 & E & L2)]); [discriminate X|].
  apply dmembers_cons in E. destruct E as (a3 & b3 & A3 & B3 & [(X & _)|(c3 & E & L3)]); [discriminate X|].
  apply dmembers_cons in E. destruct E as (a4 & b4 & A4 & B4 & [(X & _)|(c4 & E & L4)]); [discriminate X|].
  apply dmembers_cons in E. destruct E as (a5 & b5 & A5 & B5 & [(X & _)|(c5 & E & L5)]); [discriminate X|].
  assert (length a1 = 10%nat) by (vm_compute in A1; injection A1 as <-; reflexivity).
  assert (length a2 = 6%nat) by (vm_compute in A2; injection A2 as <-; reflexivity).
  assert (length a3 = 14%nat) by (vm_compute in A3; injection A3 as <-; reflexivity).
  assert (length a4 = 13%nat) by (vm_compute in A4; injection A4 as <-; reflexivity).
  assert (length a5 = 6%nat) by (vm_compute in A5; injection A5 as <-; reflexivity).
  assert (10 <= length b1)%nat.
  { destruct (v_cat e); vm_compute in B1; injection B1 as <-; cbn [length]; lia. }
  cbn [dump] in B2. apply dump_str_long in B2. unfold jnums in B3. unfold jstrs in B4, B5.
  apply dump_obj_long in B3. apply dump_obj_long in B4. apply dump_obj_long in B5. lia.
Qed.

Lemma line_long r : writable r -> (72 <= length (line r))%nat.
Proof.
  intros W. destruct (text_ok r W) as (t & D & T & _). unfold line. rewrite T, app_length. cbn [length].
  destruct r as [e|n ref p time|n ref p s time|ref p time].
  - cbn [raw] in D. apply generic_long in D. lia.
  - apply (f_equal (fun d => match d with DOk u => length u | _ => O end)) in T. cbn [text] in T. rewrite !app_length in T. cbn [bs length] in T. lia.
  - apply (f_equal (fun d => match d with DOk u => length u | _ => O end)) in T. cbn [text] in T. rewrite !app_length in T. cbn [bs length] in T. lia.
  - apply (f_equal (fun d => match d with DOk u => length u | _ => O end)) in T. cbn [text] in T. rewrite !app_length in T. cbn [bs length] in T. lia.
Qed.

Lemma lines_long l : Forall writable l -> OPSIZE * Z.of_nat (length l) <= Z.of_nat (length (lines l)).
Proof.
  unfold OPSIZE, lines. induction 1 as [|r l W Wl IH]; [cbn; lia|]. cbn [map concat]. rewrite app_length.
  pose proof (line_long r W). cbn [length]. lia.
Qed.

Lemma Forall2_len {A B} (R : A -> B -> Prop) l l' : Forall2 R l l' -> length l = length l'.
Proof. induction 1; cbn [length]; congruence. Qed.

(** ** From the program to its replay *)
Lemma tool_lines strtod l H : Forall writable l -> logs_all H l ->
  tool strtod (lines l) = ReplayModel.build (Z.of_nat (length (lines l))) (records H).
Proof.
  intros W L. unfold tool. destruct (get_lines strtod l (mk_store (Some (lines l)) true true) W eq_refl eq_refl eq_refl) as (w & -> & _).
  unfold ReplayModel.build. apply compile_alike, logs_alike. exact L.
Qed.

Lemma log_mirrors strtod H e l disk : program H -> logs_all H (RGeneric e :: l) -> Forall writable (RGeneric e :: l) ->
  exists w file cs, record_all (RGeneric e :: l) (mk_store disk true false) = SOk w tt /\
    (forall m, finished (fold_right flush w m) = Some file) /\ tool strtod file = Ok cs tt /\
    forall W (lib : rcall -> W -> outcome W Z) ptrs w, orderly lib -> ptrs 0 = None ->
      (exists rs f, run_all lib cs ptrs w = Ok rs tt /\ mirrors H (r_log rs) f) \/
      (exists rs e H1 H0 f, run_all lib cs ptrs w = Throw rs e /\ H = (H1 ++ H0)%list /\ mirrors H0 (r_log rs) f).
Proof.
  intros P L Wr. destruct (record_file e l disk Wr) as (w & Ew & R). set (all := RGeneric e :: l) in *.
  assert (F2 := logs_alike _ _ L). apply Forall2_len in F2.
  assert (Room := lines_long _ Wr). rewrite F2 in Room.
  destruct (build_inv (Z.of_nat (length (lines all))) H P Room) as (st & idx & E & I).
  exists w, (lines all), st. split; [exact Ew|]. split.
  { intros m. apply recording_finished. induction m as [|n m IH]; [exact R|]. cbn [fold_right]. apply recording_flush. exact IH. }
  rewrite (tool_lines strtod all H Wr L). split; [exact E|]. intros W lib ptrs w0 O Hp0.
  assert (Q := i_run _ _ _ I W lib ptrs w0 O Hp0).
  destruct (run_all lib st ptrs w0) as [rs []|rs x| | |]; cbn [runs_ok] in Q; try contradiction.
  - left. destruct Q as ((f & M & _) & _). eauto.
  - right. destruct Q as (H1 & H0 & f & -> & M). exists rs, x, H1, H0, f. tauto.
Qed.

Lemma texts_long l ts : Forall writable l -> Forall2 (fun r t => text r = DOk t) l ts ->
  OPSIZE * Z.of_nat (length l) <= Z.of_nat (length (concat ts)).
Proof.
  intros W F. pose proof (lines_long l W) as L. unfold lines in L.
  replace ts with (map line l); [exact L|]. clear - F. induction F as [|r t l ts E F IH]; [reflexivity|].
  cbn [map]. rewrite IH. unfold line. rewrite E. reflexivity.
Qed.
