From Coq Require Import String.
From Verif Require Import Base BaseFacts ReplayModel JsonModel StoreModel JsonSpec Utf8Facts JsonFacts ParseFacts StoreFacts TornFacts SqlModel SqlSpec.

(** ** No quotes in the text *)
Definition nq (s : bytes) : Prop := Forall (fun b => b <> 39) s.
Lemma nq_in s : no_quote s <-> nq s.
Proof.
  unfold no_quote, nq. rewrite Forall_forall. split; [intros H x I E | intros H I; apply (H 39 I); reflexivity].
  subst x. auto.
Qed.
Lemma nq_b s : forallb (fun b => negb (b =? 39)) s = true -> nq s.
Proof. intros H. apply Forall_forall. intros x Hx. rewrite forallb_forall in H. specialize (H x Hx). lia. Qed.
Lemma nq_app a b : nq a -> nq b -> nq (a ++ b).
Proof. intros. apply Forall_app. auto. Qed.

Lemma hexd_nq n : 0 <= n -> hexd n <> 39.
Proof. intros H. unfold hexd. destruct (n <? 10); lia. Qed.
Lemma esc_nq s : nq s -> nq (esc s).
Proof.
  induction 1 as [|b s Hb Hs IH]; [constructor|]. change (esc (b :: s)) with (esc1 b ++ esc s). apply nq_app; [|exact IH].
  unfold esc1, escape, u4.
  repeat match goal with |- context [if ?c then _ else _] => destruct c end;
    repeat apply Forall_cons; try apply Forall_nil; try lia; apply hexd_nq, Z.mod_pos_bound; lia.
Qed.
Lemma show_nq z : - 2 ^ 64 < z < 2 ^ 64 -> nq (show_d z).
Proof.
  intros H. unfold show_d.
  assert (A : forall a, 0 <= a < 2 ^ 64 -> nq (digits 20 a [])).
  { intros a Ha. destruct (pow20 a ltac:(lia)) as (P1 & _ & _).
    destruct (digits_ok 20 a [] ltac:(lia) ltac:(lia)) as (d & -> & _ & D & _). rewrite app_nil_r.
    eapply Forall_impl; [|exact D]. unfold dig. intros; lia. }
  destruct (Z.ltb_spec z 0); [constructor; [lia|]|]; apply A; lia.
Qed.

(** Values without a quote in their strings. *)
Inductive jnq : json -> Prop :=
| q_null : jnq JNull
| q_bool b : jnq (JBool b)
| q_int z : jnq (JInt z)
| q_uns z : jnq (JUns z)
| q_str s : nq s -> jnq (JStr s)
| q_arr l : Forall jnq l -> jnq (JArr l)
| q_obj m : Forall (fun kv => nq (fst kv)) m -> Forall (fun kv => jnq (snd kv)) m -> jnq (JObj m).

Lemma dump_str_nq s : utf8 s -> nq s -> exists t, dump_str s = DOk t /\ nq t.
Proof.
  intros U Q. rewrite dump_str_ok by exact U. eexists. split; [reflexivity|]. constructor; [lia|].
  apply nq_app; [apply esc_nq; exact Q | apply nq_b; reflexivity].
Qed.

Lemma dump_nq j : raw_ok j -> jnq j -> exists t, dump j = DOk t /\ nq t.
Proof.
  induction j as [|b|z|z|z|s|l IH|m IH] using json_rec'; intros G Q; inversion G; inversion Q; subst.
  - eexists. split; [reflexivity|]. apply nq_b. reflexivity.
  - destruct b; (eexists; split; [reflexivity|]; apply nq_b; reflexivity).
  - exists (show_d z). split; [apply dump_integer_show; lia | apply show_nq; lia].
  - exists (show_d z). split; [apply dump_integer_show; lia | apply show_nq; lia].
  - apply dump_str_nq; assumption.
  - rewrite dump_arr. clear G Q.
    assert (A : l <> [] -> exists t, delems l = DOk t /\ nq t).
    { induction l as [|x l IHl]; [congruence|]. intros _. inversion IH; inversion H0; inversion H2; subst.
      destruct (H3 ltac:(assumption) ltac:(assumption)) as (a & Ea & Na). cbn [delems]. rewrite Ea. cbn [dbind]. destruct l as [|y l].
      - eexists. split; [reflexivity|]. apply nq_app; [exact Na | apply nq_b; reflexivity].
      - destruct (IHl ltac:(assumption) ltac:(assumption) ltac:(assumption) ltac:(congruence)) as (b & Eb & Nb).
        rewrite Eb. eexists. split; [reflexivity|]. repeat apply nq_app; try assumption. apply nq_b. reflexivity. }
    destruct l as [|x l]; [eexists; split; [reflexivity | apply nq_b; reflexivity]|].
    destruct (A ltac:(congruence)) as (t & -> & Nt). eexists. split; [reflexivity|]. apply nq_app; [apply nq_b; reflexivity | exact Nt].
  - rewrite dump_obj. clear G Q.
    assert (A : m <> [] -> exists t, dmembers m = DOk t /\ nq t).
    { induction m as [|(k, x) m IHm]; [congruence|]. intros _.
      repeat match goal with H : Forall _ (_ :: _) |- _ => inversion H; clear H; subst end. cbn [fst snd] in *.
      destruct (dump_str_nq k ltac:(assumption) ltac:(assumption)) as (a & Ea & Na).
      assert (exists t, dump x = DOk t /\ nq t) as (b & Eb & Nb) by auto.
      cbn [dmembers]. rewrite Ea, Eb. cbn [dbind]. destruct m as [|y m].
      - eexists. split; [reflexivity|]. apply nq_app; [exact Na|]. constructor; [lia|]. apply nq_app; [exact Nb | apply nq_b; reflexivity].
      - assert (exists t, dmembers (y :: m) = DOk t /\ nq t) as (c & Ec & Nc) by (apply IHm; auto; congruence).
        rewrite Ec. eexists. split; [reflexivity|]. apply nq_app; [|exact Nc]. apply nq_app; [exact Na|]. constructor; [lia|].
        apply nq_app; [exact Nb | apply nq_b; reflexivity]. }
    destruct m as [|x m]; [eexists; split; [reflexivity | apply nq_b; reflexivity]|].
    destruct (A ltac:(congruence)) as (t & -> & Nt). eexists. split; [reflexivity|]. apply nq_app; [apply nq_b; reflexivity | exact Nt].
Qed.

Lemma jstrs_nq m : quiet m -> jnq (jstrs m).
Proof.
  intros Q. unfold jstrs. constructor; apply Forall_map; (eapply Forall_impl; [|exact Q]); intros a (H & H').
  - apply nq_in. exact H.
  - constructor. apply nq_in. exact H'.
Qed.
Lemma jnums_nq m : Forall (fun kv : bytes * Z => no_quote (fst kv)) m -> jnq (jnums m).
Proof.
  intros Q. unfold jnums. constructor; apply Forall_map; (eapply Forall_impl; [|exact Q]); intros a H.
  - apply nq_in. exact H.
  - constructor.
Qed.
Lemma of_pos_nq : forall p rest, nq (bs rest) -> nq (bs (HexString.Raw.of_pos p rest)).
Proof.
  fix IH 1. intros p rest H.
  destruct p as [[[[p|p|]|[p|p|]|]|[[p|p|]|[p|p|]|]|]|[[[p|p|]|[p|p|]|]|[[p|p|]|[p|p|]|]|]|];
    cbn [HexString.Raw.of_pos]; try apply IH; (constructor; [cbn; lia | exact H]).
Qed.
Lemma show_p_nq p : nq (bs (show_p p)).
Proof.
  unfold show_p. destruct (p =? 0); [apply nq_b; reflexivity|].
  destruct p as [|p|p]; [apply nq_b; reflexivity | |]; cbn [HexString.of_Z].
  - change (nq (48 :: 120 :: bs (HexString.Raw.of_pos p ""))). repeat (constructor; [lia|]). apply of_pos_nq. constructor.
  - change (nq (45 :: 48 :: 120 :: bs (HexString.Raw.of_pos p ""))). repeat (constructor; [lia|]). apply of_pos_nq. constructor.
Qed.

Ltac jnqs := repeat match goal with
  | |- Forall _ (_ :: _) => apply Forall_cons
  | |- Forall _ [] => apply Forall_nil
  | |- jnq (snd _) => cbn [snd]
  | |- nq (fst _) => cbn [fst]
  | |- jnq (JObj _) => apply q_obj
  | |- jnq (JStr _) => apply q_str
  | |- jnq (JInt _) => apply q_int
  | |- nq (bs (show_p _)) => apply show_p_nq
  | |- nq _ => first [assumption | apply nq_b; reflexivity]
  end.

Lemma raw_nq r : storable r -> jnq (raw r).
Proof.
  intros (W & S). destruct r as [e|n ref p t|n ref p s t|ref p t]; cbn [raw].
  - destruct S as (S1 & S2 & S3 & S4). rewrite to_json_eq. apply q_obj.
    + jnqs.
    + repeat apply Forall_cons; try apply Forall_nil; cbn [snd]; try (apply jstrs_nq; assumption); try (apply jnums_nq; assumption).
      * constructor. apply nq_b. destruct (v_cat e); reflexivity.
      * constructor. apply nq_in. exact S1.
      * constructor.
  - unfold typed; cbn [app]. jnqs.
  - destruct S as (_ & _ & Q & _). apply nq_in in Q. unfold typed; cbn [app]. jnqs.
  - unfold typed; cbn [app]. jnqs.
Qed.

(** ** Statements *)
Lemma literal_end t r : nq t -> (match r with [] => True | c :: _ => c <> 39 end) -> literal (t ++ 39 :: r) = Some (t, r).
Proof.
  induction 1 as [|c t H Ht IH]; intros R.
  - cbn [app literal]. replace (39 =? 39) with true by reflexivity. destruct r as [|d r]; [reflexivity|].
    replace (d =? 39) with false by lia. reflexivity.
  - cbn [app literal]. replace (c =? 39) with false by lia. rewrite IH by exact R. reflexivity.
Qed.
Lemma strip_app p s : strip p (p ++ s) = Some s.
Proof. induction p as [|a p IH]; [destruct s; reflexivity|]. cbn [app strip]. rewrite Z.eqb_refl. exact IH. Qed.

Lemma value_of r t : writable r -> dump (raw r) = DOk t -> value_text r = DOk t.
Proof.
  intros W D. pose proof (raw_text r t W D) as T. destruct r as [e|n ref p s|n ref p s time|ref p time]; [exact D | | |].
  all: cbn [text value_text] in *; f_equal; assert (E : forall a b : bytes, DOk (a ++ [10]) = DOk (b ++ [10]) -> a = b)
         by (intros a b X; assert (Y : a ++ [10] = b ++ [10]) by congruence; apply app_inj_tail in Y; apply Y).
  all: apply E; rewrite <- T; f_equal; rewrite <- !app_assoc; reflexivity.
Qed.

(** ** Lengths *)
Lemma digits_len f : forall x acc, (length (digits f x acc) <= f + length acc)%nat.
Proof.
  induction f as [|f IH]; intros x acc; cbn [digits]; [lia|]. destruct (x <? 10); cbn [length]; [lia|].
  etransitivity; [apply IH|]. cbn [length]. lia.
Qed.
Lemma show_d_len z : (length (show_d z) <= 21)%nat.
Proof. unfold show_d. destruct (z <? 0); cbn [length]; pose proof (digits_len 20 (- z) []); pose proof (digits_len 20 z []); cbn [length] in *; lia. Qed.

Lemma of_pos_len k : forall p rest, (Zpos p < 16 ^ Z.of_nat k) -> (length (bs (HexString.Raw.of_pos p rest)) <= k + length (bs rest))%nat.
Proof.
  induction k as [|k IH]; intros p rest H; [cbn in H; lia|].
  rewrite Nat2Z.inj_succ, Z.pow_succ_r in H by lia.
  assert (A : forall q c, (Zpos q < 16 ^ Z.of_nat k) -> (length (bs (HexString.Raw.of_pos q (String c rest))) <= S k + length (bs rest))%nat).
  { intros q c Hq. etransitivity; [apply IH; exact Hq|]. cbn [bs length]. lia. }
  destruct p as [[[[p|p|]|[p|p|]|]|[[p|p|]|[p|p|]|]|]|[[[p|p|]|[p|p|]|]|[[p|p|]|[p|p|]|]|]|];
    cbn [HexString.Raw.of_pos]; try (apply A; lia); cbn [bs length]; lia.
Qed.
Lemma show_p_len p : word p -> (length (bs (show_p p)) <= 18)%nat.
Proof.
  unfold word, show_p. intros H. destruct (Z.eqb_spec p 0); [cbn; lia|]. destruct p as [|p|p]; [lia | | lia]. cbn [HexString.of_Z].
  change (length (48%Z :: 120%Z :: bs (HexString.Raw.of_pos p "")) <= 18)%nat.
  cbn [length]. pose proof (of_pos_len 16 p "" ltac:(lia)). cbn [bs length] in *. lia.
Qed.

Lemma cstr_len s : (length (cstr s) <= length s)%nat.
Proof. induction s as [|c s IH]; [cbn; lia|]. cbn [cstr]. destruct (c =? 0); cbn [length]; lia. Qed.

Ltac lens := rewrite ?app_length; repeat match goal with
  | |- context [length (show_d ?z)] => lazymatch goal with H : (length (show_d z) <= _)%nat |- _ => fail | _ => pose proof (show_d_len z) end
  | |- context [length (bs (String ?a ?s))] => let v := eval vm_compute in (length (bs (String a s))) in change (length (bs (String a s))) with v
  | |- context [length insert_text] => let v := eval vm_compute in (length insert_text) in change (length insert_text) with v
  | |- context [length end_text] => let v := eval vm_compute in (length end_text) in change (length end_text) with v
  end.

(** The buffer is large enough, whatever the bytes of the name. *)
Lemma small_buffer r t : generic r = false -> small r -> value_text r = DOk t ->
  (length (insert_text ++ t ++ end_text) < buffer_size)%nat.
Proof.
  intros G S V. unfold buffer_size. destruct r as [e|n ref p time|n ref p s time|ref p time]; [discriminate G | | |];
    cbn [small value_text] in *;
    match type of V with DOk ?x = DOk t => assert (E : t = x) by congruence; rewrite E; clear E V end.
  - destruct S as (Sr & Sp). pose proof (show_p_len _ Sr). pose proof (show_p_len _ Sp). lens. lia.
  - destruct S as (Sr & Sp & L). pose proof (show_p_len _ Sr). pose proof (show_p_len _ Sp). pose proof (cstr_len s). lens. lia.
  - destruct S as (Sr & Sp). pose proof (show_p_len _ Sr). pose proof (show_p_len _ Sp). lens. lia.
Qed.

Lemma storable_small r : storable r -> small r.
Proof. intros (_ & S). destruct r; cbn [small]; try exact I; try exact S. tauto. Qed.

Lemma stmt_ok r : storable r -> exists t, value_text r = DOk t /\ nq t /\ dump (raw r) = DOk t /\
  sql_text r = DOk (insert_text ++ t ++ end_text).
Proof.
  intros S. pose proof (proj1 S) as W. destruct (dump_nq _ (raw_good r W) (raw_nq r S)) as (t & D & Q).
  pose proof (value_of r t W D) as V. exists t. split; [exact V|]. split; [exact Q|]. split; [exact D|].
  unfold sql_text. rewrite V. cbn [dbind]. destruct (generic r) eqn:G.
  - f_equal. destruct (dump_lexes _ (raw_good r W)) as (t' & D' & P & _). assert (t' = t) by congruence. subst t'.
    apply cstr_printable. apply Forall_app. split; [apply printable_b; reflexivity|].
    apply Forall_app. split; [exact P | apply printable_b; reflexivity].
  - pose proof (small_buffer r t G (storable_small r S) V) as L. replace (_ <? _)%nat with true by lia. reflexivity.
Qed.

Section Sqlite.
  Variable strtod : bytes -> option Z.
  Variable sj : bytes -> option bytes.
  Variable other : bytes -> rows -> xres.
  Hypothesis SJ : faithful strtod sj.

  Lemma exec_one t d : nq t -> exec sj other (insert_text ++ t ++ end_text) d =
    match sj t with Some v => XOk (d ++ [v]) | None => XErr d end.
  Proof.
    intros Q. unfold exec. rewrite strip_app. change end_text with (39 :: bs "));"). rewrite literal_end; [|exact Q | cbn; lia].
    change (strip (bs "));") (bs "));")) with (Some ([] : bytes)). reflexivity.
  Qed.

  Lemma sql_insert_ok r d : storable r -> exists v j, sql_insert sj other r d = IOk (d ++ [v]) tt /\
    parse strtod v = POk j /\ from_json j = COk (meant r).
  Proof.
    intros S. pose proof (proj1 S) as W. destruct (stmt_ok r S) as (t & V & Q & D & E).
    destruct (SJ r t (canon (raw r)) W V) as (v & j & Ev & Pv & Fv).
    { apply parse_dump; [apply raw_good; exact W | exact D]. }
    { apply raw_meant. exact W. }
    exists v, j. unfold sql_insert. rewrite E, exec_one by exact Q. rewrite Ev. auto.
  Qed.

  Lemma sql_invalid e d : fits e -> bytes_ev e -> ~ utf8_ev e -> sql_insert sj other (RGeneric e) d = IThrow d.
  Proof.
    intros F B U. pose proof (invalid_throws e F B U) as T. unfold sql_insert, sql_text. cbn [value_text].
    cbn [text] in T. destruct (dump (to_json e)); cbn [dbind] in *; congruence.
  Qed.

  Lemma select_app a b x y : select strtod a = Some x -> select strtod b = Some y -> select strtod (a ++ b) = Some (x ++ y).
  Proof.
    revert x. induction a as [|v a IH]; intros x A B.
    - cbn [select] in A. injection A as <-. exact B.
    - cbn [app select] in *. destruct (parse strtod v) as [j| |]; try discriminate A. destruct (from_json j) as [e| |]; try discriminate A.
      destruct (select strtod a) as [z|]; try discriminate A. injection A as <-.
      rewrite (IH z eq_refl B). reflexivity.
  Qed.

  Lemma stored_back l l' : stored l l' -> forall d es, select strtod d = Some es ->
    exists d', sql_all sj other l d = IOk d' tt /\ select strtod d' = Some (es ++ map meant l').
  Proof.
    induction 1 as [|r l l' S K IH|e l l' F B U K IH]; intros d es E.
    - exists d. rewrite app_nil_r. split; [reflexivity | exact E].
    - destruct (sql_insert_ok r d S) as (v & j & I & P & J). cbn [sql_all]. rewrite I.
      destruct (IH (d ++ [v]) (es ++ [meant r])) as (d' & A & B).
      { apply select_app; [exact E|]. cbn [select]. rewrite P, J. reflexivity. }
      exists d'. split; [exact A|]. rewrite B, <- app_assoc. reflexivity.
    - cbn [sql_all]. rewrite (sql_invalid e d F B U). apply IH. exact E.
  Qed.

  Lemma stored_run l l' old es : stored l l' -> select strtod old = Some es ->
    exists d, sql_run sj other true old l = IOk d tt /\ sql_events strtod d = IOk d (es ++ map meant l').
  Proof.
    intros S E. destruct (stored_back l l' S old es E) as (d & A & B). exists d. split; [exact A|].
    unfold sql_events. rewrite B. reflexivity.
  Qed.

  (** Both stores give the same events. *)
  Lemma stored_kept l l' : stored l l' -> kept l l'.
  Proof. induction 1 as [|r l l' S K IH|e l l' F B U K IH]; [constructor | apply k_keep; [apply S | exact IH] | apply k_drop; assumption]. Qed.
End Sqlite.

Lemma same_events strtod sj other e l l' disk : faithful strtod sj -> stored (RGeneric e :: l) l' ->
  exists w d r, record_all (RGeneric e :: l) (mk_store disk true false) = SOk w tt /\
  sql_run sj other true [] (RGeneric e :: l) = IOk d tt /\
  get_events strtod (mk_store (finished w) true true) = SOk r (map meant l') /\
  sql_events strtod d = IOk d (map meant l').
Proof.
  intros SJ S. destruct (kept_back strtod e l l' disk (stored_kept _ _ S)) as (w & A & B).
  destruct (B []) as (r & C & _). destruct (stored_run strtod sj other SJ _ _ [] [] S eq_refl) as (d & D & E).
  exists w, d, r. auto.
Qed.

(** A statement in the name of an allocation is executed. *)
Definition escape_text : bytes := bs "x""},""tags"":{""replay"":""true""},""timestamp"":0}'));".

Lemma cstr_app' a b : Forall (fun c => c <> 0) a -> cstr (a ++ b) = a ++ cstr b.
Proof.
  induction 1 as [|c t H Ht IH]; [reflexivity|]. cbn [app cstr]. replace (c =? 0) with false by lia. rewrite IH. reflexivity.
Qed.
Lemma cstr_id a : Forall (fun c => c <> 0) a -> cstr a = a.
Proof. intros H. rewrite <- (app_nil_r a), cstr_app' by exact H. rewrite !app_nil_r. reflexivity. Qed.

Lemma inject strtod sj other n ref p s t d : faithful strtod sj -> word n -> word ref -> word p ->
  Forall (fun c => c <> 0) s -> (length s <= 100)%nat -> s <> [] ->
  exists v post j, parse strtod v = POk j /\ from_json j = COk (meant (RNamed n ref p (bs "x") 0)) /\
  sql_insert sj other (RNamed n ref p (escape_text ++ s) t) d =
  match other (s ++ post) (d ++ [v]) with XOk d => IOk d tt | XErr d => IExit d end.
Proof.
  intros SJ Hn Hr Hp Z0 L NE.
  assert (ST : storable (RNamed n ref p (bs "x") 0)).
  { split; [cbn [writable]; unfold word, long in *; repeat split; try lia; [apply ascii_b; reflexivity | repeat constructor; cbn; lia]|].
    split; [exact Hr|]. split; [exact Hp|]. split; [apply nq_in, nq_b; reflexivity | cbn; lia]. }
  pose proof (proj1 ST) as W. destruct (stmt_ok _ ST) as (x & V & Q & D & _).
  destruct (SJ _ x (canon (raw (RNamed n ref p (bs "x") 0))) W V) as (v & j & Ev & Pv & Fv).
  { apply parse_dump; [apply raw_good; exact W | exact D]. }
  { apply raw_meant. exact W. }
  exists v, (bs """},""tags"":{""replay"":""true""},""timestamp"":" ++ show_d t ++ bs "}" ++ end_text), j.
  split; [exact Pv|]. split; [exact Fv|].
  assert (E : sql_text (RNamed n ref p (escape_text ++ s) t) =
    DOk (insert_text ++ x ++ 39 :: bs "));" ++ s ++ bs """},""tags"":{""replay"":""true""},""timestamp"":" ++ show_d t ++ bs "}" ++ end_text)).
  { unfold sql_text. cbn [generic]. cbn [value_text] in V |- *. cbn [dbind].
    rewrite cstr_app' by (apply Forall_forall; intros c Hc E; subst c; vm_compute in Hc; intuition congruence).
    rewrite (cstr_id s Z0).
    match type of V with DOk ?y = DOk x => assert (X : x = y) by congruence end.
    match goal with |- (if (?a <? ?b)%nat then _ else _) = _ => assert (LL : (a < b)%nat) end.
    { unfold buffer_size. pose proof (show_p_len _ Hr). pose proof (show_p_len _ Hp).
      assert (length escape_text <= 60)%nat by (vm_compute; lia). lens. lia. }
    replace (_ <? _)%nat with true by lia. f_equal. f_equal. rewrite X. rewrite <- !app_assoc. reflexivity. }
  unfold sql_insert. rewrite E. unfold exec. rewrite strip_app, literal_end; [|exact Q | cbn; lia].
  rewrite (strip_app (bs "));")). rewrite Ev. destruct s as [|c s]; [congruence|]. reflexivity.
Qed.

(** Longer names do not fit. *)
Lemma digits_pos f x acc : f <> O -> (1 + length acc <= length (digits f x acc))%nat.
Proof.
  revert x acc. induction f as [|f IH]; intros x acc Hf; [congruence|]. cbn [digits]. destruct (x <? 10); [cbn [length]; lia|].
  destruct f as [|f]; [cbn [digits length]; lia|]. etransitivity; [|apply IH; congruence]. cbn [length]. lia.
Qed.
Lemma show_d_pos z : (1 <= length (show_d z))%nat.
Proof. unfold show_d. destruct (z <? 0); cbn [length]; [lia|]. pose proof (digits_pos 20 z [] ltac:(lia)). cbn [length] in *. lia. Qed.
Lemma of_pos_pos p : (1 <= length (bs (HexString.Raw.of_pos p "")))%nat.
Proof.
  assert (A : forall k q rest, (Zpos q < 16 ^ Z.of_nat k) -> (length (bs rest) + 1 <= length (bs (HexString.Raw.of_pos q rest)))%nat).
  { induction k as [|k IH]; intros q rest H; [cbn in H; lia|].
    rewrite Nat2Z.inj_succ, Z.pow_succ_r in H by lia.
    assert (A : forall q c, (Zpos q < 16 ^ Z.of_nat k) -> (length (bs rest) + 1 <= length (bs (HexString.Raw.of_pos q (String c rest))))%nat).
    { intros q' c Hq. etransitivity; [|apply IH; exact Hq]. cbn [bs length]. lia. }
    destruct q as [[[[q|q|]|[q|q|]|]|[[q|q|]|[q|q|]|]|]|[[[q|q|]|[q|q|]|]|[[q|q|]|[q|q|]|]|]|];
      cbn [HexString.Raw.of_pos]; try (apply A; lia); cbn [bs length]; lia. }
  destruct (Z_lt_le_dec (Zpos p) (16 ^ Z.of_nat (Pos.to_nat p))) as [L|L]; [apply (A _ _ ""%string L)|].
  exfalso. assert (B : forall m, Z.of_nat m < 16 ^ Z.of_nat m).
  { induction m as [|m IHm]; [cbn; lia|]. rewrite Nat2Z.inj_succ, Z.pow_succ_r by lia. lia. }
  specialize (B (Pos.to_nat p)). rewrite positive_nat_Z in B, L. lia.
Qed.
Lemma show_p_pos p : word p -> (3 <= length (bs (show_p p)))%nat.
Proof.
  unfold word, show_p. intros H. destruct (Z.eqb_spec p 0); [cbn; lia|]. destruct p as [|p|p]; [lia | | lia]. cbn [HexString.of_Z].
  change (3 <= length (48%Z :: 120%Z :: bs (HexString.Raw.of_pos p "")))%nat.
  cbn [length]. pose proof (of_pos_pos p). lia.
Qed.

Lemma overflow sj other n ref p s t d : word ref -> word p -> Forall (fun c => c <> 0) s -> (288 <= length s)%nat ->
  sql_insert sj other (RNamed n ref p s t) d = IUB.
Proof.
  intros Hr Hp Z0 L. unfold sql_insert, sql_text. cbn [value_text dbind generic]. rewrite (cstr_id s Z0).
  match goal with |- context [(?a <? ?b)%nat] => assert (LL : (b <= a)%nat) end.
  { unfold buffer_size. pose proof (show_p_pos _ Hr). pose proof (show_p_pos _ Hp). pose proof (show_d_pos (s64 n)).
    pose proof (show_d_pos t). rewrite ?app_length. 
    repeat match goal with
    | |- context [length (bs (String ?a ?s))] => let v := eval vm_compute in (length (bs (String a s))) in change (length (bs (String a s))) with v
    | |- context [length insert_text] => let v := eval vm_compute in (length insert_text) in change (length insert_text) with v
    | |- context [length end_text] => let v := eval vm_compute in (length end_text) in change (length end_text) with v
    end. lia. }
  replace (_ <? _)%nat with false by lia. reflexivity.
Qed.

(** ** Line protocol *)
Definition sep (c : Z) : Prop := c = 0 \/ c = 10 \/ c = 32 \/ c = 44 \/ c = 61.
Lemma tok_split a : token a -> forall b c c' r r', token b -> sep c -> sep c' -> a ++ c :: r = b ++ c' :: r' -> a = b /\ c = c' /\ r = r'.
Proof.
  unfold sep. induction 1 as [|x a X Ha IH]; intros b c c' r r' B C C' E; destruct B as [|y b Y Hb]; cbn [app] in E.
  - injection E; auto.
  - injection E as E1 E2. lia.
  - injection E as E1 E2. lia.
  - injection E as E1 E2. destruct (IH b c c' r r' Hb C C' E2) as (-> & -> & ->). subst. auto.
Qed.

Lemma tags_split l : Forall (fun kv => token (fst kv) /\ token (snd kv)) l -> forall l' r r',
  Forall (fun kv => token (fst kv) /\ token (snd kv)) l' ->
  concat (map tag_text l) ++ 32 :: r = concat (map tag_text l') ++ 32 :: r' -> l = l' /\ r = r'.
Proof.
  induction 1 as [|(k, v) l (K & V) Hl IH]; intros l' r r' H' E; destruct H' as [|(k', v') l' (K' & V') Hl'];
    cbn [map concat app fst snd] in *.
  - injection E; auto.
  - unfold tag_text in E. discriminate E.
  - unfold tag_text in E. discriminate E.
  - unfold tag_text in E. cbn [fst snd app] in E. injection E as E. rewrite <- !app_assoc in E. cbn [app] in E.
    destruct (tok_split k K k' 61 61 _ _ K' ltac:(unfold sep; lia) ltac:(unfold sep; lia) E) as (-> & _ & E1).
    rewrite <- ?app_assoc in E1.
    assert (exists c x c' x', sep c /\ sep c' /\ concat (map tag_text l) ++ 32 :: r = c :: x /\ concat (map tag_text l') ++ 32 :: r' = c' :: x') as
      (c & x & c' & x' & C & C' & A & A').
    { destruct l as [|(a, b) l], l' as [|(a', b') l']; cbn [map concat app tag_text]; do 4 eexists; (split; [|split; [|split; reflexivity]]); unfold sep; lia. }
    change (fun kv : bytes * bytes => 44 :: fst kv ++ 61 :: snd kv) with tag_text in E1.
    rewrite A, A' in E1. destruct (tok_split v V v' c c' _ _ V' C C' E1) as (-> & -> & ->).
    destruct (IH l' r r' Hl') as (-> & ->); [congruence|]. auto.
Qed.

Lemma show_tok z : long z -> token (show_d z).
Proof.
  unfold long. intros H. unfold show_d.
  assert (A : forall a, 0 <= a < 2 ^ 64 -> token (digits 20 a [])).
  { intros a Ha. destruct (pow20 a ltac:(lia)) as (P1 & _ & _).
    destruct (digits_ok 20 a [] ltac:(lia) ltac:(lia)) as (d & -> & _ & D & _). rewrite app_nil_r.
    eapply Forall_impl; [|exact D]. unfold dig. intros; lia. }
  destruct (Z.ltb_spec z 0); [constructor; [lia|]|]; apply A; lia.
Qed.
Lemma show_inj a b : long a -> long b -> show_d a = show_d b -> a = b.
Proof.
  unfold long. intros A B E. pose proof (scan_show a [] ltac:(lia) I) as SA. pose proof (scan_show b [] ltac:(lia) I) as SB.
  rewrite E, SB in SA. assert (N : num_tok b = num_tok a) by congruence. unfold num_tok in N.
  destruct (b <? 0), (a <? 0); congruence.
Qed.
Lemma s32_small n : 0 <= n < 2 ^ 31 -> s32 n = n.
Proof. intros H. unfold s32, w32, M32. rewrite Z.mod_small by lia. replace (n <? 2 ^ 31) with true by lia. reflexivity. Qed.

Lemma lean_packet e k n : lean e -> v_num e = [(k, n)] ->
  packet e = v_name e ++ concat (map tag_text (v_str e ++ v_tag e)) ++ 32 :: k ++ 61 :: show_d n ++ 32 :: show_d (v_time e) ++ [10].
Proof.
  intros (_ & _ & (k' & n' & E' & _ & N) & _) E. assert (n' = n) by congruence. subst n'. unfold packet. rewrite E.
  cbn [length map concat]. change (1 <? 1)%nat with false. cbn iota. unfold num_text. cbn [fst snd]. rewrite s32_small by exact N.
  rewrite map_app, concat_app, <- !app_assoc. cbn [app]. rewrite ?app_nil_r, <- ?app_assoc. reflexivity.
Qed.

Lemma packet_split a b r r' : lean a -> lean b -> packet a ++ r = packet b ++ r' -> alike a b /\ r = r'.
Proof.
  intros A B E. pose proof A as (NA & TA & (k & n & EA & KA & RA) & LA). pose proof B as (NB & TB & (k' & n' & EB & KB & RB) & LB).
  rewrite (lean_packet a k n A EA), (lean_packet b k' n' B EB) in E. rewrite <- !app_assoc in E.
  set (X := fun (l : list (bytes * bytes)) q => concat (map tag_text l) ++ 32 :: q) in *.
  assert (HX : forall l q, exists c x, sep c /\ X l q = c :: x).
  { intros [|(u, v) l] q; unfold X; cbn [map concat app tag_text]; do 2 eexists; (split; [|reflexivity]); unfold sep; lia. }
  match type of E with v_name a ++ _ ++ (32 :: ?p) ++ r = v_name b ++ _ ++ (32 :: ?p') ++ r' =>
    change (v_name a ++ X (v_str a ++ v_tag a) (p ++ r) = v_name b ++ X (v_str b ++ v_tag b) (p' ++ r')) in E end.
  match type of E with _ ++ X ?l ?q = _ ++ X ?l' ?q' => destruct (HX l q) as (c & x & C & HC); destruct (HX l' q') as (c' & x' & C' & HC') end.
  rewrite HC, HC' in E. destruct (tok_split _ NA _ _ _ _ _ NB C C' E) as (E1 & -> & ->). rewrite <- HC' in HC. unfold X in HC.
  destruct (tags_split _ TA _ _ _ TB HC) as (E2 & E3). clear HC HC' E.
  rewrite <- ?app_assoc in E3. cbn [app] in E3.
  destruct (tok_split _ KA _ 61 61 _ _ KB ltac:(unfold sep; lia) ltac:(unfold sep; lia) E3) as (-> & _ & E4).
  rewrite <- ?app_assoc in E4. cbn [app] in E4. assert (Ln : long n) by (unfold long; lia). assert (Ln' : long n') by (unfold long; lia).
  destruct (tok_split _ (show_tok n Ln) _ 32 32 _ _ (show_tok n' Ln') ltac:(unfold sep; lia) ltac:(unfold sep; lia) E4) as (E5 & _ & E6).
  rewrite <- ?app_assoc in E6. cbn [app] in E6.
  destruct (tok_split _ (show_tok _ LA) _ 10 10 _ _ (show_tok _ LB) ltac:(unfold sep; lia) ltac:(unfold sep; lia) E6) as (E7 & _ & E8).
  apply show_inj in E5; [|assumption..]. apply show_inj in E7; [|assumption..]. unfold alike. rewrite EA, EB. subst n'. auto.
Qed.

Lemma token_zero s : token s -> Forall (fun c => c <> 0) s.
Proof. intros H. eapply Forall_impl; [|exact H]. cbn. intros; lia. Qed.
Lemma lean_cstr e : lean e -> cstr (packet e) = packet e.
Proof.
  intros L. pose proof L as (N & T & (k & n & E & K & R) & LT). apply cstr_id. rewrite (lean_packet e k n L E).
  assert (NZ : forall c (l : bytes), c <> 0 -> Forall (fun c => c <> 0) l -> Forall (fun c => c <> 0) (c :: l)) by (intros; constructor; assumption).
  apply Forall_app; split; [apply token_zero; exact N|]. apply Forall_app; split.
  - induction T as [|(u, v) l (U & V) _ IH]; [constructor|]. cbn [map concat tag_text fst snd app]. apply NZ; [lia|].
    rewrite <- app_assoc. cbn [app]. apply Forall_app; split; [apply token_zero; exact U|]. apply NZ; [lia|].
    apply Forall_app; split; [apply token_zero; exact V | exact IH].
  - apply NZ; [lia|]. apply Forall_app; split; [apply token_zero; exact K|]. apply NZ; [lia|].
    apply Forall_app; split; [apply token_zero, show_tok; unfold long; lia|]. apply NZ; [lia|].
    apply Forall_app; split; [apply token_zero, show_tok; exact LT|]. apply NZ; [lia | constructor].
Qed.
Lemma packet_nonnil e : packet e <> [].
Proof. unfold packet. intros H. apply app_eq_nil in H. destruct H as (_ & H). apply app_eq_nil in H. destruct H as (_ & H). apply app_eq_nil in H. destruct H as (_ & H). discriminate H. Qed.

Lemma quest_alike l l' : Forall lean l -> Forall lean l' -> quest_all (map RGeneric l) = quest_all (map RGeneric l') -> Forall2 alike l l'.
Proof.
  intros H. revert l'. induction H as [|a l A Hl IH]; intros l' H' E; destruct H' as [|b l' B Hl'];
    unfold quest_all in E; cbn [map concat quest_send] in E.
  - constructor.
  - rewrite (lean_cstr b B) in E. symmetry in E. apply app_eq_nil in E. destruct (packet_nonnil _ (proj1 E)).
  - rewrite (lean_cstr a A) in E. apply app_eq_nil in E. destruct (packet_nonnil _ (proj1 E)).
  - rewrite (lean_cstr a A), (lean_cstr b B) in E. destruct (packet_split _ _ _ _ A B E) as (K & E'). constructor; [exact K|].
    apply IH; assumption.
Qed.

Lemma no_overflow sj other r d : generic r = false -> small r -> sql_insert sj other r d <> IUB.
Proof.
  intros G S. unfold sql_insert, sql_text. rewrite G.
  assert (exists t, value_text r = DOk t) as (t & V) by (destruct r; [discriminate G | eexists; reflexivity..]).
  pose proof (small_buffer r t G S V) as L. rewrite V. cbn [dbind]. replace (_ <? _)%nat with true by lia.
  destruct (exec sj other _ d); discriminate.
Qed.

(** A name that SQLite is not given as it is. *)
Lemma self_faithful strtod : faithful strtod (fun t => match parse strtod t with POk _ => Some t | _ => None end).
Proof. intros r t j W V P F. exists t, j. rewrite P. auto. Qed.
