(** Facts about the model of recording and replaying. *)
From Coq Require Import String Ascii HexString.
From Verif Require Import Base BaseFacts ReplayModel ReplaySpec.
Local Open Scope string_scope.
Local Open Scope Z_scope.

(** ** Printed pointers *)

Fixpoint has (c : ascii) (s : string) : bool :=
  match s with EmptyString => false | String c' s => (Ascii.eqb c c' || has c s)%bool end.

Lemma has_app c a b : has c (a ++ b) = (has c a || has c b)%bool.
Proof. induction a; cbn; [reflexivity|]. rewrite IHa. destruct (Ascii.eqb c a); reflexivity. Qed.

Fixpoint raw_has (p : positive) (rest : string) (c : ascii) {struct p} :
  (c = "x"%char \/ c = "("%char) -> has c rest = false -> has c (Raw.of_pos p rest) = false.
Proof.
  intros Hc Hr.
  do 4 try destruct p as [p|p|]; try (cbn; rewrite Hr; destruct Hc as [-> | ->]; reflexivity);
  cbn; apply raw_has; try assumption; cbn; rewrite Hr; destruct Hc as [-> | ->]; reflexivity.
Qed.

Definition hexs (z : Z) : string := match z with Zpos p => Raw.of_pos p "" | _ => "" end.

Lemma hexs_x z : has "x" (hexs z) = false.
Proof. destruct z; try reflexivity. apply raw_has; [tauto | reflexivity]. Qed.
Lemma hexs_p z : has "(" (hexs z) = false.
Proof. destruct z; try reflexivity. apply raw_has; [tauto | reflexivity]. Qed.

Lemma hexs_inj a b : 0 < a -> 0 < b -> hexs a = hexs b -> a = b.
Proof.
  intros Ha Hb E. destruct a as [|a|]; try lia. destruct b as [|b|]; try lia. cbn in E.
  assert (X := f_equal (fun s => Raw.to_N s 0%N) E). cbn in X. rewrite !Raw.to_N_of_pos in X. cbn in X. congruence.
Qed.

Lemma show_p_pos r : 0 < r -> show_p r = "0x" ++ hexs r.
Proof. intros. unfold show_p. destruct r as [|r|]; try lia. reflexivity. Qed.
Lemma show_s_pos r : 0 < r -> show_s r = "0x" ++ hexs r.
Proof. intros. unfold show_s. destruct r as [|r|]; try lia. reflexivity. Qed.

Lemma stoul_hex r : 0 < r -> stoul ("0x" ++ hexs r) = Some r.
Proof.
  intros Hr. destruct r as [|r|]; try lia. unfold stoul.
  replace (String.eqb ("0x" ++ hexs (Zpos r)) "0") with false by reflexivity.
  replace (prefix "0x" ("0x" ++ hexs (Zpos r))) with true.
  - f_equal. change ("0x" ++ hexs (Zpos r)) with (HexString.of_Z (Zpos r)). apply HexString.to_Z_of_Z.
  - cbn. destruct (Raw.of_pos r ""); reflexivity.
Qed.

Lemma stoul_s r : 0 <= r -> stoul (show_s r) = Some r.
Proof.
  intros. destruct (Z.eq_dec r 0) as [->|]; [reflexivity|]. rewrite show_s_pos by lia. apply stoul_hex. lia.
Qed.
Lemma stoul_p r : 0 < r -> stoul (show_p r) = Some r.
Proof. intros. rewrite show_p_pos by lia. apply stoul_hex. lia. Qed.

(** The key of an allocation. *)
Definition key (r p : Z) : string := ("0x" ++ hexs r) ++ ("0x" ++ hexs p).

Lemma app_assoc_s (a b c : string) : (a ++ b) ++ c = a ++ (b ++ c).
Proof. induction a; cbn; congruence. Qed.

Lemma split_x a b c d : has "x" a = false -> has "x" c = false ->
  a ++ String "x" b = c ++ String "x" d -> a = c /\ b = d.
Proof.
  revert c. induction a as [|x a IH]; intros [|y c] Ha Hc E; cbn in *.
  - injection E as ->. tauto.
  - injection E as <- E. cbn in Hc. discriminate.
  - injection E as -> E. cbn in Ha. discriminate.
  - injection E as -> E. apply orb_false_elim in Ha, Hc. destruct (IH c) as [-> ->]; tauto.
Qed.

Lemma app_last a b x y : a ++ String x "" = b ++ String y "" -> a = b /\ x = y.
Proof.
  revert b. induction a as [|c a IH]; intros [|d b] E; cbn in *.
  - injection E as ->. tauto.
  - injection E as -> E. destruct b; discriminate.
  - injection E as -> E. destruct a; discriminate.
  - injection E as -> E. apply IH in E. destruct E as [-> ->]. tauto.
Qed.

Lemma key_split r p : key r p = "0x" ++ ((hexs r ++ "0") ++ String "x" (hexs p)).
Proof. unfold key. rewrite !app_assoc_s. reflexivity. Qed.

Lemma key_inj r p r' p' : 0 < r -> 0 < p -> 0 < r' -> 0 < p' -> key r p = key r' p' -> r = r' /\ p = p'.
Proof.
  intros Hr Hp Hr' Hp'. rewrite !key_split. intros E. cbn in E. injection E as E.
  apply split_x in E; [|rewrite has_app, hexs_x; reflexivity ..].
  destruct E as [E1 E2]. apply app_last in E1. destruct E1 as [E1 _].
  split; apply hexs_inj; assumption.
Qed.

Lemma key_nil r r' p' : key r' p' <> ("0x" ++ hexs r) ++ "(nil)".
Proof.
  intros E. assert (X := f_equal (has "(") E). unfold key in X. rewrite !has_app, !hexs_p in X. discriminate.
Qed.

(** ** Association lists *)
Lemma afind_arem_ne k k' l : k <> k' -> afind k (arem k' l) = afind k l.
Proof.
  intros N. unfold arem. induction l as [|[a v] l IH]; cbn; [reflexivity|].
  destruct (String.eqb_spec k' a).
  - subst a. cbn. rewrite IH. destruct (String.eqb_spec k k'); [contradiction | reflexivity].
  - cbn. rewrite IH. reflexivity.
Qed.
Lemma afind_arem_eq k l : afind k (arem k l) = None.
Proof.
  unfold arem. induction l as [|[a v] l IH]; cbn; [reflexivity|].
  destruct (String.eqb_spec k a); cbn; [exact IH|].
  destruct (String.eqb_spec k a); [contradiction | exact IH].
Qed.

(** ** Lines are long *)
Lemma length_app a b : String.length (a ++ b) = (String.length a + String.length b)%nat.
Proof. induction a; cbn; [reflexivity|]. now rewrite IHa. Qed.

Lemma line_long ds dn e ts : OPSIZE <= Z.of_nat (String.length (line ds dn e ts)).
Proof.
  unfold line, OPSIZE.
  destruct (String.eqb (e_name e) "allocate"); [|destruct (String.eqb (e_name e) "named_allocate");
    [|destruct (String.eqb (e_name e) "deallocate")]];
  rewrite !length_app; cbn [String.length]; try lia.
  all: try (destruct (e_oper e); cbn [String.length]; lia).
Qed.

Lemma file_long ds dn l : forall tss, OPSIZE * Z.of_nat (List.length l) <= file_size ds dn l tss.
Proof.
  induction l as [|e l IH]; intros tss; cbn [file_size List.length]; [unfold OPSIZE; lia|].
  assert (A := line_long ds dn e (tss O)). specialize (IH (fun n => tss (S n))). lia.
Qed.

(** ** Running depends on the operations run only *)
Definition agree (cs cs' : cstate) (n : Z) : Prop :=
  forall i, 1 <= i < n -> c_tab cs' i = c_tab cs i /\
    forall o, c_tab cs i = Some o -> c_entries cs' (o_allocator o) = c_entries cs (o_allocator o).
Definition full (cs : cstate) (n : Z) : Prop := forall i, 1 <= i < n -> exists o, c_tab cs i = Some o.

Section Runs.
  Context {W : Type} (lib : rcall -> W -> outcome W Z).

  Lemma run_op_agree cs cs' n i st : agree cs cs' n -> full cs n -> 1 <= i < n ->
    run_op lib cs' i st = run_op lib cs i st.
  Proof.
    intros A F Hi. destruct (A i Hi) as [E1 E2]. destruct (F i Hi) as [o Eo]. unfold run_op.
    rewrite E1, Eo. rewrite (E2 o Eo). reflexivity.
  Qed.

  Lemma run_agree cs cs' n : agree cs cs' n -> full cs n ->
    forall k i st, 1 <= i -> i + Z.of_nat k <= n -> run lib cs' i k st = run lib cs i k st.
  Proof.
    intros A F. induction k as [|k IH]; intros i st Hi Hk; cbn [run]; [reflexivity|].
    rewrite (run_op_agree cs cs' n i st A F) by lia.
    destruct (run_op lib cs i st); cbn [bind]; try reflexivity. apply IH; lia.
  Qed.

  Lemma run_snoc cs : forall k i st,
    run lib cs i (S k) st = bind (run lib cs i k st) (fun st _ => run_op lib cs (i + Z.of_nat k) st).
  Proof.
    induction k as [|k IH]; intros i st.
    - cbn [run bind]. rewrite Z.add_0_r. destruct (run_op lib cs i st) as [? []| | | |]; reflexivity.
    - remember (S k) as k1. cbn [run]. subst k1. cbn [run] in IH |- *.
      destruct (run_op lib cs i st) as [st1 u|?| | |]; cbn [bind]; try reflexivity.
      rewrite IH. replace (i + 1 + Z.of_nat k) with (i + Z.of_nat (S k)) by lia. reflexivity.
  Qed.

  Lemma run_all_same cs cs' ptrs w : agree cs cs' (c_nops cs) -> full cs (c_nops cs) -> 1 <= c_nops cs ->
    c_nops cs' = c_nops cs -> run_all lib cs' ptrs w = run_all lib cs ptrs w.
  Proof. intros A F N E. unfold run_all. rewrite E. apply (run_agree cs cs' (c_nops cs)); auto; lia. Qed.

  Lemma run_all_next cs cs' ptrs w : agree cs cs' (c_nops cs) -> full cs (c_nops cs) -> 1 <= c_nops cs ->
    c_nops cs' = c_nops cs + 1 ->
    run_all lib cs' ptrs w = bind (run_all lib cs ptrs w) (fun st _ => run_op lib cs' (c_nops cs) st).
  Proof.
    intros A F N E. unfold run_all. rewrite E.
    replace (Z.to_nat (c_nops cs + 1 - 1)) with (S (Z.to_nat (c_nops cs - 1))) by lia.
    rewrite run_snoc. replace (1 + Z.of_nat (Z.to_nat (c_nops cs - 1))) with (c_nops cs) by lia.
    rewrite (run_agree cs cs' (c_nops cs)) by (auto; lia). reflexivity.
  Qed.
End Runs.

(** ** The state of the compiler *)
Definition runs_ok {W} (H : list pcall) (st : cstate) (idx : Z -> Z -> option Z) (o : outcome (@rstate W) unit) : Prop :=
  match o with
  | Ok rs _ =>
      (exists f, mirrors H (r_log rs) f /\
        forall r p, f r p = match idx r p with Some j => r_ptrs rs j | None => None end) /\
      (forall r p j, idx r p = Some j -> r_ptrs rs j <> None) /\
      (forall k, r_made rs k <> None <-> 0 <= k < c_nalloc st) /\
      r_ptrs rs 0 = None
  | Throw rs e => exists H1 H0 f, H = (H1 ++ H0)%list /\ mirrors H0 (r_log rs) f
  | _ => False
  end.

Record Inv (H : list pcall) (st : cstate) (idx : Z -> Z -> option Z) : Prop := {
  i_re : c_re st = false;
  i_na : c_nalloc st = ncreated H;
  i_refs : forall r, c_refs st r = made H r;
  i_index : forall name, afind name (c_index st) = option_map fst (made_name H name);
  i_ent : forall name k cls, made_name H name = Some (k, cls) ->
            0 <= k < ncreated H /\ exists en, c_entries st k = Some en /\ en_cls en = cls;
  i_first : starts_with_resource H -> 0 < ncreated H /\ exists en, c_entries st 0 = Some en /\ en_cls en = "";
  i_ids : forall r p, 0 < r -> 0 < p -> afind (key r p) (c_ids st) = idx r p;
  i_nil : forall r, afind (("0x" ++ hexs r) ++ "(nil)") (c_ids st) = None;
  i_live : forall r p, 0 < r -> 0 < p -> (holds H r p = true <-> idx r p <> None);
  i_pos : forall r p j, idx r p = Some j -> 0 < r /\ 0 < p /\ 1 <= j < c_nops st;
  i_n : 1 <= c_nops st <= 1 + Z.of_nat (List.length (records H));
  i_ops : forall i, 1 <= i < c_nops st -> exists o, c_tab st i = Some o /\ 0 <= o_allocator o < c_nalloc st;
  i_run : forall W (lib : rcall -> W -> outcome W Z) ptrs w, orderly lib -> ptrs 0 = None ->
            runs_ok H st idx (run_all lib st ptrs w) }.

Lemma ncreated_nonneg H : 0 <= ncreated H.
Proof. induction H as [|c H IH]; cbn; [lia|]. destruct (is_creation c); lia. Qed.

Lemma made_pos H r k : program H -> made H r = Some k -> 0 < r /\ 0 <= k < ncreated H.
Proof.
  induction H as [|c H IH]; cbn; [discriminate|]. intros [P M] E.
  assert (N := ncreated_nonneg H).
  destruct (creates c r) eqn:C.
  - injection E as <-. destruct c; try discriminate; cbn [creates is_creation may_follow] in *; apply Z.eqb_eq in C; subst;
      (split; [tauto | lia]).
  - destruct (IH P E). split; [tauto|]. destruct (is_creation c); lia.
Qed.

Lemma inv_init : Inv [] c_init (fun _ _ => None).
Proof.
  constructor; cbn; try reflexivity; try discriminate; try tauto; try lia.
  - intros r p _ _. split; [discriminate | congruence].
  - intros W lib ptrs w O Hp0. cbn. split; [|split; [|split]].
    + exists (fun _ _ => None). split; [constructor; reflexivity | reflexivity].
    + discriminate.
    + intros k. split; [intros X; contradiction X; reflexivity | lia].
    + exact Hp0.
Qed.

(** ** One call *)
Section Steps.
  Variable fsize : Z.

  Lemma compile_app a b st : compile fsize (a ++ b)%list st = bind (compile fsize a st) (fun st _ => compile fsize b st).
  Proof.
    revert st. induction a as [|e a IH]; intros st; cbn [app compile]; [reflexivity|].
    destruct (compile_event fsize e st) as [st1 []| | | |]; cbn [bind]; auto.
  Qed.

  Lemma records_cons c H : records (c :: H) = (records H ++ record c)%list.
  Proof. reflexivity. Qed.

  Lemma put_ok o st : c_nops st * OPSIZE <= fsize -> put fsize o st =
    Ok {| c_nalloc := c_nalloc st; c_entries := c_entries st; c_nops := c_nops st;
          c_tab := fset (c_tab st) (c_nops st) o; c_refs := c_refs st; c_index := c_index st;
          c_ids := c_ids st; c_re := c_re st |} tt.
  Proof. intros. unfold put. destruct (Z.leb_spec (c_nops st * OPSIZE) fsize); [reflexivity | lia]. Qed.

  Lemma call_on_case {W} (lib : rcall -> W -> outcome W Z) k c rs : orderly lib -> r_made rs k <> None ->
    (exists w a, call_on lib k c rs =
       Ok {| r_lib := w; r_made := r_made rs; r_ptrs := r_ptrs rs; r_log := (c, a) :: r_log rs |} a) \/
    (exists rs' e, call_on lib k c rs = Throw rs' e /\ r_log rs' = r_log rs).
  Proof.
    intros O M. unfold call_on, is_made. destruct (r_made rs k) eqn:E; [|contradiction M; reflexivity].
    unfold call. destruct (O c (r_lib rs)) as [(w & a & E1) | (w & e & E1)]; rewrite E1; eauto.
  Qed.

  (** A call that adds no operation. *)
  Lemma runs_same H st idx st' c : Inv H st idx -> agree st st' (c_nops st) -> c_nops st' = c_nops st ->
    c_nalloc st' = c_nalloc st -> (forall L f, mirrors H L f -> (forall r p, f r p <> None -> idx r p <> None) ->
      mirrors (c :: H) L f) ->
    forall W (lib : rcall -> W -> outcome W Z) ptrs w, orderly lib -> ptrs 0 = None ->
      runs_ok (c :: H) st' idx (run_all lib st' ptrs w).
  Proof.
    intros I A En Ea Hm W lib ptrs w O Hp0. assert (N := i_n _ _ _ I).
    rewrite (run_all_same lib st st' ptrs w); [|assumption | intros i Hi; destruct (i_ops _ _ _ I i Hi) as (o & E & _); eauto | lia | lia].
    assert (R := i_run _ _ _ I W lib ptrs w O Hp0). destruct (run_all lib st ptrs w) as [rs u|rs e| | |]; cbn [runs_ok] in *; auto.
    - destruct R as ((f & M & F) & R1 & R2 & R3). rewrite Ea. split; [|tauto].
      exists f. split; [|exact F]. apply Hm; [exact M|]. intros r p. rewrite F. destruct (idx r p); congruence.
    - destruct R as (H1 & H0 & f & -> & M). exists (c :: H1), H0, f. tauto.
  Qed.

  (** A call that adds one. *)
  Lemma runs_next H st idx st' idx' c : Inv H st idx -> agree st st' (c_nops st) -> c_nops st' = c_nops st + 1 ->
    (forall W (lib : rcall -> W -> outcome W Z) rs, orderly lib -> runs_ok H st idx (Ok rs tt) ->
       runs_ok (c :: H) st' idx' (run_op lib st' (c_nops st) rs)) ->
    forall W (lib : rcall -> W -> outcome W Z) ptrs w, orderly lib -> ptrs 0 = None ->
      runs_ok (c :: H) st' idx' (run_all lib st' ptrs w).
  Proof.
    intros I A En Hs W lib ptrs w O Hp0. assert (N := i_n _ _ _ I).
    rewrite (run_all_next lib st st' ptrs w); [|assumption | intros i Hi; destruct (i_ops _ _ _ I i Hi) as (o & E & _); eauto | lia | lia].
    assert (R := i_run _ _ _ I W lib ptrs w O Hp0). destruct (run_all lib st ptrs w) as [rs []|rs e| | |]; cbn [bind]; auto.
    cbn [runs_ok] in *. destruct R as (H1 & H0 & f & -> & M). exists (c :: H1), H0, f. tauto.
  Qed.

  Lemma index_ok H st idx r s k : Inv H st idx -> made H r = Some k -> stoul s = Some r ->
    allocator_index s st = Ok st k.
  Proof. intros I E S. unfold allocator_index. rewrite S, (i_refs _ _ _ I r), E. reflexivity. Qed.

  (** A new operation leaves the old ones. *)
  Lemma agree_put st o na ent refs ix ids re n' : (forall k, 0 <= k < c_nalloc st -> ent k = c_entries st k) ->
    (forall i, 1 <= i < c_nops st -> exists o, c_tab st i = Some o /\ 0 <= o_allocator o < c_nalloc st) ->
    agree st {| c_nalloc := na; c_entries := ent; c_nops := n'; c_tab := fset (c_tab st) (c_nops st) o;
                c_refs := refs; c_index := ix; c_ids := ids; c_re := re |} (c_nops st).
  Proof.
    intros E F i Hi. cbn. split; [apply fset_ne; lia|]. intros o' Eo'.
    destruct (F i Hi) as (o2 & E2 & B). assert (o2 = o') by congruence. subst. apply E. exact B.
  Qed.

  Lemma throw_step {W} H st idx c (rs rs' : @rstate W) e : runs_ok H st idx (Ok rs tt) -> r_log rs' = r_log rs ->
    forall st' idx', runs_ok (c :: H) st' idx' (Throw rs' e).
  Proof.
    intros ((f & M & _) & _) E st' idx'. exists [c], H, f. rewrite E. split; [reflexivity | exact M].
  Qed.

  Lemma ncreated_other c H : is_creation c = false -> ncreated (c :: H) = ncreated H.
  Proof. intros E. cbn [ncreated]. rewrite E. lia. Qed.
  Lemma made_other c H r : is_creation c = false -> made (c :: H) r = made H r.
  Proof. intros E. cbn [made]. destruct c; try discriminate; reflexivity. Qed.
  Lemma made_name_other c H n : is_creation c = false -> made_name (c :: H) n = made_name H n.
  Proof. intros E. destruct c; try discriminate; reflexivity. Qed.
  Lemma starts_other c H : is_creation c = false -> starts_with_resource (c :: H) <-> starts_with_resource H.
  Proof. intros E. destruct c; try discriminate; reflexivity. Qed.
  Lemma len_records c H : Z.of_nat (List.length (records (c :: H))) =
    Z.of_nat (List.length (records H)) + Z.of_nat (List.length (record c)).
  Proof. rewrite records_cons, app_length. lia. Qed.
  Lemma record_pos c : (1 <= List.length (record c))%nat.
  Proof. destruct c; cbn; lia. Qed.

  (** Calls that record nothing that matters. *)
  Lemma step_quiet H st idx c : Inv H st idx ->
    match c with PCopy | PMove | PRegister | PDeregister | PMeta _ => True | _ => False end ->
    compile fsize (record c) st = Ok st tt /\ Inv (c :: H) st idx.
  Proof.
    intros I Q. split; [destruct c; try contradiction; reflexivity|].
    assert (L : Z.of_nat (List.length (records (c :: H))) = Z.of_nat (List.length (records H)) + 1).
    { rewrite len_records. destruct c; try contradiction; cbn [record List.length]; lia. }
    assert (N := i_n _ _ _ I).
    assert (C : is_creation c = false) by (destruct c; try contradiction; reflexivity).
    assert (Hh : forall r p, holds (c :: H) r p = holds H r p) by (intros; destruct c; try contradiction; reflexivity).
    constructor; intros; rewrite ?Hh; rewrite ?ncreated_other, ?made_other, ?made_name_other, ?starts_other in * by exact C;
      try (eapply I; eassumption); try (apply I); try assumption.
    - split; [lia|]. lia.
    - apply (runs_same H st idx st c I); auto.
      + intros i Hi. split; [reflexivity|]. reflexivity.
      + intros L0 f M _. apply mi_quiet; assumption.
  Qed.

  Definition upd (idx : Z -> Z -> option Z) (r p : Z) (v : option Z) (r' p' : Z) : option Z :=
    if (r' =? r) && (p' =? p) then v else idx r' p'.

  Lemma upd_eq idx r p v : upd idx r p v r p = v.
  Proof. unfold upd. rewrite !Z.eqb_refl. reflexivity. Qed.

  Lemma key_show r p : 0 < r -> 0 < p -> show_p r ++ show_p p = key r p.
  Proof. intros. rewrite !show_p_pos by lia. reflexivity. Qed.
  Lemma key_show_s r p : 0 < r -> 0 < p -> show_s r ++ show_s p = key r p.
  Proof. intros. rewrite !show_s_pos by lia. reflexivity. Qed.

  Lemma key_eqb r p r' p' : 0 < r -> 0 < p -> 0 < r' -> 0 < p' ->
    String.eqb (key r p) (key r' p') = ((r =? r') && (p =? p'))%bool.
  Proof.
    intros. destruct (String.eqb_spec (key r p) (key r' p')) as [E|N].
    - apply key_inj in E; lia.
    - destruct (Z.eqb_spec r r'); [|reflexivity]. destruct (Z.eqb_spec p p'); [|reflexivity]. subst. contradiction N. reflexivity.
  Qed.

  Lemma nil_key r r' p' : String.eqb (("0x" ++ hexs r) ++ "(nil)") (key r' p') = false.
  Proof.
    destruct (String.eqb_spec (("0x" ++ hexs r) ++ "(nil)") (key r' p')) as [E|]; [|reflexivity].
    symmetry in E. apply key_nil in E. contradiction.
  Qed.

  Lemma afind_arem k k' l : afind k (arem k' l) = if String.eqb k k' then None else afind k l.
  Proof.
    destruct (String.eqb_spec k k'); [subst; apply afind_arem_eq | apply afind_arem_ne; assumption].
  Qed.

  Lemma step_alloc H st idx r n q : program H -> Inv H st idx -> may_follow H (PAlloc r n q) ->
    OPSIZE * Z.of_nat (List.length (records (PAlloc r n q :: H))) <= fsize ->
    exists st' idx', compile fsize (record (PAlloc r n q)) st = Ok st' tt /\ Inv (PAlloc r n q :: H) st' idx'.
  Proof.
    intros P I (Hm & Hq & Hh) Hf. destruct (made H r) as [k|] eqn:Ek; [|contradiction Hm; reflexivity]. clear Hm.
    destruct (made_pos H r k P Ek) as [Hr Hk]. assert (N := i_n _ _ _ I).
    rewrite len_records in Hf. cbn [record List.length] in Hf.
    assert (Hi : idx r q = None).
    { destruct (idx r q) eqn:E; [|reflexivity]. assert (X : holds H r q = true) by (apply (i_live _ _ _ I); congruence). congruence. }
    cbn [record compile]. unfold compile_event. cbn [mk_event e_oper e_name negb String.eqb Ascii.eqb Bool.eqb].
    unfold compile_allocate. rewrite (i_re _ _ _ I). unfold sget, nget.
    cbn [mk_event e_str e_num afind String.eqb Ascii.eqb Bool.eqb].
    rewrite (index_ok H st idx r (show_p r) k I Ek (stoul_p r Hr)). cbn [bind].
    rewrite put_ok by (unfold OPSIZE in *; lia). cbn [bind c_ids c_nops].
    rewrite key_show by lia. rewrite (i_ids _ _ _ I r q Hr Hq), Hi.
    eexists. exists (upd idx r q (Some (c_nops st))). split; [reflexivity|].
    unfold next, with_ids. cbn [c_nalloc c_entries c_nops c_tab c_refs c_index c_ids c_re].
    constructor; cbn [c_nalloc c_entries c_nops c_tab c_refs c_index c_ids c_re].
    - exact (i_re _ _ _ I).
    - exact (i_na _ _ _ I).
    - exact (i_refs _ _ _ I).
    - exact (i_index _ _ _ I).
    - exact (i_ent _ _ _ I).
    - exact (i_first _ _ _ I).
    - intros r' p' Hr' Hp'. cbn [afind]. rewrite key_eqb by lia. unfold upd.
      destruct ((r' =? r) && (p' =? q))%bool; [reflexivity|]. apply (i_ids _ _ _ I); assumption.
    - intros r'. cbn [afind]. rewrite nil_key. apply (i_nil _ _ _ I).
    - intros r' p' Hr' Hp'. unfold upd. cbn [holds produces consumes].
      destruct ((r' =? r) && (p' =? q))%bool; [split; congruence|]. apply (i_live _ _ _ I); assumption.
    - intros r' p' j. unfold upd. destruct (Z.eqb_spec r' r); destruct (Z.eqb_spec p' q); cbn [andb]; intros E;
        try (destruct (i_pos _ _ _ I _ _ _ E) as (? & ? & ?); lia). injection E as <-. lia.
    - rewrite len_records. cbn [record List.length]. lia.
    - intros i Hi'. destruct (Z.eq_dec i (c_nops st)) as [->|Ne].
      + rewrite fset_eq. eexists. split; [reflexivity|]. cbn. rewrite (i_na _ _ _ I). exact Hk.
      + rewrite fset_ne by lia. apply (i_ops _ _ _ I). lia.
    - apply (runs_next H st idx); [exact I | apply agree_put; [reflexivity | apply (i_ops _ _ _ I)] | reflexivity |].
      intros W lib rs O R. unfold run_op. cbn [c_tab c_entries]. rewrite fset_eq. cbn [o_type o_allocator o_size].
      assert (R' := R). destruct R' as ((f & M & F) & R1 & R2 & R3).
      destruct (call_on_case lib k (RAlloc k n) rs O) as [(w & a & E)|(rs' & e & E & El)].
      { apply R2. rewrite (i_na _ _ _ I). exact Hk. }
      + rewrite E. cbn [bind]. unfold set_ptr. cbn [r_lib r_made r_ptrs r_log]. cbn [runs_ok r_lib r_made r_ptrs r_log c_nalloc c_nops].
        split; [|split; [|split]].
        * exists (fun r' p' => if (r' =? r) && (p' =? q) then Some a else f r' p'). split; [eapply mi_alloc; eauto|].
          intros r' p'. unfold upd. destruct ((r' =? r) && (p' =? q))%bool; [symmetry; apply fset_eq|].
          rewrite F. destruct (idx r' p') as [j|] eqn:Ej; [|reflexivity].
          destruct (i_pos _ _ _ I _ _ _ Ej) as (_ & _ & ?). symmetry. apply fset_ne. lia.
        * intros r' p' j. unfold upd. destruct ((r' =? r) && (p' =? q))%bool; intros Ej.
          -- injection Ej as <-. rewrite fset_eq. discriminate.
          -- destruct (i_pos _ _ _ I _ _ _ Ej) as (_ & _ & ?). rewrite fset_ne by lia. eauto.
        * exact R2.
        * rewrite fset_ne by lia. exact R3.
      + rewrite E. cbn [bind]. eapply throw_step; eassumption.
  Qed.

  Lemma step_free H st idx r p : program H -> Inv H st idx -> may_follow H (PFree r p) ->
    OPSIZE * Z.of_nat (List.length (records (PFree r p :: H))) <= fsize ->
    exists st' idx', compile fsize (record (PFree r p)) st = Ok st' tt /\ Inv (PFree r p :: H) st' idx'.
  Proof.
    intros P I (Hm & Hp) Hf. destruct (made H r) as [k|] eqn:Ek; [|contradiction Hm; reflexivity]. clear Hm.
    destruct (made_pos H r k P Ek) as [Hr Hk]. assert (N := i_n _ _ _ I).
    rewrite len_records in Hf. cbn [record List.length] in Hf.
    assert (Ei : afind (show_p r ++ show_p p) (c_ids st) = idx r p).
    { destruct (Z.eq_dec p 0) as [->|].
      - rewrite show_p_pos by lia. change (show_p 0) with "(nil)". rewrite (i_nil _ _ _ I).
        destruct (idx r 0) eqn:E; [|reflexivity]. apply (i_pos _ _ _ I) in E. lia.
      - rewrite key_show by lia. apply (i_ids _ _ _ I); lia. }
    cbn [record compile]. unfold compile_event. cbn [mk_event e_oper e_name negb String.eqb Ascii.eqb Bool.eqb].
    unfold compile_deallocate. rewrite (i_re _ _ _ I). unfold sget, nget.
    cbn [mk_event e_str e_num afind String.eqb Ascii.eqb Bool.eqb].
    rewrite (index_ok H st idx r (show_p r) k I Ek (stoul_p r Hr)). cbn [bind].
    rewrite Ei. destruct (idx r p) as [j|] eqn:Ej.
    - destruct (i_pos _ _ _ I _ _ _ Ej) as (_ & Hp1 & Hj).
      rewrite put_ok by (unfold OPSIZE in *; lia). cbn [bind c_ids c_nops].
      rewrite key_show by lia.
      eexists. exists (upd idx r p None). split; [reflexivity|].
      unfold next, with_ids. cbn [c_nalloc c_entries c_nops c_tab c_refs c_index c_ids c_re].
      constructor; cbn [c_nalloc c_entries c_nops c_tab c_refs c_index c_ids c_re].
      + exact (i_re _ _ _ I).
      + exact (i_na _ _ _ I).
      + exact (i_refs _ _ _ I).
      + exact (i_index _ _ _ I).
      + exact (i_ent _ _ _ I).
      + exact (i_first _ _ _ I).
      + intros r' p' Hr' Hp'. rewrite afind_arem. rewrite key_eqb by lia. unfold upd.
        destruct ((r' =? r) && (p' =? p))%bool; [reflexivity|]. apply (i_ids _ _ _ I); assumption.
      + intros r'. rewrite afind_arem. rewrite nil_key. apply (i_nil _ _ _ I).
      + intros r' p' Hr' Hp'. unfold upd. cbn [holds produces consumes].
        destruct ((r' =? r) && (p' =? p))%bool; [split; congruence|]. apply (i_live _ _ _ I); assumption.
      + intros r' p' j'. unfold upd. destruct (Z.eqb_spec r' r); destruct (Z.eqb_spec p' p); cbn [andb]; intros E;
          try discriminate; destruct (i_pos _ _ _ I _ _ _ E) as (? & ? & ?); lia.
      + rewrite len_records. cbn [record List.length]. lia.
      + intros i Hi'. destruct (Z.eq_dec i (c_nops st)) as [->|Ne].
        * rewrite fset_eq. eexists. split; [reflexivity|]. cbn. rewrite (i_na _ _ _ I). exact Hk.
        * rewrite fset_ne by lia. apply (i_ops _ _ _ I). lia.
      + apply (runs_next H st idx); [exact I | apply agree_put; [reflexivity | apply (i_ops _ _ _ I)] | reflexivity |].
        intros W lib rs O R. unfold run_op. cbn [c_tab c_entries]. rewrite fset_eq. cbn [o_type o_allocator o_size o_src].
        assert (R' := R). destruct R' as ((f & M & F) & R1 & R2 & R3).
        assert (Hp' := R1 _ _ _ Ej). destruct (r_ptrs rs j) as [p'|] eqn:Ep; [|contradiction Hp'; reflexivity].
        assert (Epo : ptr_of j rs = p') by (unfold ptr_of; rewrite Ep; reflexivity). rewrite Epo.
        destruct (call_on_case lib k (RFree k p') rs O) as [(w & a & E)|(rs' & e & E & El)].
        { apply R2. rewrite (i_na _ _ _ I). exact Hk. }
        * rewrite E. cbn [bind]. cbn [runs_ok r_lib r_made r_ptrs r_log c_nalloc c_nops].
          split; [|split; [|split]].
          -- exists (fun r' x => if (r' =? r) && (x =? p) then None else f r' x). split.
             { eapply mi_free; [exact M | exact Ek | rewrite F, Ej; exact Ep | reflexivity]. }
             intros r' x. unfold upd. destruct ((r' =? r) && (x =? p))%bool; [reflexivity | apply F].
          -- intros r' x j'. unfold upd. destruct ((r' =? r) && (x =? p))%bool; [discriminate | apply R1].
          -- exact R2.
          -- exact R3.
        * rewrite E. cbn [bind]. eapply throw_step; eassumption.
    - exists st, idx. split; [reflexivity|].
      assert (Hh : forall r' p', 0 < r' -> 0 < p' -> holds (PFree r p :: H) r' p' = holds H r' p').
      { intros r' p' Hr' Hp'. cbn [holds produces consumes].
        destruct (Z.eqb_spec r' r); [|reflexivity]. destruct (Z.eqb_spec p' p); [|reflexivity]. cbn. subst.
        destruct (holds H r p) eqn:E; [|reflexivity]. apply (i_live _ _ _ I) in E; try assumption. contradiction. }
      constructor.
      + exact (i_re _ _ _ I).
      + exact (i_na _ _ _ I).
      + exact (i_refs _ _ _ I).
      + exact (i_index _ _ _ I).
      + exact (i_ent _ _ _ I).
      + exact (i_first _ _ _ I).
      + exact (i_ids _ _ _ I).
      + exact (i_nil _ _ _ I).
      + intros r' p' Hr' Hp'. rewrite Hh by assumption. apply (i_live _ _ _ I); assumption.
      + exact (i_pos _ _ _ I).
      + rewrite len_records. cbn [record List.length]. lia.
      + exact (i_ops _ _ _ I).
      + apply (runs_same H st idx st _ I); auto.
        * intros i Hi. split; reflexivity.
        * intros L f M Hd. apply mi_stray; [exact M|]. destruct (f r p) eqn:E; [|reflexivity].
          exfalso. apply (Hd r p); congruence.
  Qed.

  (** Allocations and deallocations inside of a [reallocate] are passed over. *)
  Lemma compile_inner inner st : Forall inner_ok inner -> c_re st = true -> compile fsize (records inner) st = Ok st tt.
  Proof.
    intros Fi Re. induction Fi as [|c inner Hc Fi IH]; [reflexivity|]. cbn [records]. rewrite compile_app, IH. cbn [bind].
    destruct c; try contradiction; try reflexivity; cbn [record compile]; unfold compile_event;
      cbn [mk_event e_oper e_name negb String.eqb Ascii.eqb Bool.eqb];
      unfold compile_allocate, compile_deallocate; rewrite Re; reflexivity.
  Qed.

  Lemma record_realloc r p n inner q : record (PRealloc r p n inner q) =
      (mk_event "reallocate" [("current_ptr", show_s p); ("allocator_ref", show_s r)] [("size", n)] []
       :: records inner ++
      match q with
      | Some q => [mk_event "reallocate" [("new_ptr", show_s q); ("allocator_ref", show_s r)] [] []]
      | None => []
      end)%list.
  Proof. reflexivity. Qed.

  Lemma step_realloc H st idx r p n inner q : program H -> Inv H st idx -> may_follow H (PRealloc r p n inner (Some q)) ->
    OPSIZE * Z.of_nat (List.length (records (PRealloc r p n inner (Some q) :: H))) <= fsize ->
    exists st' idx', compile fsize (record (PRealloc r p n inner (Some q))) st = Ok st' tt /\
                     Inv (PRealloc r p n inner (Some q) :: H) st' idx'.
  Proof.
    intros P I (Hm & Hp & Hq & Hqf & Fi) Hf. destruct (made H r) as [k|] eqn:Ek; [|contradiction Hm; reflexivity]. clear Hm.
    destruct (made_pos H r k P Ek) as [Hr Hk]. assert (N := i_n _ _ _ I).
    rewrite len_records in Hf. assert (Hl := record_pos (PRealloc r p n inner (Some q))).
    assert (Hl2 : (2 <= List.length (record (PRealloc r p n inner (Some q))))%nat).
    { rewrite record_realloc. cbn [List.length]. rewrite app_length. cbn [List.length]. lia. }
    assert (Hprev : exists j, (p = 0 /\ j = 0) \/ (0 < p /\ idx r p = Some j)).
    { destruct Hp as [->|[Hp Hh]]; [exists 0; tauto|].
      destruct (idx r p) as [j|] eqn:E; [exists j; tauto|]. apply (i_live _ _ _ I) in Hh; try assumption. contradiction. }
    destruct Hprev as [j Hj].
    rewrite record_realloc. rewrite app_comm_cons, compile_app. cbn [compile].
    set (ids1 := if p =? 0 then c_ids st else arem (key r p) (c_ids st)).
    set (o := {| o_type := TReallocateEx; o_allocator := k; o_size := n; o_src := 0; o_prev := j |}).
    assert (E1 : compile_event fsize
        (mk_event "reallocate" [("current_ptr", show_s p); ("allocator_ref", show_s r)] [("size", n)] []) st =
      Ok {| c_nalloc := c_nalloc st; c_entries := c_entries st; c_nops := c_nops st;
            c_tab := fset (c_tab st) (c_nops st) o; c_refs := c_refs st; c_index := c_index st;
            c_ids := ids1; c_re := true |} tt).
    { unfold compile_event. cbn [mk_event e_oper e_name negb String.eqb Ascii.eqb Bool.eqb].
      unfold compile_reallocate, sget, nget. cbn [mk_event e_str e_num afind String.eqb Ascii.eqb Bool.eqb].
      rewrite stoul_s by lia.
      assert (Ea : allocator_index (show_s r) (with_re true st) = Ok (with_re true st) k).
      { unfold allocator_index. rewrite stoul_s by lia. cbn [with_re c_refs]. rewrite (i_refs _ _ _ I r), Ek. reflexivity. }
      destruct Hj as [[-> ->]|[Hp0 Ej]].
      - rewrite Z.eqb_refl. rewrite Ea. cbn [bind].
        rewrite put_ok by (cbn [with_re c_nops]; unfold OPSIZE in *; lia). reflexivity.
      - unfold ids1. destruct (Z.eqb_spec p 0); [lia|]. cbn [with_re c_ids]. rewrite key_show_s by lia.
        rewrite (i_ids _ _ _ I r p Hr Hp0), Ej. fold (with_re true st). rewrite Ea. cbn [bind].
        rewrite put_ok by (cbn [with_re c_nops]; unfold OPSIZE in *; lia). reflexivity. }
    rewrite E1. cbn [bind]. rewrite compile_inner by (reflexivity || assumption). cbn [bind compile].
    set (st1 := {| c_nalloc := c_nalloc st; c_entries := c_entries st; c_nops := c_nops st;
            c_tab := fset (c_tab st) (c_nops st) o; c_refs := c_refs st; c_index := c_index st;
            c_ids := ids1; c_re := true |}).
    assert (Ids1 : forall r' p', 0 < r' -> 0 < p' -> afind (key r' p') ids1 = upd idx r p None r' p').
    { intros r' p' Hr' Hp'. unfold ids1, upd. destruct (Z.eqb_spec p 0).
      - subst p. destruct (Z.eqb_spec p' 0); [lia|]. rewrite andb_false_r. apply (i_ids _ _ _ I); assumption.
      - rewrite afind_arem. rewrite key_eqb by lia.
        destruct ((r' =? r) && (p' =? p))%bool; [reflexivity|]. apply (i_ids _ _ _ I); assumption. }
    assert (Nil1 : forall r', afind (("0x" ++ hexs r') ++ "(nil)") ids1 = None).
    { intros r'. unfold ids1. destruct (p =? 0); [apply (i_nil _ _ _ I)|].
      rewrite afind_arem, nil_key. apply (i_nil _ _ _ I). }
    assert (Hi : afind (show_s r ++ show_s q) ids1 = None).
    { rewrite key_show_s by lia. rewrite Ids1 by lia. unfold upd. rewrite Z.eqb_refl.
      destruct (Z.eqb_spec q p); [reflexivity|]. cbn [andb]. destruct Hqf as [|Hqf]; [contradiction|].
      destruct (idx r q) eqn:E; [|reflexivity].
      assert (X : holds H r q = true) by (apply (i_live _ _ _ I); congruence). congruence. }
    unfold compile_event. cbn [mk_event e_oper e_name negb String.eqb Ascii.eqb Bool.eqb].
    unfold compile_reallocate, sget. cbn [mk_event e_str e_num afind String.eqb Ascii.eqb Bool.eqb].
    change (c_ids st1) with ids1. rewrite Hi. cbn [bind].
    eexists. exists (upd (upd idx r p None) r q (Some (c_nops st))). split; [reflexivity|].
    unfold next, with_ids, with_re, st1. cbn [c_nalloc c_entries c_nops c_tab c_refs c_index c_ids c_re].
    rewrite key_show_s by lia.
    constructor; cbn [c_nalloc c_entries c_nops c_tab c_refs c_index c_ids c_re].
    - reflexivity.
    - exact (i_na _ _ _ I).
    - exact (i_refs _ _ _ I).
    - exact (i_index _ _ _ I).
    - exact (i_ent _ _ _ I).
    - exact (i_first _ _ _ I).
    - intros r' p' Hr' Hp'. cbn [afind]. rewrite key_eqb by lia. unfold upd at 1.
      destruct ((r' =? r) && (p' =? q))%bool; [reflexivity|]. apply Ids1; assumption.
    - intros r'. cbn [afind]. rewrite nil_key. apply Nil1.
    - intros r' p' Hr' Hp'. unfold upd. cbn [holds produces consumes].
      destruct ((r' =? r) && (p' =? q))%bool; [split; congruence|].
      destruct ((r' =? r) && (p' =? p))%bool; [split; congruence|].
      apply (i_live _ _ _ I); assumption.
    - intros r' p' j'. unfold upd. destruct (Z.eqb_spec r' r); destruct (Z.eqb_spec p' q); destruct (Z.eqb_spec p' p); cbn [andb]; intros E;
        try discriminate; try (destruct (i_pos _ _ _ I _ _ _ E) as (? & ? & ?); lia); injection E as <-; lia.
    - rewrite len_records. lia.
    - intros i Hi'. destruct (Z.eq_dec i (c_nops st)) as [->|Ne].
      + rewrite fset_eq. eexists. split; [reflexivity|]. cbn. rewrite (i_na _ _ _ I). exact Hk.
      + rewrite fset_ne by lia. apply (i_ops _ _ _ I). lia.
    - apply (runs_next H st idx); [exact I | apply agree_put; [reflexivity | apply (i_ops _ _ _ I)] | reflexivity |].
      intros W lib rs O R. unfold run_op. cbn [c_tab c_entries]. rewrite fset_eq. cbn [o o_type o_allocator o_size o_prev].
      assert (R' := R). destruct R' as ((f & M & F) & R1 & R2 & R3).
      assert (Hp' : p = 0 /\ ptr_of j rs = 0 \/ p <> 0 /\ f r p = Some (ptr_of j rs)).
      { unfold ptr_of. destruct Hj as [[-> ->]|[Hp0 Ej]].
        - left. rewrite R3. tauto.
        - right. split; [lia|]. rewrite F, Ej. assert (X := R1 _ _ _ Ej). destruct (r_ptrs rs j); [reflexivity | contradiction X; reflexivity]. }
      destruct (call_on_case lib k (RRealloc k (ptr_of j rs) n) rs O) as [(w & a & E)|(rs' & e & E & El)].
      { apply R2. rewrite (i_na _ _ _ I). exact Hk. }
      + rewrite E. cbn [bind]. unfold set_ptr. cbn [r_lib r_made r_ptrs r_log]. cbn [runs_ok r_lib r_made r_ptrs r_log c_nalloc c_nops].
        split; [|split; [|split]].
        * exists (fun r' x => if (r' =? r) && (x =? q) then Some a else if (r' =? r) && (x =? p) then None else f r' x).
          split; [eapply mi_realloc; eauto|].
          intros r' p'. unfold upd. destruct ((r' =? r) && (p' =? q))%bool; [symmetry; apply fset_eq|].
          destruct ((r' =? r) && (p' =? p))%bool; [reflexivity|].
          rewrite F. destruct (idx r' p') as [j'|] eqn:Ej; [|reflexivity].
          destruct (i_pos _ _ _ I _ _ _ Ej) as (_ & _ & ?). symmetry. apply fset_ne. lia.
        * intros r' p' j'. unfold upd. destruct ((r' =? r) && (p' =? q))%bool; intros Ej.
          -- injection Ej as <-. rewrite fset_eq. discriminate.
          -- destruct ((r' =? r) && (p' =? p))%bool; [discriminate|].
             destruct (i_pos _ _ _ I _ _ _ Ej) as (_ & _ & ?). rewrite fset_ne by lia. eauto.
        * exact R2.
        * rewrite fset_ne by lia. exact R3.
      + rewrite E. cbn [bind]. eapply throw_step; eassumption.
  Qed.

  (** Calls that add an operation without touching allocations or allocators. *)
  Lemma step_op H st idx c k o : Inv H st idx -> is_creation c = false ->
    (forall r p, holds (c :: H) r p = holds H r p) -> 0 <= k < ncreated H -> o_allocator o = k ->
    OPSIZE * Z.of_nat (List.length (records (c :: H))) <= fsize ->
    (forall W (lib : rcall -> W -> outcome W Z) rs, orderly lib -> runs_ok H st idx (Ok rs tt) ->
       forall st', c_tab st' (c_nops st) = Some o -> c_entries st' = c_entries st -> c_nalloc st' = c_nalloc st ->
       c_nops st' = c_nops st + 1 ->
       runs_ok (c :: H) st' idx (run_op lib st' (c_nops st) rs)) ->
    exists st', bind (put fsize o st) (fun st _ => Ok (next st) tt) = Ok st' tt /\ Inv (c :: H) st' idx.
  Proof.
    intros I Cc Hh Hk Ho Hf Hs. assert (N := i_n _ _ _ I).
    rewrite len_records in Hf. assert (Hl := record_pos c).
    rewrite put_ok by (unfold OPSIZE in *; lia). cbn [bind]. eexists. split; [reflexivity|].
    unfold next. cbn [c_nalloc c_entries c_nops c_tab c_refs c_index c_ids c_re].
    constructor; cbn [c_nalloc c_entries c_nops c_tab c_refs c_index c_ids c_re]; rewrite ?ncreated_other by exact Cc.
    - exact (i_re _ _ _ I).
    - exact (i_na _ _ _ I).
    - intros r. rewrite made_other by exact Cc. apply (i_refs _ _ _ I).
    - intros n. rewrite made_name_other by exact Cc. apply (i_index _ _ _ I).
    - intros n k' cls. rewrite made_name_other by exact Cc. apply (i_ent _ _ _ I).
    - rewrite starts_other by exact Cc. apply (i_first _ _ _ I).
    - exact (i_ids _ _ _ I).
    - exact (i_nil _ _ _ I).
    - intros r p. rewrite Hh. apply (i_live _ _ _ I).
    - intros r p j E. apply (i_pos _ _ _ I) in E. lia.
    - rewrite len_records. lia.
    - intros i Hi'. destruct (Z.eq_dec i (c_nops st)) as [->|Ne].
      + rewrite fset_eq. eexists. split; [reflexivity|]. rewrite (i_na _ _ _ I), Ho. exact Hk.
      + rewrite fset_ne by lia. apply (i_ops _ _ _ I). lia.
    - apply (runs_next H st idx); [exact I | apply agree_put; [reflexivity | apply (i_ops _ _ _ I)] | reflexivity |].
      intros W lib rs O R. apply Hs; try assumption; try reflexivity. cbn [c_tab]. apply fset_eq.
  Qed.

  (** The case of a call of the library on one allocator. *)
  Lemma run_simple {W} H st idx c k o rc (lib : rcall -> W -> outcome W Z) rs st' : Inv H st idx ->
    orderly lib -> runs_ok H st idx (Ok rs tt) -> 0 <= k < ncreated H ->
    c_nalloc st' = c_nalloc st -> c_nops st' = c_nops st + 1 ->
    (forall L f a, mirrors H L f -> mirrors (c :: H) ((rc, a) :: L) f) ->
    o = bind (call_on lib k rc rs) (fun st _ => Ok st tt) -> runs_ok (c :: H) st' idx o.
  Proof.
    intros I O R Hk Ea En Hm ->. assert (R' := R). destruct R' as ((f & M & F) & R1 & R2 & R3).
    destruct (call_on_case lib k rc rs O) as [(w & a & E)|(rs' & e & E & El)].
    { apply R2. rewrite (i_na _ _ _ I). exact Hk. }
    - rewrite E. cbn [bind]. cbn [runs_ok r_lib r_made r_ptrs r_log]. rewrite Ea.
      split; [exists f; split; [apply Hm; exact M | exact F]|]. split; [exact R1|]. split; [exact R2|]. exact R3.
    - rewrite E. cbn [bind]. eapply throw_step; eassumption.
  Qed.

  Lemma step_default H st idx r : program H -> Inv H st idx -> may_follow H (PDefault r) ->
    OPSIZE * Z.of_nat (List.length (records (PDefault r :: H))) <= fsize ->
    exists st' idx', compile fsize (record (PDefault r)) st = Ok st' tt /\ Inv (PDefault r :: H) st' idx'.
  Proof.
    intros P I Hm Hf. cbn [may_follow] in Hm. destruct (made H r) as [k|] eqn:Ek; [|contradiction Hm; reflexivity]. clear Hm.
    destruct (made_pos H r k P Ek) as [Hr Hk].
    cbn [record compile]. unfold compile_event. cbn [mk_event e_oper e_name negb String.eqb Ascii.eqb Bool.eqb].
    unfold compile_simple, sget. cbn [mk_event e_str e_num afind String.eqb Ascii.eqb Bool.eqb].
    rewrite (index_ok H st idx r (show_s r) k I Ek (stoul_s r (Z.lt_le_incl _ _ Hr))). cbn [bind].
    set (o := {| o_type := TDefault; o_allocator := k; o_size := 0; o_src := 0; o_prev := 0 |}).
    destruct (step_op H st idx (PDefault r) k o I) as (st' & E & I'); try reflexivity; try assumption.
    - intros W lib rs O R st' E1 E2 E3 E4. eapply (run_simple H st idx _ k _ (RDefault k)); try eassumption.
      + intros L f a M. eapply mi_default; eassumption.
      + unfold run_op. rewrite E1. reflexivity.
    - exists st', idx. split; [|exact I']. rewrite E. reflexivity.
  Qed.

  Lemma step_release H st idx r : program H -> Inv H st idx -> may_follow H (PRelease r) ->
    OPSIZE * Z.of_nat (List.length (records (PRelease r :: H))) <= fsize ->
    exists st' idx', compile fsize (record (PRelease r)) st = Ok st' tt /\ Inv (PRelease r :: H) st' idx'.
  Proof.
    intros P I Hm Hf. cbn [may_follow] in Hm. destruct (made H r) as [k|] eqn:Ek; [|contradiction Hm; reflexivity]. clear Hm.
    destruct (made_pos H r k P Ek) as [Hr Hk].
    cbn [record compile]. unfold compile_event. cbn [mk_event e_oper e_name negb String.eqb Ascii.eqb Bool.eqb].
    unfold compile_simple, sget. cbn [mk_event e_str e_num afind String.eqb Ascii.eqb Bool.eqb].
    rewrite (index_ok H st idx r (show_s r) k I Ek (stoul_s r (Z.lt_le_incl _ _ Hr))). cbn [bind].
    set (o := {| o_type := TRelease; o_allocator := k; o_size := 0; o_src := 0; o_prev := 0 |}).
    destruct (step_op H st idx (PRelease r) k o I) as (st' & E & I'); try reflexivity; try assumption.
    - intros W lib rs O R st' E1 E2 E3 E4. eapply (run_simple H st idx _ k _ (RRelease k)); try eassumption.
      + intros L f a M. eapply mi_release; eassumption.
      + unfold run_op. rewrite E1. reflexivity.
    - exists st', idx. split; [|exact I']. rewrite E. reflexivity.
  Qed.

  Lemma substring_all s : substring 0 (String.length s) s = s.
  Proof. induction s; cbn; congruence. Qed.
  Lemma substring_cut : forall n s, (n <= String.length s)%nat ->
    substring 0 n s ++ substring n (String.length s - n) s = s.
  Proof.
    induction n as [|n IH]; intros s Hn.
    - rewrite Nat.sub_0_r, substring_all. destruct s; reflexivity.
    - destruct s as [|c s]; [cbn in Hn; lia|]. cbn [substring String.length Nat.sub append]. f_equal. apply IH. cbn in Hn. lia.
  Qed.
  Lemma strip_same name : (forall s, name <> s ++ "_base") -> strip_off_base name = name.
  Proof.
    intros Hn. unfold strip_off_base. destruct (Nat.ltb_spec 5 (String.length name)); [|reflexivity].
    destruct (String.eqb_spec (substring (String.length name - 5) 5 name) "_base") as [E|]; [|reflexivity].
    exfalso. apply (Hn (substring 0 (String.length name - 5) name)). rewrite <- E.
    rewrite <- (substring_cut (String.length name - 5) name) at 1 by lia.
    replace (String.length name - (String.length name - 5))%nat with 5%nat by lia. reflexivity.
  Qed.

  Lemma step_coalesce H st idx name : Inv H st idx -> may_follow H (PCoalesce name) ->
    OPSIZE * Z.of_nat (List.length (records (PCoalesce name :: H))) <= fsize ->
    exists st' idx', compile fsize (record (PCoalesce name)) st = Ok st' tt /\ Inv (PCoalesce name :: H) st' idx'.
  Proof.
    intros I (Hn & Hs & Hc) Hf.
    cbn [record compile]. unfold compile_event. cbn [mk_event e_oper e_name negb String.eqb Ascii.eqb Bool.eqb].
    unfold compile_coalesce, sget, nget. cbn [mk_event e_str e_tag afind String.eqb Ascii.eqb Bool.eqb].
    rewrite (strip_same name Hn), (i_index _ _ _ I name).
    destruct (i_first _ _ _ I Hs) as (Hn0 & en0 & Een0 & Ecl0).
    set (k := match option_map fst (made_name H name) with Some v => v | None => 0 end).
    set (o := {| o_type := TCoalesce; o_allocator := k; o_size := 0; o_src := 0; o_prev := 0 |}).
    assert (Hk : 0 <= k < ncreated H).
    { unfold k. destruct (made_name H name) as [[k' cls]|] eqn:E; cbn [option_map fst]; [|lia].
      apply (i_ent _ _ _ I _ _ _ E). }
    destruct (step_op H st idx (PCoalesce name) k o I) as (st' & E & I'); try reflexivity; try assumption.
    - intros W lib rs O R st' E1 E2 E3 E4. unfold run_op. rewrite E1, E2. cbn [o o_allocator o_type].
      destruct (made_name H name) as [[k' cls]|] eqn:E.
      + change k with k'. destruct (i_ent _ _ _ I _ _ _ E) as (Hk' & en & Een & Ecl). rewrite Een, Ecl.
        destruct (Hc _ _ eq_refl) as [->| ->]; cbn [String.eqb Ascii.eqb Bool.eqb orb];
          (eapply (run_simple H st idx _ k' _ (RCoalesce k')); try eassumption; [|reflexivity];
           intros L f a M; eapply mi_coalesce; eassumption).
      + change k with 0. rewrite Een0, Ecl0. cbn [String.eqb orb].
        destruct R as ((f & M & F) & R1 & R2 & R3). cbn [runs_ok]. rewrite E3.
        split; [exists f; split; [apply mi_coalesce_inner; assumption | exact F]|]. split; [exact R1|]. split; [exact R2|]. exact R3.
    - exists st', idx. split; [|exact I']. rewrite E. reflexivity.
  Qed.

  Lemma made_name_lt H name k cls : made_name H name = Some (k, cls) -> 0 <= k < ncreated H.
  Proof.
    induction H as [|c H IH]; [discriminate|]. assert (N := ncreated_nonneg H).
    destruct c; cbn [made_name ncreated is_creation]; try (intros E; apply IH in E; lia);
      destruct (String.eqb name name0); try (intros E; apply IH in E; lia); intros E; injection E as <- <-; lia.
  Qed.

  (** What both kinds of creations share. *)
  Lemma step_create H st idx c r en : program H -> Inv H st idx -> 0 < r -> made H r = None -> ncreated H + 1 < 256 * 1024 ->
    is_creation c = true -> (forall r', creates c r' = (r' =? r)) -> (forall r p, holds (c :: H) r p = holds H r p) ->
    (forall n, made_name (c :: H) n = if String.eqb n (en_name en) then Some (ncreated H, en_cls en) else made_name H n) ->
    (starts_with_resource (c :: H) -> ncreated H = 0 /\ en_cls en = "" \/ starts_with_resource H) ->
    (forall L f a, mirrors H L f ->
       mirrors (c :: H) ((RCreate (ncreated H) (en_cls en) (en_name en) (en_base en) (en_tracked en) (en_args en), a) :: L) f) ->
    OPSIZE * Z.of_nat (List.length (records (c :: H))) <= fsize ->
    exists st', add_allocator fsize (show_s r) en st = Ok st' tt /\ Inv (c :: H) st' idx.
  Proof.
    intros P I Hr Hmr Hmax Cc Hcr Hh Hmn Hsr Hmi Hf. assert (N := i_n _ _ _ I). assert (N0 := ncreated_nonneg H).
    rewrite len_records in Hf. assert (Hl := record_pos c). assert (Na := i_na _ _ _ I).
    unfold add_allocator. rewrite stoul_s by lia. rewrite put_ok by (unfold OPSIZE in *; lia). cbn [bind].
    destruct (Z.geb_spec (c_nalloc st + 1) max_allocators); [unfold max_allocators in *; lia|].
    eexists. split; [reflexivity|].
    constructor; cbn [c_nalloc c_entries c_nops c_tab c_refs c_index c_ids c_re]; cbn [ncreated]; rewrite ?Cc.
    - exact (i_re _ _ _ I).
    - lia.
    - intros r'. cbn [made]. rewrite Hcr. destruct (Z.eqb_spec r' r).
      + subst. rewrite fset_eq. congruence.
      + rewrite fset_ne by congruence. apply (i_refs _ _ _ I).
    - intros n. rewrite Hmn. cbn [afind]. destruct (String.eqb n (en_name en)); [cbn; congruence | apply (i_index _ _ _ I)].
    - intros n k' cls. rewrite Hmn. destruct (String.eqb n (en_name en)).
      + intros E. injection E as <- <-. split; [lia|]. exists en. rewrite Na, fset_eq. tauto.
      + intros E. assert (B := made_name_lt _ _ _ _ E). destruct (i_ent _ _ _ I _ _ _ E) as (_ & en' & E1 & E2).
        split; [lia|]. exists en'. rewrite fset_ne by lia. tauto.
    - intros S. split; [lia|]. destruct (Hsr S) as [[Z0 Ec]|S'].
      + exists en. replace (c_nalloc st) with 0 by lia. rewrite fset_eq. tauto.
      + destruct (i_first _ _ _ I S') as (X & en' & E1 & E2). exists en'. rewrite fset_ne by lia. tauto.
    - exact (i_ids _ _ _ I).
    - exact (i_nil _ _ _ I).
    - intros r' p. rewrite Hh. apply (i_live _ _ _ I).
    - intros r' p j E. apply (i_pos _ _ _ I) in E. lia.
    - rewrite len_records. lia.
    - intros i Hi'. destruct (Z.eq_dec i (c_nops st)) as [->|Ne].
      + rewrite fset_eq. eexists. split; [reflexivity|]. cbn [o_allocator]. lia.
      + rewrite fset_ne by lia. destruct (i_ops _ _ _ I i) as (o & E & B); [lia|]. exists o. split; [exact E | lia].
    - apply (runs_next H st idx); [exact I | apply agree_put; [|apply (i_ops _ _ _ I)] | reflexivity |].
      + intros k' Hk'. apply fset_ne. lia.
      + intros W lib rs O R. unfold run_op. cbn [c_tab c_entries]. rewrite !fset_eq. cbn [o_type o_allocator o_size].
        rewrite Na.
        assert (R' := R). destruct R' as ((f & M & F) & R1 & R2 & R3).
        unfold call. destruct (O (RCreate (ncreated H) (en_cls en) (en_name en) (en_base en) (en_tracked en) (en_args en)) (r_lib rs)) as [(w & a & E1) | (w & e & E1)];
          rewrite E1; cbn [bind].
        * cbn [runs_ok r_lib r_made r_ptrs r_log c_nalloc c_nops].
          split; [exists f; split; [apply Hmi; exact M | exact F]|]. split; [exact R1|]. split.
          -- intros k'. destruct (Z.eq_dec k' (ncreated H)) as [->|Ne]; [rewrite fset_eq; split; [lia | discriminate]|].
             rewrite fset_ne by lia. rewrite R2. lia.
          -- exact R3.
        * eapply throw_step; [exact R | reflexivity].
  Qed.

  Lemma fits_ok s : short s -> fits s = true.
  Proof. unfold short, fits, max_name_length. lia. Qed.

  Lemma step_res H st idx r name : program H -> Inv H st idx -> may_follow H (PMakeRes r name) ->
    OPSIZE * Z.of_nat (List.length (records (PMakeRes r name :: H))) <= fsize ->
    exists st' idx', compile fsize (record (PMakeRes r name)) st = Ok st' tt /\ Inv (PMakeRes r name :: H) st' idx'.
  Proof.
    intros P I (Hr & Hm & Hs & Hn) Hf.
    cbn [record compile]. unfold compile_event. cbn [mk_event e_oper e_name negb String.eqb Ascii.eqb Bool.eqb].
    unfold compile_make_memory_resource, sget. cbn [mk_event e_str e_tag afind String.eqb Ascii.eqb Bool.eqb].
    rewrite fits_ok by assumption.
    destruct (step_create H st idx (PMakeRes r name) r {| en_cls := ""; en_name := name; en_base := ""; en_tracked := true; en_args := [] |} P I)
      as (st' & E & I'); try assumption; try reflexivity.
    - cbn. tauto.
    - intros L f a M. cbn [en_cls en_name en_base en_tracked en_args]. apply mi_res. exact M.
    - exists st', idx. split; [|exact I']. rewrite E. reflexivity.
  Qed.

  (** *** The arguments of allocators *)
  Lemma s32_small z : 0 <= z < 2 ^ 31 -> s32 z = z.
  Proof. intros. unfold s32. rewrite Z.mod_small by lia. lia. Qed.

  (** The event of a creation. *)
  Definition make_event (r : Z) (name cls base : string) (tracked : bool) (args : list arg) :=
    mk_event "make_allocator"
         (("allocator_ref", show_s r) :: ("type", cls) :: ("arg0", base) :: arg_strs 1 args)%list
         (("introspection", if tracked then 1 else 0) :: arg_nums 1 args)%list [("allocator_name", name)].

  Ltac keys :=
    change (argk 1) with "arg1"; change (argk 2) with "arg2"; change (argk 3) with "arg3"; change (argk 4) with "arg4";
    change (argk 5) with "arg5"; change (argk 6) with "arg6"; change (argk 7) with "arg7"; change (argk 8) with "arg8".

  Ltac look := unfold make_event, sget, nget; cbn [mk_event e_str e_num arg_strs arg_nums app]; keys;
    cbn [afind String.eqb Ascii.eqb Bool.eqb].

  Lemma grab_nums r name cls base tracked l h : (List.length l <= 7)%nat -> Forall num l ->
    (h = [] \/ exists s, h = [AS s]) -> forall n, (List.length l <= n <= 7)%nat ->
    grab (make_event r name cls base tracked (l ++ h)) n = l.
  Proof.
    intros Hl Hn Hh n Hln.
    assert (W : forall z, 0 <= z < 2 ^ 64 -> w64 z = z) by (intros; apply w64_small; exact H).
    assert (C : exists l' : list Z, l = map AN l' /\ Forall (fun z => 0 <= z < 2 ^ 64) l').
    { clear Hl Hln. induction Hn as [|a l Ha Hn IH]; [exists []; split; [reflexivity | constructor]|].
      destruct IH as (l' & -> & F). destruct a as [|z]; [contradiction|]. exists (z :: l'). split; [reflexivity | constructor; assumption]. }
    destruct C as (l' & -> & F). rewrite map_length in *. clear Hn.
    do 8 (try (destruct l' as [|? l'])); cbn [List.length] in *; try lia;
      repeat match goal with X : Forall _ (_ :: _) |- _ => inversion X; clear X; subst end;
      do 8 (try (destruct n as [|n])); try lia;
      destruct Hh as [->|[s ->]]; cbn [map app grab seq]; look; rewrite ?W by assumption; reflexivity.
  Qed.

  Lemma params_args r name base tracked cls args args' : params cls args args' ->
    args_of cls (make_event r name cls base tracked args) = Some args'.
  Proof.
    assert (Wn : forall a, num a -> exists z, a = AN z /\ 0 <= z < 2 ^ 64) by (intros [|z]; cbn; [tauto | eauto]).
    assert (Wi : forall a, int a -> exists z, a = AN z /\ 0 <= z < 2 ^ 31) by (intros [|z]; cbn; [tauto | eauto]).
    assert (Ws : forall a, str a -> exists s, a = AS s /\ short s) by (intros [s|]; cbn; [eauto | tauto]).
    assert (G : forall cls l h n, (List.length l <= 7)%nat -> Forall num l -> (h = [] \/ exists s, h = [AS s]) ->
       (List.length l <= n <= 7)%nat -> grab (make_event r name cls base tracked (l ++ h)) n = l)
      by (intros; apply grab_nums; assumption).
    assert (G0 : forall cls l n, (List.length l <= n <= 7)%nat -> Forall num l ->
       grab (make_event r name cls base tracked l) n = l).
    { intros c l n Hl Hf. rewrite <- (app_nil_r l) at 1. apply G; try assumption; try lia. left. reflexivity. }
    assert (Pl : forall l, (List.length l <= 3)%nat -> Forall num l -> (forall a, nth_error l 2 = Some a -> int a) -> pool_args l = l).
    { intros [|a [|b [|c [|d l]]]] Hl Hf Hi; cbn [List.length] in Hl; try reflexivity; try lia.
      specialize (Hi c eq_refl). apply Wi in Hi. destruct Hi as (z & -> & Hz). cbn [pool_args].
      rewrite s32_small by lia. rewrite w64_small by (unfold M64; lia). reflexivity. }
    intros P. destruct P.
    - cbn in H. destruct H as [<-|[<-|[<-|[]]]]; reflexivity.
    - apply Wi in H. destruct H as (z & -> & Hz).
      change (args_of "NumaPolicy" (make_event r name "NumaPolicy" base tracked [AN z])) with (Some [AN (s32 (w64 z))]).
      rewrite w64_small by (unfold M64; lia). rewrite s32_small by lia. reflexivity.
    - apply Wn in H0. destruct H0 as (z & -> & Hz). rewrite <- (w64_small z) at 2 by exact Hz.
      cbn in H. destruct H as [<-|[<-|[<-|[]]]]; reflexivity.
    - apply Wn in H. destruct H as (z & -> & Hz). rewrite <- (w64_small z) at 2 by exact Hz. reflexivity.
    - apply Wn in H, H0. destruct H as (z & -> & Hz), H0 as (y & -> & Hy).
      rewrite <- (w64_small z) at 2 by exact Hz. rewrite <- (w64_small y) at 2 by exact Hy. reflexivity.
    - unfold args_of. destruct H as [->| ->]; cbn [String.eqb Ascii.eqb Bool.eqb]; rewrite G0 by (assumption || lia); rewrite Pl by assumption; reflexivity.
    - unfold args_of. destruct H as [->| ->]; cbn [String.eqb Ascii.eqb Bool.eqb]; rewrite G by (eauto || lia); rewrite Pl by (assumption || lia); reflexivity.
    - unfold args_of. cbn [String.eqb Ascii.eqb Bool.eqb]. rewrite G0 by (assumption || lia). reflexivity.
    - unfold args_of. cbn [String.eqb Ascii.eqb Bool.eqb]. rewrite G by (eauto || lia). reflexivity.
    - apply Ws in H. destruct H as (x & -> & Hx). unfold args_of, advisor_args. cbn [String.eqb Ascii.eqb Bool.eqb]. look.
      rewrite fits_ok by assumption. reflexivity.
    - apply Ws in H. apply Wi in H0. destruct H as (x & -> & Hx), H0 as (z & -> & Hz).
      unfold args_of, advisor_args. cbn [String.eqb Ascii.eqb Bool.eqb]. look.
      rewrite fits_ok by assumption. rewrite w64_small by (unfold M64; lia). rewrite s32_small by lia. cbn [negb].
      destruct (Z.geb_spec z 0); [reflexivity | lia].
    - apply Ws in H, H0. destruct H as (x & -> & Hx), H0 as (y & -> & Hy).
      unfold args_of, advisor_args. cbn [String.eqb Ascii.eqb Bool.eqb]. look.
      rewrite !fits_ok by assumption. reflexivity.
    - apply Ws in H, H0. apply Wi in H1. destruct H as (x & -> & Hx), H0 as (y & -> & Hy), H1 as (z & -> & Hz).
      unfold args_of, advisor_args. cbn [String.eqb Ascii.eqb Bool.eqb]. look.
      rewrite !fits_ok by assumption. rewrite w64_small by (unfold M64; lia). rewrite s32_small by lia. cbn [negb].
      destruct (Z.geb_spec z 0); [reflexivity | lia].
  Qed.

  Lemma step_make H st idx r name cls base tr args : program H -> Inv H st idx -> may_follow H (PMake r name cls base tr args) ->
    OPSIZE * Z.of_nat (List.length (records (PMake r name cls base tr args :: H))) <= fsize ->
    exists st' idx', compile fsize (record (PMake r name cls base tr args)) st = Ok st' tt /\
      Inv (PMake r name cls base tr args :: H) st' idx'.
  Proof.
    intros P I (Hr & Hm & Hs & Hb & (args' & Hc) & Hn) Hf.
    cbn [record compile]. fold (make_event r name cls base tr args).
    unfold compile_event. cbn [make_event mk_event e_oper e_name negb String.eqb Ascii.eqb Bool.eqb].
    fold (make_event r name cls base tr args).
    unfold compile_make_allocator.
    change (sget "allocator_name" (e_tag (make_event r name cls base tr args))) with name.
    change (sget "type" (e_str (make_event r name cls base tr args))) with cls.
    change (sget "arg0" (e_str (make_event r name cls base tr args))) with base.
    change (sget "allocator_ref" (e_str (make_event r name cls base tr args))) with (show_s r).
    replace (nget "introspection" (e_num (make_event r name cls base tr args)) =? 1) with tr by (destruct tr; reflexivity).
    rewrite (params_args _ _ _ _ _ _ _ Hc). rewrite !fits_ok by assumption. cbn [andb].
    destruct (step_create H st idx (PMake r name cls base tr args) r
       {| en_cls := cls; en_name := name; en_base := base; en_tracked := tr; en_args := args' |} P I)
      as (st' & E & I'); try assumption; try reflexivity.
    - cbn. tauto.
    - intros L f a M. cbn [en_cls en_name en_base en_tracked en_args]. apply mi_make; assumption.
    - exists st', idx. split; [|exact I']. rewrite E. reflexivity.
  Qed.

  (** All calls. *)
  Lemma step_any H st idx c : program (c :: H) -> Inv H st idx ->
    OPSIZE * Z.of_nat (List.length (records (c :: H))) <= fsize ->
    exists st' idx', compile fsize (record c) st = Ok st' tt /\ Inv (c :: H) st' idx'.
  Proof.
    intros [P M] I Hf. destruct c; cbn [may_follow] in M.
    - apply (step_res H st idx); assumption.
    - apply (step_make H st idx); assumption.
    - apply (step_alloc H st idx); assumption.
    - contradiction.
    - apply (step_free H st idx); assumption.
    - destruct q as [q|]; [|contradiction]. apply (step_realloc H st idx); assumption.
    - apply (step_default H st idx); assumption.
    - apply (step_release H st idx); assumption.
    - apply (step_coalesce H st idx); assumption.
    - exists st, idx. apply step_quiet; [exact I | exact Logic.I].
    - exists st, idx. apply step_quiet; [exact I | exact Logic.I].
    - contradiction.
    - exists st, idx. apply step_quiet; [exact I | exact Logic.I].
    - exists st, idx. apply step_quiet; [exact I | exact Logic.I].
    - exists st, idx. apply step_quiet; [exact I | exact Logic.I].
  Qed.

  Lemma build_inv H : program H -> OPSIZE * Z.of_nat (List.length (records H)) <= fsize ->
    exists st idx, build fsize (records H) = Ok st tt /\ Inv H st idx.
  Proof.
    unfold build. induction H as [|c H IH]; intros P Hf.
    - exists c_init, (fun _ _ => None). split; [reflexivity | exact inv_init].
    - assert (Hl := len_records c H). destruct IH as (st & idx & E & I); [apply P | unfold OPSIZE in *; lia|].
      destruct (step_any H st idx c P I Hf) as (st' & idx' & E' & I').
      exists st', idx'. split; [|exact I']. rewrite records_cons, compile_app, E. cbn [bind]. exact E'.
  Qed.
End Steps.

Lemma replay_mirrors ds dn H tss : program H ->
  exists cs, build (file_size ds dn (records H) tss) (records H) = Ok cs tt /\
    forall W (lib : rcall -> W -> outcome W Z) ptrs w, orderly lib -> ptrs 0 = None ->
      (exists rs f, run_all lib cs ptrs w = Ok rs tt /\ mirrors H (r_log rs) f) \/
      (exists rs e H1 H0 f, run_all lib cs ptrs w = Throw rs e /\ H = (H1 ++ H0)%list /\ mirrors H0 (r_log rs) f).
Proof.
  intros P. destruct (build_inv (file_size ds dn (records H) tss) H P (file_long ds dn (records H) tss)) as (st & idx & E & I).
  exists st. split; [exact E|]. intros W lib ptrs w O Hp0. assert (R := i_run _ _ _ I W lib ptrs w O Hp0).
  destruct (run_all lib st ptrs w) as [rs []|rs e| | |]; cbn [runs_ok] in R; try contradiction.
  - left. destruct R as ((f & M & _) & _). eauto.
  - right. destruct R as (H1 & H0 & f & -> & M). exists rs, e, H1, H0, f. tauto.
Qed.

(** ** The histogram *)

(** The upper [k] bits below and including bit [L] are ones. *)
Definition smeared (v L k : Z) : Prop :=
  0 <= v /\ (forall i, L < i -> Z.testbit v i = false) /\ (forall i, 0 <= i -> L - k < i <= L -> Z.testbit v i = true).

Lemma smear v L k : 0 < k -> smeared v L k -> smeared (Z.lor v (Z.shiftr v k)) L (2 * k).
Proof.
  intros Hk (V & A & B). split; [|split].
  - apply Z.lor_nonneg. split; [exact V | apply Z.shiftr_nonneg; exact V].
  - intros i Hi. destruct (Z.ltb_spec i 0); [apply Z.testbit_neg_r; assumption|].
    rewrite Z.lor_spec, Z.shiftr_spec by lia. rewrite !A by lia. reflexivity.
  - intros i Hi0 Hi. rewrite Z.lor_spec, Z.shiftr_spec by lia.
    destruct (Z.ltb_spec (L - k) i); [rewrite B by lia; reflexivity|].
    rewrite (B (i + k)) by lia. apply orb_true_r.
Qed.

Lemma smeared_start n : 0 < n -> smeared n (Z.log2 n) 1.
Proof.
  intros Hn. split; [lia|]. split.
  - intros i Hi. apply Z.bits_above_log2; lia.
  - intros i Hi0 Hi. replace i with (Z.log2 n) by lia. apply Z.bit_log2. exact Hn.
Qed.

Lemma smeared_end v L : 0 <= L < 64 -> smeared v L 64 -> v = Z.ones (L + 1).
Proof.
  intros HL (V & A & B). apply Z.bits_inj'. intros i Hi.
  destruct (Z.ltb_spec i (L + 1)).
  - rewrite Z.ones_spec_low by lia. apply B; lia.
  - rewrite Z.ones_spec_high by lia. apply A. lia.
Qed.

(** Entry of the table that the highest bit picks. *)
Lemma tab64_ok L : 0 <= L < 64 ->
  nth (Z.to_nat (Z.shiftr (w64 (w64 (Z.ones (L + 1) - Z.shiftr (Z.ones (L + 1)) 1) * 0x07EDD5E59A4E28C2)) 58)) tab64 0 = L.
Proof.
  intros HL.
  assert (C : forallb (fun n => nth (Z.to_nat (Z.shiftr (w64 (w64 (Z.ones (Z.of_nat n + 1) - Z.shiftr (Z.ones (Z.of_nat n + 1)) 1)
                * 0x07EDD5E59A4E28C2)) 58)) tab64 0 =? Z.of_nat n) (seq 0 64) = true) by (vm_compute; reflexivity).
  rewrite forallb_forall in C. specialize (C (Z.to_nat L)). rewrite Z2Nat.id in C by lia.
  apply Z.eqb_eq, C, in_seq. lia.
Qed.

Lemma log2_64_ok n : 0 < n < 2 ^ 64 -> log2_64 n = Z.log2 n.
Proof.
  intros Hn. assert (HL : 0 <= Z.log2 n < 64).
  { split; [apply Z.log2_nonneg | apply Z.log2_lt_pow2; lia]. }
  unfold log2_64. cbv zeta.
  assert (S := smeared_start n (proj1 Hn)).
  apply smear in S; [|lia]. change (2 * 1) with 2 in S.
  apply smear in S; [|lia]. change (2 * 2) with 4 in S.
  apply smear in S; [|lia]. change (2 * 4) with 8 in S.
  apply smear in S; [|lia]. change (2 * 8) with 16 in S.
  apply smear in S; [|lia]. change (2 * 16) with 32 in S.
  apply smear in S; [|lia]. change (2 * 32) with 64 in S.
  apply smeared_end in S; [|exact HL]. rewrite S. apply tab64_ok. exact HL.
Qed.

Definition sizes_ok (l : list hop) : Prop :=
  Forall (fun o => match o with HAlloc n | HFree n => 0 < n < 2 ^ 64 end) l.

Lemma balanced_sizes l : balanced l -> sizes_ok l.
Proof.
  induction l as [|[n|n] l IH]; cbn [balanced]; intros B; constructor; try tauto; apply IH; tauto.
Qed.

(** [in_class] is additive. *)
Lemma in_class_split lo mid hi l : lo <= mid <= hi -> in_class lo hi l = in_class lo mid l + in_class mid hi l.
Proof.
  intros Hm. induction l as [|[n|n] l IH]; cbn [in_class]; [reflexivity|..]; rewrite IH;
    destruct (Z.leb_spec lo n), (Z.ltb_spec n hi), (Z.ltb_spec n mid), (Z.leb_spec mid n); cbn [andb]; lia.
Qed.

Lemma in_class_empty lo l : in_class lo lo l = 0.
Proof.
  induction l as [|[n|n] l IH]; cbn [in_class]; [reflexivity|..]; rewrite IH;
    destruct (Z.leb_spec lo n), (Z.ltb_spec n lo); cbn [andb]; lia.
Qed.

Lemma in_class_one l n : balanced l -> 0 <= in_class n (n + 1) l.
Proof.
  induction l as [|[m|m] l IH]; cbn [balanced in_class]; intros B; [lia|..].
  - specialize (IH (proj1 B)). destruct ((n <=? m) && (m <? n + 1))%bool; lia.
  - destruct B as (B & _ & P). specialize (IH B).
    destruct (Z.leb_spec n m), (Z.ltb_spec m (n + 1)); cbn [andb]; try lia.
    replace m with n in P by lia. lia.
Qed.

Lemma in_class_nonneg l lo hi : balanced l -> lo <= hi -> 0 <= in_class lo hi l.
Proof.
  intros B Hl. replace hi with (lo + Z.of_nat (Z.to_nat (hi - lo))) by lia.
  induction (Z.to_nat (hi - lo)) as [|k IH].
  - replace (lo + Z.of_nat 0) with lo by lia. rewrite in_class_empty. lia.
  - rewrite (in_class_split lo (lo + Z.of_nat k)) by lia.
    replace (lo + Z.of_nat (S k)) with (lo + Z.of_nat k + 1) by lia.
    assert (X := in_class_one l (lo + Z.of_nat k) B). lia.
Qed.

Lemma in_class_le l lo hi : in_class lo hi l <= Z.of_nat (List.length l).
Proof.
  induction l as [|[n|n] l IH]; cbn [in_class List.length]; try lia;
    destruct ((lo <=? n) && (n <? hi))%bool; lia.
Qed.

Lemma most_le l lo hi : 0 <= most lo hi l <= Z.of_nat (List.length l).
Proof.
  induction l as [|o l IH]; [cbn; lia|]. cbn [most]. assert (X := in_class_le (o :: l) lo hi).
  cbn [List.length] in *. lia.
Qed.

Lemma class_log2 n k : 0 < n -> 0 <= k -> ((2 ^ k <=? n) && (n <? 2 ^ (k + 1)))%bool = (k =? Z.log2 n).
Proof.
  intros Hn Hk. destruct (Z.eqb_spec k (Z.log2 n)) as [->|Ne].
  - destruct (Z.log2_spec n Hn) as [A B]. change (Z.succ (Z.log2 n)) with (Z.log2 n + 1) in B || rewrite <- Z.add_1_r in B. lia.
  - destruct (Z.leb_spec (2 ^ k) n); [|reflexivity]. destruct (Z.ltb_spec n (2 ^ (k + 1))); [|reflexivity].
    exfalso. apply Ne. symmetry. apply Z.log2_unique; [lia|]. rewrite <- Z.add_1_r. lia.
Qed.

Lemma histogram_buckets l : balanced l -> Z.of_nat (List.length l) < 2 ^ 64 -> forall k, 0 <= k < 64 ->
  t_cur (bucket (hrun l) k) = in_class (2 ^ k) (2 ^ (k + 1)) l /\
  t_hwm (bucket (hrun l) k) = most (2 ^ k) (2 ^ (k + 1)) l.
Proof.
  intros B Hl k Hk. induction l as [|o l IH]; [split; reflexivity|].
  assert (S := balanced_sizes _ B). inversion S as [|? ? So Sl]; subst.
  assert (Bl : balanced l) by (destruct o; cbn [balanced] in B; tauto).
  cbn [List.length] in Hl. destruct IH as [IH1 IH2]; [exact Bl | lia|].
  assert (P2 : 2 ^ k <= 2 ^ (k + 1)) by (apply Z.pow_le_mono_r; lia).
  assert (X := in_class_nonneg l (2 ^ k) (2 ^ (k + 1)) Bl P2).
  assert (X' := in_class_nonneg _ (2 ^ k) (2 ^ (k + 1)) B P2).
  assert (Y := in_class_le l (2 ^ k) (2 ^ (k + 1))).
  assert (Z1 := most_le l (2 ^ k) (2 ^ (k + 1))).
  assert (M0 : in_class (2 ^ k) (2 ^ (k + 1)) l <= most (2 ^ k) (2 ^ (k + 1)) l).
  { destruct l; cbn [most]; [cbn; lia | lia]. }
  destruct o as [n|n]; cbn [hrun hrun1 most in_class]; unfold h_increment, h_decrement, bucket; cbn [h_buckets];
    rewrite log2_64_ok by exact So; cbn [in_class] in X'; rewrite (class_log2 n k) in * by lia.
  - destruct (Z.eqb_spec k (Z.log2 n)) as [->|Ne].
    + rewrite fset_eq. fold (bucket (hrun l) (Z.log2 n)). unfold t_increment. cbn [t_cur t_hwm]. rewrite IH1, IH2.
      rewrite w64_small by (unfold M64; lia). split; [lia|].
      rewrite (Z.add_comm _ 1). destruct (Z.gtb_spec (1 + in_class (2 ^ Z.log2 n) (2 ^ (Z.log2 n + 1)) l) (most (2 ^ Z.log2 n) (2 ^ (Z.log2 n + 1)) l)); lia.
    + rewrite fset_ne by congruence. fold (bucket (hrun l) k). rewrite IH1, IH2. lia.
  - destruct (Z.eqb_spec k (Z.log2 n)) as [->|Ne].
    + rewrite fset_eq. fold (bucket (hrun l) (Z.log2 n)). unfold t_decrement. cbn [t_cur t_hwm]. rewrite IH1, IH2.
      rewrite w64_small by (unfold M64; lia). lia.
    + rewrite fset_ne by congruence. fold (bucket (hrun l) k). rewrite IH1, IH2. lia.
Qed.

Lemma histogram_totals l : balanced l -> Z.of_nat (List.length l) < 2 ^ 64 ->
  h_allocs (hrun l) = nallocs l /\ h_frees (hrun l) = nfrees l /\ h_largest (hrun l) = largest l /\
  h_count (hrun l) = nallocs l - nfrees l.
Proof.
  intros B Hl.
  assert (Q : forall l, 0 <= nallocs l /\ 0 <= nfrees l /\ nallocs l + nfrees l = Z.of_nat (List.length l)).
  { clear. induction l as [|[n|n] l IH]; cbn [nallocs nfrees List.length]; lia. }
  assert (T : forall l, balanced l -> in_class 0 (2 ^ 64) l = nallocs l - nfrees l).
  { clear. induction l as [|[n|n] l IH]; cbn [balanced in_class nallocs nfrees]; intros B; [reflexivity|..];
      destruct (Z.leb_spec 0 n), (Z.ltb_spec n (2 ^ 64)); cbn [andb]; try lia; rewrite IH by tauto; lia. }
  induction l as [|o l IH]; [cbn; tauto|].
  assert (Bl : balanced l) by (destruct o; cbn [balanced] in B; tauto).
  assert (N := in_class_nonneg l 0 (2 ^ 64) Bl). assert (N' := in_class_nonneg _ 0 (2 ^ 64) B).
  rewrite T in N by assumption. rewrite T in N' by assumption.
  assert (Q1 := Q l). assert (Q2 := Q (o :: l)). cbn [List.length] in *.
  destruct IH as (I1 & I2 & I3 & I4); [exact Bl | lia|].
  destruct o as [n|n]; cbn [hrun hrun1 nallocs nfrees largest balanced] in *; unfold h_increment, h_decrement;
    cbn [h_allocs h_frees h_largest h_count]; rewrite I1, I2, I3, I4.
  - rewrite !w64_small by (unfold M64; lia). repeat split; try lia.
    destruct (Z.gtb_spec n (largest l)); lia.
  - rewrite !w64_small by (unfold M64; lia). repeat split; lia.
Qed.

(** What is live in the replay is what is live in the program. *)
Lemma mirrors_live H L f : mirrors H L f -> forall r p, f r p <> None <-> holds H r p = true.
Proof.
  induction 1; intros r1 p1; cbn [holds produces consumes]; try apply IHmirrors.
  - rewrite H. split; [congruence | discriminate].
  - rewrite H2. destruct ((r1 =? r) && (p1 =? q))%bool; [split; [reflexivity | discriminate]|]. apply IHmirrors.
  - rewrite H3. destruct ((r1 =? r) && (p1 =? p))%bool; [split; [congruence | discriminate]|]. apply IHmirrors.
  - destruct (Z.eqb_spec r1 r), (Z.eqb_spec p1 p); cbn [andb]; try apply IHmirrors.
    subst. rewrite H1. split; [congruence | discriminate].
  - rewrite H3. destruct ((r1 =? r) && (p1 =? q))%bool; [split; [reflexivity | discriminate]|].
    destruct ((r1 =? r) && (p1 =? p))%bool; [split; [congruence | discriminate]|]. apply IHmirrors.
  - destruct c; try contradiction; apply IHmirrors.
Qed.
