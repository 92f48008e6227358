(** Facts about the comparison of compiled logs. *)
From Coq Require Import String Ascii.
From Verif Require Import Base BaseFacts ReplayModel ReplaySpec ReplayFacts DiffModel DiffSpec.
Local Open Scope string_scope.
Local Open Scope Z_scope.

(** ** Equality of cells *)
Lemma type_eqb_ok a b : type_eqb a b = true <-> a = b.
Proof. destruct a, b; cbn; split; congruence. Qed.

Lemma oper_eqb_ok a b : oper_eqb a b = true <-> a = b.
Proof.
  unfold oper_eqb. rewrite !andb_true_iff, type_eqb_ok, !Z.eqb_eq.
  split; [|intros ->; tauto]. destruct a, b; cbn. intros ((((-> & ->) & ->) & ->) & ->). reflexivity.
Qed.

Lemma args_eqb_ok a : forall b, args_eqb a b = true <-> a = b.
Proof.
  induction a as [|x a IH]; intros [|y b]; cbn [args_eqb]; try (split; congruence).
  rewrite andb_true_iff, IH. destruct x, y; cbn [arg_eqb]; rewrite ?String.eqb_eq, ?Z.eqb_eq; split;
    try (intros [? ?]; congruence); intros E; first [discriminate E | injection E; intros; subst; auto].
Qed.

Lemma entry_eqb_ok a b : entry_eqb a b = true <-> a = b.
Proof.
  unfold entry_eqb. rewrite !andb_true_iff, !String.eqb_eq, args_eqb_ok, Bool.eqb_true_iff.
  split; [|intros ->; tauto]. destruct a, b; cbn. intros ((((-> & ->) & ->) & ->) & ->). reflexivity.
Qed.

(** ** What the compiler makes of a step *)
Definition encode (s : sop) : oper :=
  match s with
  | SCreate k _ _ _ _ _ => {| o_type := TCreate; o_allocator := k; o_size := 0; o_src := 0; o_prev := 0 |}
  | SAlloc k n => {| o_type := TAllocate; o_allocator := k; o_size := n; o_src := 0; o_prev := 0 |}
  | SFree k j => {| o_type := TDeallocate; o_allocator := k; o_size := 0; o_src := j; o_prev := 0 |}
  | SRealloc k j n => {| o_type := TReallocateEx; o_allocator := k; o_size := n; o_src := 0; o_prev := j |}
  | SDefault k => {| o_type := TDefault; o_allocator := k; o_size := 0; o_src := 0; o_prev := 0 |}
  | SRelease k => {| o_type := TRelease; o_allocator := k; o_size := 0; o_src := 0; o_prev := 0 |}
  | SCoalesce k => {| o_type := TCoalesce; o_allocator := match k with Some k => k | None => 0 end;
                      o_size := 0; o_src := 0; o_prev := 0 |}
  end.

Definition first_cell : oper := {| o_type := TAllocate; o_allocator := 0; o_size := 0; o_src := 0; o_prev := 0 |}.

Definition entry_of (cls name base : string) (tracked : bool) (args : list arg) : entry :=
  {| en_cls := cls; en_name := name; en_base := base; en_tracked := tracked; en_args := args |}.

Record Tab (H : list pcall) (st : cstate) : Prop := {
  t_n : c_nops st = 1 + Z.of_nat (List.length (shape H));
  t_0 : c_tab st 0 = Some first_cell;
  t_tab : forall i s, nth_error (rev (shape H)) i = Some s -> c_tab st (1 + Z.of_nat i) = Some (encode s);
  t_end : forall i, c_nops st <= i -> c_tab st i = None;
  t_ent : forall k cls name base tr args, In (SCreate k cls name base tr args) (shape H) ->
            0 <= k < ncreated H /\ c_entries st k = Some (entry_of cls name base tr args);
  t_all : forall k, 0 <= k < ncreated H -> exists cls name base tr args, In (SCreate k cls name base tr args) (shape H);
  t_co : ~ In (SCoalesce (Some 0)) (shape H);
  t_born : forall r p, 0 < r -> 0 < p -> afind (key r p) (c_ids st) = born H r p }.

Lemma count_shape H : program H -> count H = Z.of_nat (List.length (shape H)).
Proof.
  induction H as [|c H IH]; intros P; [reflexivity|]. destruct P as [P M]. cbn [count shape]. rewrite IH by exact P.
  unfold step_of. destruct (noted H c) eqn:E; [|lia].
  destruct c; cbn [noted] in E; try discriminate; cbn [List.length]; lia.
Qed.

Lemma tab_init : Tab [] c_init.
Proof.
  constructor; cbn; try reflexivity; try tauto; try lia.
  - intros [|i]; discriminate.
  - intros i Hi. rewrite fset_ne by lia. reflexivity.
Qed.

(** One operation more. *)
Lemma tab_add H c s st st' : Tab H st -> step_of H c = Some s ->
  c_nops st' = c_nops st + 1 -> c_tab st' = fset (c_tab st) (c_nops st) (encode s) ->
  match s with
  | SCreate k cls name base tr args => c_entries st' = fset (c_entries st) k (entry_of cls name base tr args) /\
      k = ncreated H /\ is_creation c = true
  | _ => c_entries st' = c_entries st /\ is_creation c = false
  end -> s <> SCoalesce (Some 0) ->
  (forall r p, 0 < r -> 0 < p -> afind (key r p) (c_ids st') = born (c :: H) r p) ->
  Tab (c :: H) st'.
Proof.
  intros T Es En Et Ee Ec Hb. assert (Nn := ncreated_nonneg H). assert (N := t_n _ _ T).
  assert (Esh : shape (c :: H) = s :: shape H) by (cbn [shape]; rewrite Es; reflexivity).
  assert (En' : ncreated (c :: H) = ncreated H + if creation s then 1 else 0).
  { cbn [ncreated]. destruct s; cbn [creation]; [destruct Ee as (_ & _ & ->) | destruct Ee as [_ ->] ..]; lia. }
  assert (Ent : forall k, 0 <= k < ncreated H -> c_entries st' k = c_entries st k).
  { intros k Hk. destruct s; destruct Ee as [-> Ee]; try reflexivity. destruct Ee as [-> _]. apply fset_ne. lia. }
  constructor; rewrite ?Esh, ?En'; cbn [List.length].
  - lia.
  - rewrite Et, fset_ne by lia. apply (t_0 _ _ T).
  - intros i s'. cbn [rev]. intros E. rewrite Et.
    destruct (Nat.lt_ge_cases i (List.length (rev (shape H)))) as [L|L].
    + rewrite nth_error_app1 in E by exact L. rewrite rev_length in L. rewrite fset_ne by lia. apply (t_tab _ _ T _ _ E).
    + rewrite nth_error_app2 in E by exact L. rewrite rev_length in *.
      destruct (i - List.length (shape H))%nat as [|j] eqn:Ej; cbn in E; [|destruct j; discriminate].
      injection E as <-. replace (1 + Z.of_nat i) with (c_nops st) by lia. apply fset_eq.
  - intros i Hi. rewrite Et, fset_ne by lia. apply (t_end _ _ T). lia.
  - intros k cls name base tr args [E|E].
    + subst s. destruct Ee as (-> & -> & _). cbn [creation]. split; [lia|]. apply fset_eq.
    + destruct (t_ent _ _ T _ _ _ _ _ _ E) as [B E']. split; [destruct (creation s); lia|]. rewrite Ent by exact B. exact E'.
  - intros k Hk. destruct (Z.ltb_spec k (ncreated H)).
    + destruct (t_all _ _ T k) as (cls & name & base & tr & args & E); [lia|]. exists cls, name, base, tr, args. right. exact E.
    + destruct s; cbn [creation] in Hk; try lia. destruct Ee as (_ & -> & _). replace k with (ncreated H) by lia.
      exists cls, name, base, tracked, args. left. reflexivity.
  - intros [E|E]; [apply Ec; exact E | apply (t_co _ _ T E)].
  - exact Hb.
Qed.

(** No operation. *)
Lemma tab_same H c st : Tab H st -> step_of H c = None -> is_creation c = false ->
  (forall r p, 0 < r -> 0 < p -> born (c :: H) r p = born H r p) -> Tab (c :: H) st.
Proof.
  intros T Es Cc Hb. assert (Esh : shape (c :: H) = shape H) by (cbn [shape]; rewrite Es; reflexivity).
  constructor; rewrite ?Esh, ?(ncreated_other c H Cc); try apply T.
  intros r p Hr Hp. rewrite Hb by assumption. apply (t_born _ _ T); assumption.
Qed.

Lemma params_kept cls args args' : params cls args args' -> args' = kept cls args.
Proof.
  assert (F : forall l, Forall num l -> filter (fun a => match a with AN _ => true | AS _ => false end) l = l).
  { intros l. induction 1 as [|a l Ha _ IH]; [reflexivity|]. destruct a; [contradiction|]. cbn. rewrite IH. reflexivity. }
  assert (Fh : forall l h, Forall num l -> filter (fun a => match a with AN _ => true | AS _ => false end) (l ++ [AS h])%list = l).
  { intros l h Hl. rewrite filter_app, F by exact Hl. cbn. apply app_nil_r. }
  intros P. destruct P; try reflexivity.
  - cbn in H. destruct H as [<-|[<-|[<-|[]]]]; reflexivity.
  - cbn in H. destruct H as [<-|[<-|[<-|[]]]]; reflexivity.
  - unfold kept. destruct H as [->| ->]; cbn [String.eqb Ascii.eqb Bool.eqb orb]; symmetry; apply F; assumption.
  - unfold kept. destruct H as [->| ->]; cbn [String.eqb Ascii.eqb Bool.eqb orb]; symmetry; apply Fh; assumption.
  - unfold kept. cbn [String.eqb Ascii.eqb Bool.eqb orb]. symmetry. apply F; assumption.
  - unfold kept. cbn [String.eqb Ascii.eqb Bool.eqb orb]. symmetry. apply Fh; assumption.
Qed.

Section Steps.
  Variable fsize : Z.

  (** An operation that touches neither allocations nor allocators. *)
  Lemma tab_op H st idx c s : Inv H st idx -> Tab H st -> is_creation c = false -> step_of H c = Some s ->
    match s with SCreate _ _ _ _ _ _ => False | _ => True end -> s <> SCoalesce (Some 0) ->
    (forall r p, born (c :: H) r p = born H r p) ->
    OPSIZE * Z.of_nat (List.length (records (c :: H))) <= fsize ->
    exists st', bind (put fsize (encode s) st) (fun st _ => Ok (next st) tt) = Ok st' tt /\ Tab (c :: H) st'.
  Proof.
    intros I T Cc Es Hs Hco Hb Hf. assert (N := i_n _ _ _ I).
    rewrite len_records in Hf. assert (Hl := record_pos c).
    rewrite put_ok by (unfold OPSIZE in *; lia). cbn [bind]. eexists. split; [reflexivity|].
    apply (tab_add H c s st); try assumption; try reflexivity.
    - destruct s; try contradiction; cbn; tauto.
    - intros r p Hr Hp. rewrite Hb. apply (t_born _ _ T); assumption.
  Qed.

  Lemma tab_create H st idx c r k cls name base tr args : Inv H st idx -> Tab H st -> is_creation c = true ->
    0 < r -> ncreated H + 1 < 256 * 1024 -> step_of H c = Some (SCreate k cls name base tr args) -> k = ncreated H ->
    (forall r p, born (c :: H) r p = born H r p) ->
    OPSIZE * Z.of_nat (List.length (records (c :: H))) <= fsize ->
    exists st', add_allocator fsize (show_s r) (entry_of cls name base tr args) st = Ok st' tt /\ Tab (c :: H) st'.
  Proof.
    intros I T Cc Hr Hmax Es -> Hb Hf. assert (N := i_n _ _ _ I). assert (Na := i_na _ _ _ I).
    rewrite len_records in Hf. assert (Hl := record_pos c).
    unfold add_allocator. rewrite stoul_s by lia. rewrite put_ok by (unfold OPSIZE in *; lia). cbn [bind].
    destruct (Z.geb_spec (c_nalloc st + 1) max_allocators); [unfold max_allocators in *; lia|].
    eexists. split; [reflexivity|].
    apply (tab_add H c _ st _ T Es); cbn [c_nalloc c_entries c_nops c_tab c_refs c_index c_ids c_re].
    - reflexivity.
    - cbn [encode]. rewrite Na. reflexivity.
    - rewrite Na. tauto.
    - discriminate.
    - intros r' p' Hr' Hp'. rewrite Hb. apply (t_born _ _ T); assumption.
  Qed.

  Lemma tab_any H st idx c : program (c :: H) -> Inv H st idx -> Tab H st ->
    OPSIZE * Z.of_nat (List.length (records (c :: H))) <= fsize ->
    exists st', compile fsize (record c) st = Ok st' tt /\ Tab (c :: H) st'.
  Proof.
    intros [P M] I T Hf. assert (N := i_n _ _ _ I). assert (Nt := t_n _ _ T). assert (Nc := count_shape H P).
    destruct c; cbn [may_follow] in M; try contradiction.
    - (* PMakeRes *)
      destruct M as (Hr & Hm & Hs & Hn).
      cbn [record compile]. unfold compile_event. cbn [mk_event e_oper e_name negb String.eqb Ascii.eqb Bool.eqb].
      unfold compile_make_memory_resource, sget. cbn [mk_event e_str e_tag afind String.eqb Ascii.eqb Bool.eqb].
      rewrite fits_ok by assumption.
      destruct (tab_create H st idx (PMakeRes r name) r (ncreated H) "" name "" true [] I T) as (st' & E & T'); try assumption; try reflexivity.
      exists st'. unfold entry_of in E. rewrite E. split; [reflexivity | exact T'].
    - (* PMake *)
      destruct M as (Hr & Hm & Hs & Hb & (args' & Hc) & Hn).
      cbn [record compile]. fold (make_event r name cls base tracked args).
      unfold compile_event. cbn [make_event mk_event e_oper e_name negb String.eqb Ascii.eqb Bool.eqb].
      fold (make_event r name cls base tracked args).
      unfold compile_make_allocator.
      change (sget "allocator_name" (e_tag (make_event r name cls base tracked args))) with name.
      change (sget "type" (e_str (make_event r name cls base tracked args))) with cls.
      change (sget "arg0" (e_str (make_event r name cls base tracked args))) with base.
      change (sget "allocator_ref" (e_str (make_event r name cls base tracked args))) with (show_s r).
      replace (nget "introspection" (e_num (make_event r name cls base tracked args)) =? 1) with tracked by (destruct tracked; reflexivity).
      rewrite (params_args _ _ _ _ _ _ _ Hc). rewrite !fits_ok by assumption. cbn [andb].
      destruct (tab_create H st idx (PMake r name cls base tracked args) r (ncreated H) cls name base tracked args' I T)
        as (st' & E & T'); try assumption; try reflexivity.
      + unfold step_of. cbn [noted]. rewrite (params_kept _ _ _ Hc). reflexivity.
      + exists st'. unfold entry_of in E. rewrite E. split; [reflexivity | exact T'].
    - (* PAlloc *)
      destruct M as (Hm & Hq & Hh). destruct (made H r) as [k|] eqn:Ek; [|contradiction Hm; reflexivity]. clear Hm.
      destruct (made_pos H r k P Ek) as [Hr Hk]. rewrite len_records in Hf. cbn [record List.length] in Hf.
      assert (Hi : idx r q = None).
      { destruct (idx r q) eqn:E; [|reflexivity]. assert (X : holds H r q = true) by (apply (i_live _ _ _ I); congruence). congruence. }
      cbn [record compile]. unfold compile_event. cbn [mk_event e_oper e_name negb String.eqb Ascii.eqb Bool.eqb].
      unfold compile_allocate. rewrite (i_re _ _ _ I). unfold sget, nget.
      cbn [mk_event e_str e_num afind String.eqb Ascii.eqb Bool.eqb].
      rewrite (index_ok H st idx r (show_p r) k I Ek (stoul_p r Hr)). cbn [bind].
      rewrite put_ok by (unfold OPSIZE in *; lia). cbn [bind c_ids c_nops].
      rewrite key_show by lia. rewrite (i_ids _ _ _ I r q Hr Hq), Hi.
      eexists. split; [reflexivity|].
      apply (tab_add H _ (SAlloc k n) st _ T); try reflexivity.
      + unfold step_of. cbn [noted]. rewrite Ek. reflexivity.
      + split; reflexivity.
      + discriminate.
      + intros r' p' Hr' Hp'. unfold next, with_ids. cbn [c_ids c_nops afind]. rewrite key_eqb by lia.
        cbn [born produces consumes]. destruct ((r' =? r) && (p' =? q))%bool; [f_equal; lia|].
        apply (t_born _ _ T); assumption.
    - (* PFree *)
      destruct M as (Hm & Hp). destruct (made H r) as [k|] eqn:Ek; [|contradiction Hm; reflexivity]. clear Hm.
      destruct (made_pos H r k P Ek) as [Hr Hk]. rewrite len_records in Hf. cbn [record List.length] in Hf.
      assert (Ei : afind (show_p r ++ show_p p) (c_ids st) = idx r p).
      { destruct (Z.eq_dec p 0) as [->|].
        - rewrite show_p_pos by lia. change (show_p 0) with "(nil)". rewrite (i_nil _ _ _ I).
          destruct (idx r 0) eqn:E; [|reflexivity]. apply (i_pos _ _ _ I) in E. lia.
        - rewrite key_show by lia. apply (i_ids _ _ _ I); lia. }
      cbn [record compile]. unfold compile_event. cbn [mk_event e_oper e_name negb String.eqb Ascii.eqb Bool.eqb].
      unfold compile_deallocate. rewrite (i_re _ _ _ I). unfold sget, nget.
      cbn [mk_event e_str e_num afind String.eqb Ascii.eqb Bool.eqb].
      rewrite (index_ok H st idx r (show_p r) k I Ek (stoul_p r Hr)). cbn [bind].
      rewrite Ei. destruct (idx r p) as [j|] eqn:Ej.
      + destruct (i_pos _ _ _ I _ _ _ Ej) as (_ & Hp1 & Hj).
        assert (Eb : born H r p = Some j) by (rewrite <- (t_born _ _ T r p Hr Hp1), (i_ids _ _ _ I r p Hr Hp1); exact Ej).
        assert (Eh : holds H r p = true) by (apply (i_live _ _ _ I); congruence).
        rewrite put_ok by (unfold OPSIZE in *; lia). cbn [bind c_ids c_nops]. rewrite key_show by lia.
        eexists. split; [reflexivity|].
        apply (tab_add H _ (SFree k j) st _ T); try reflexivity.
        * unfold step_of. cbn [noted]. rewrite Eh, Ek, Eb. destruct (Z.eqb_spec p 0); [lia | reflexivity].
        * split; reflexivity.
        * discriminate.
        * intros r' p' Hr' Hp'. unfold next, with_ids. cbn [c_ids c_nops]. rewrite afind_arem, key_eqb by lia.
          cbn [born produces consumes]. destruct ((r' =? r) && (p' =? p))%bool; [reflexivity|].
          apply (t_born _ _ T); assumption.
      + exists st. split; [reflexivity|].
        assert (Eh : forall r' p', r' = r -> p' = p -> 0 < p' -> holds H r p = false).
        { intros r' p' -> -> Hp1. destruct (holds H r p) eqn:E; [|reflexivity]. apply (i_live _ _ _ I) in E; try assumption. contradiction. }
        assert (Eh0 : holds H r p = false).
        { destruct (Z.eq_dec p 0) as [->|]; [|apply (Eh r p); auto; lia].
          clear - P. induction H as [|c H IH]; [reflexivity|]. destruct P as [P M]. cbn [holds].
          assert (produces c r 0 = false) as ->.
          { destruct c; try reflexivity; cbn [may_follow produces] in *; try contradiction;
              [|destruct q as [q|]; [|reflexivity]]; destruct (Z.eqb_spec r r0), (Z.eqb_spec 0 q); cbn; try reflexivity; lia. }
          destruct (consumes c r 0); [reflexivity|]. apply IH. exact P. }
        apply (tab_same H); try assumption; try reflexivity.
        * unfold step_of. cbn [noted]. rewrite Eh0. reflexivity.
        * intros r' p' Hr' Hp'. cbn [born produces consumes].
          destruct (Z.eqb_spec r' r); [|reflexivity]. destruct (Z.eqb_spec p' p); [|reflexivity]. cbn [andb]. subst.
          rewrite <- (t_born _ _ T r p Hr Hp'), (i_ids _ _ _ I r p Hr Hp'). congruence.
    - (* PRealloc *)
      destruct q as [q|]; [|contradiction].
      destruct M as (Hm & Hp & Hq & Hqf & Fi). destruct (made H r) as [k|] eqn:Ek; [|contradiction Hm; reflexivity]. clear Hm.
      destruct (made_pos H r k P Ek) as [Hr Hk].
      rewrite len_records in Hf.
      assert (Hl2 : (2 <= List.length (record (PRealloc r p n inner (Some q))))%nat).
      { rewrite record_realloc. cbn [List.length]. rewrite app_length. cbn [List.length]. lia. }
      assert (Hprev : exists j, (p = 0 /\ j = 0) \/ (0 < p /\ idx r p = Some j)).
      { destruct Hp as [->|[Hp Hh]]; [exists 0; tauto|].
        destruct (idx r p) as [j|] eqn:E; [exists j; tauto|]. apply (i_live _ _ _ I) in Hh; try assumption. contradiction. }
      destruct Hprev as [j Hj].
      rewrite record_realloc. rewrite app_comm_cons, compile_app. cbn [compile].
      set (ids1 := if p =? 0 then c_ids st else arem (key r p) (c_ids st)).
      set (o := encode (SRealloc k j n)).
      assert (E1 : compile_event fsize
          (mk_event "reallocate" [("current_ptr", show_s p); ("allocator_ref", show_s r)] [("size", n)] []) st =
        Ok {| c_nalloc := c_nalloc st; c_entries := c_entries st; c_nops := c_nops st;
              c_tab := fset (c_tab st) (c_nops st) o; c_refs := c_refs st; c_index := c_index st;
              c_ids := ids1; c_re := true |} tt).
      { unfold compile_event. cbn [mk_event e_oper e_name negb String.eqb Ascii.eqb Bool.eqb].
        unfold compile_reallocate, sget, nget. cbn [mk_event e_str e_num afind String.eqb Ascii.eqb Bool.eqb].
        rewrite stoul_s by lia.
        assert (Ea : allocator_index (show_s r) (with_re true st) = Ok (with_re true st) k).
        { unfold allocator_index. rewrite stoul_s by lia. cbn [with_re c_refs]. rewrite (i_refs _ _ _ I r), Ek. reflexivity. }
        destruct Hj as [[-> ->]|[Hp0 Ej]].
        - rewrite Z.eqb_refl. rewrite Ea. cbn [bind].
          rewrite put_ok by (cbn [with_re c_nops]; unfold OPSIZE in *; lia). reflexivity.
        - unfold ids1. destruct (Z.eqb_spec p 0); [lia|]. cbn [with_re c_ids]. rewrite key_show_s by lia.
          rewrite (i_ids _ _ _ I r p Hr Hp0), Ej. fold (with_re true st). rewrite Ea. cbn [bind].
          rewrite put_ok by (cbn [with_re c_nops]; unfold OPSIZE in *; lia). reflexivity. }
      rewrite E1. cbn [bind]. rewrite compile_inner by (reflexivity || assumption). cbn [bind compile].
      set (st1 := {| c_nalloc := c_nalloc st; c_entries := c_entries st; c_nops := c_nops st;
              c_tab := fset (c_tab st) (c_nops st) o; c_refs := c_refs st; c_index := c_index st;
              c_ids := ids1; c_re := true |}).
      assert (Ids1 : forall r' p', 0 < r' -> 0 < p' -> afind (key r' p') ids1 = upd (born H) r p None r' p').
      { intros r' p' Hr' Hp'. unfold ids1, upd. destruct (Z.eqb_spec p 0).
        - subst p. destruct (Z.eqb_spec p' 0); [lia|]. rewrite andb_false_r. apply (t_born _ _ T); assumption.
        - rewrite afind_arem. rewrite key_eqb by lia.
          destruct ((r' =? r) && (p' =? p))%bool; [reflexivity|]. apply (t_born _ _ T); assumption. }
      assert (Hi : afind (show_s r ++ show_s q) ids1 = None).
      { rewrite key_show_s by lia. rewrite Ids1 by lia. unfold upd. rewrite Z.eqb_refl.
        destruct (Z.eqb_spec q p); [reflexivity|]. cbn [andb]. destruct Hqf as [|Hqf]; [contradiction|].
        rewrite <- (t_born _ _ T) by lia. rewrite (i_ids _ _ _ I) by lia.
        destruct (idx r q) eqn:E; [|reflexivity].
        assert (X : holds H r q = true) by (apply (i_live _ _ _ I); congruence). congruence. }
      unfold compile_event. cbn [mk_event e_oper e_name negb String.eqb Ascii.eqb Bool.eqb].
      unfold compile_reallocate, sget. cbn [mk_event e_str e_num afind String.eqb Ascii.eqb Bool.eqb].
      change (c_ids st1) with ids1. rewrite Hi. cbn [bind].
      eexists. split; [reflexivity|].
      unfold next, with_ids, with_re, st1. cbn [c_nalloc c_entries c_nops c_tab c_refs c_index c_ids c_re].
      rewrite key_show_s by lia.
      apply (tab_add H _ (SRealloc k j n) st _ T); cbn [c_nalloc c_entries c_nops c_tab c_refs c_index c_ids c_re]; try reflexivity.
      + unfold step_of. cbn [noted]. rewrite Ek. f_equal. f_equal. destruct Hj as [[-> ->]|[Hp0 Ej]]; [reflexivity|].
        destruct (Z.eqb_spec p 0); [lia|]. rewrite <- (t_born _ _ T) by lia. rewrite (i_ids _ _ _ I) by lia. rewrite Ej. reflexivity.
      + split; reflexivity.
      + discriminate.
      + intros r' p' Hr' Hp'. cbn [afind]. rewrite key_eqb by lia. cbn [born produces consumes].
        destruct ((r' =? r) && (p' =? q))%bool; [f_equal; lia|]. rewrite Ids1 by assumption. reflexivity.
    - (* PDefault *)
      destruct (made H r) as [k|] eqn:Ek; [|contradiction M; reflexivity]. clear M.
      destruct (made_pos H r k P Ek) as [Hr Hk].
      cbn [record compile]. unfold compile_event. cbn [mk_event e_oper e_name negb String.eqb Ascii.eqb Bool.eqb].
      unfold compile_simple, sget. cbn [mk_event e_str e_num afind String.eqb Ascii.eqb Bool.eqb].
      rewrite (index_ok H st idx r (show_s r) k I Ek (stoul_s r (Z.lt_le_incl _ _ Hr))). cbn [bind].
      destruct (tab_op H st idx (PDefault r) (SDefault k) I T) as (st' & E & T'); try reflexivity; try assumption; try discriminate.
      + unfold step_of. cbn [noted]. rewrite Ek. reflexivity.
      + exists st'. cbn [encode] in E. rewrite E. split; [reflexivity | exact T'].
    - (* PRelease *)
      destruct (made H r) as [k|] eqn:Ek; [|contradiction M; reflexivity]. clear M.
      destruct (made_pos H r k P Ek) as [Hr Hk].
      cbn [record compile]. unfold compile_event. cbn [mk_event e_oper e_name negb String.eqb Ascii.eqb Bool.eqb].
      unfold compile_simple, sget. cbn [mk_event e_str e_num afind String.eqb Ascii.eqb Bool.eqb].
      rewrite (index_ok H st idx r (show_s r) k I Ek (stoul_s r (Z.lt_le_incl _ _ Hr))). cbn [bind].
      destruct (tab_op H st idx (PRelease r) (SRelease k) I T) as (st' & E & T'); try reflexivity; try assumption; try discriminate.
      + unfold step_of. cbn [noted]. rewrite Ek. reflexivity.
      + exists st'. cbn [encode] in E. rewrite E. split; [reflexivity | exact T'].
    - (* PCoalesce *)
      destruct M as (Hn & Hs & Hc).
      cbn [record compile]. unfold compile_event. cbn [mk_event e_oper e_name negb String.eqb Ascii.eqb Bool.eqb].
      unfold compile_coalesce, sget, nget. cbn [mk_event e_str e_tag afind String.eqb Ascii.eqb Bool.eqb].
      rewrite (strip_same name Hn), (i_index _ _ _ I name).
      destruct (i_first _ _ _ I Hs) as (Hn0 & en0 & Een0 & Ecl0).
      destruct (tab_op H st idx (PCoalesce name) (SCoalesce (option_map fst (made_name H name))) I T)
        as (st' & E & T'); try reflexivity; try assumption.
      + destruct (made_name H name) as [[k cls]|] eqn:E; [|discriminate]. cbn. intros X. injection X as ->.
        destruct (i_ent _ _ _ I _ _ _ E) as (_ & en & Een & Ecl). rewrite Een0 in Een. injection Een as ->.
        destruct (Hc _ _ eq_refl) as [X|X]; congruence.
      + exists st'. cbn [encode] in E. rewrite E. split; [reflexivity | exact T'].
    - exists st. split; [reflexivity | apply tab_same; try assumption; reflexivity].
    - exists st. split; [reflexivity | apply tab_same; try assumption; reflexivity].
    - exists st. split; [reflexivity | apply tab_same; try assumption; reflexivity].
    - exists st. split; [reflexivity | apply tab_same; try assumption; reflexivity].
    - exists st. split; [reflexivity | apply tab_same; try assumption; reflexivity].
  Qed.

  Lemma build_tab H : program H -> OPSIZE * Z.of_nat (List.length (records H)) <= fsize ->
    exists st idx, build fsize (records H) = Ok st tt /\ Inv H st idx /\ Tab H st.
  Proof.
    unfold build. induction H as [|c H IH]; intros P Hf.
    - exists c_init, (fun _ _ => None). split; [reflexivity | split; [exact inv_init | exact tab_init]].
    - assert (Hl := len_records c H). destruct IH as (st & idx & E & I & T); [apply P | unfold OPSIZE in *; lia|].
      destruct (step_any fsize H st idx c P I Hf) as (st' & idx' & E' & I').
      destruct (tab_any H st idx c P I T Hf) as (st'' & E'' & T'). assert (st'' = st') by congruence. subst.
      exists st', idx'. split; [|tauto]. rewrite records_cons, compile_app, E. cbn [bind]. exact E'.
  Qed.
End Steps.

(** ** The comparison *)
Definition rows (cs : cstate) (i : Z) (l : list sop) : Prop :=
  c_nops cs = i + Z.of_nat (List.length l) /\ c_tab cs (c_nops cs) = None /\
  forall j s, nth_error l j = Some s -> c_tab cs (i + Z.of_nat j) = Some (encode s).

Lemma rows_tail cs i s l : rows cs i (s :: l) -> c_tab cs i = Some (encode s) /\ rows cs (i + 1) l.
Proof.
  intros (A & B & C). split.
  - specialize (C O s eq_refl). rewrite Z.add_0_r in C. exact C.
  - split; [cbn [List.length] in A; lia|]. split; [exact B|]. intros j s' E. specialize (C (S j) s' E).
    rewrite <- C. f_equal. lia.
Qed.

Lemma tab_rows H st : Tab H st -> rows st 1 (rev (shape H)).
Proof.
  intros T. split; [rewrite rev_length; apply (t_n _ _ T)|]. split; [apply (t_end _ _ T); lia | apply (t_tab _ _ T)].
Qed.

Lemma encode_type s : o_type (encode s) <> TNone.
Proof. destruct s; discriminate. Qed.

Lemma w64_range z : 0 <= w64 z < 2 ^ 64.
Proof. unfold w64. apply Z.mod_pos_bound. reflexivity. Qed.

Lemma compare_list lnl lnr l r : forall lb la i, 1 <= i -> rows l i la -> rows r i lb ->
  exists b z, compare_ops lnl lnr l r i (List.length lb) = Ok tt (b, z) /\
    (b = true <-> exists t, map encode la = (map encode lb ++ t)%list) /\
    ((List.length lb <= List.length la)%nat -> forall L L', lines_ok lnl L -> lines_ok lnr L' -> 0 <= z < L + L') /\
    (forall t, map encode lb = (map encode la ++ t)%list -> t <> [] -> b = false /\ 2 ^ 64 - 1 <= z).
Proof.
  induction lb as [|sb lb IH]; intros la i Hi Ra Rb.
  - exists true, 0. cbn [List.length compare_ops map app]. split; [reflexivity|]. split; [split; eauto|]. split.
    + intros _ L L' [_ A] [_ B]. specialize (A 1 ltac:(lia)). specialize (B 1 ltac:(lia)). lia.
    + intros t E Ht. destruct la; [|discriminate]. cbn in E. congruence.
  - destruct (rows_tail _ _ _ _ Rb) as [Eb Rb']. destruct Rb as (Nb & _). cbn [List.length compare_ops] in *.
    assert (Na := proj1 Ra).
    destruct (Z.leb_spec i (c_nops l)); [|lia]. destruct (Z.leb_spec i (c_nops r)); [|lia]. cbn [andb].
    unfold oper_at at 2. rewrite Eb. destruct la as [|sa la].
    + destruct Ra as (Na' & Ea & _). cbn [List.length] in Na'. replace (c_nops l) with i in Ea by lia.
      unfold oper_at. rewrite Ea.
      assert (Ne : oper_eqb ozero (encode sb) = false).
      { destruct (oper_eqb ozero (encode sb)) eqn:E; [|reflexivity]. apply oper_eqb_ok in E.
        exfalso. apply (encode_type sb). rewrite <- E. reflexivity. }
      rewrite Ne. do 2 eexists. split; [reflexivity|]. split; [|split].
      * split; [discriminate|]. intros [t E]. discriminate E.
      * cbn [List.length]. lia.
      * intros t E Ht. split; [reflexivity|]. unfold line_at at 1. rewrite Ea.
        change (skips 0) with (2 ^ 64 - 1). assert (X := w64_range (line_at lnr r i - 1)). unfold skips. lia.
    + destruct (rows_tail _ _ _ _ Ra) as [Ea Ra']. unfold oper_at. rewrite Ea.
      destruct (oper_eqb (encode sa) (encode sb)) eqn:E.
      * apply oper_eqb_ok in E. destruct (IH la (i + 1) ltac:(lia) Ra' Rb') as (b & z & E1 & E2 & E3 & E4).
        exists b, z. split; [exact E1|]. cbn [map app List.length]. rewrite E. split; [|split].
        -- rewrite E2. split; intros [t Et]; exists t; congruence.
        -- intros Hl. apply E3. lia.
        -- intros t Et. injection Et as Et. apply E4. exact Et.
      * assert (Ne : encode sa <> encode sb) by (intros X; apply oper_eqb_ok in X; congruence).
        do 2 eexists. split; [reflexivity|]. cbn [map app List.length]. split; [|split].
        -- split; [discriminate|]. intros [t Et]. congruence.
        -- intros _ L L' [HL A] [HL' B]. unfold line_at. rewrite Ea, Eb. specialize (A i Hi). specialize (B i Hi).
           unfold skips. rewrite !w64_small by (unfold M64; lia). lia.
        -- intros t Et. congruence.
Qed.

Lemma creations_count H : program H -> ncreated H = Z.of_nat (List.length (filter creation (shape H))).
Proof.
  induction H as [|c H IH]; intros P; [reflexivity|]. destruct P as [P M]. cbn [ncreated shape]. rewrite IH by exact P.
  unfold step_of. destruct (noted H c) eqn:E; [|destruct c; try discriminate E; reflexivity].
  destruct c; cbn [noted] in E; try discriminate; cbn [is_creation filter creation List.length]; lia.
Qed.

Lemma filter_none {A} (p : A -> bool) l : List.length (filter p l) = O -> forall x, In x l -> p x = false.
Proof.
  intros E x Hx. destruct (p x) eqn:Ex; [|reflexivity].
  assert (X : In x (filter p l)) by (apply filter_In; tauto). destruct (filter p l); [contradiction | discriminate].
Qed.

Lemma prefix_inj (la lb : list sop) t : (forall a b, In a la -> In b lb -> encode a = encode b -> a = b) ->
  map encode la = (map encode lb ++ t)%list -> exists s, la = (lb ++ s)%list.
Proof.
  revert la. induction lb as [|b lb IH]; intros la J E; [exists la; reflexivity|].
  destruct la as [|a la]; [discriminate|]. cbn [map app] in E. injection E as E1 E2.
  assert (a = b) by (apply J; [left; reflexivity | left; reflexivity | exact E1]). subst.
  destruct (IH la) as [s ->].
  - intros x y Hx Hy. apply J; right; assumption.
  - exact E2.
  - exists s. reflexivity.
Qed.

Lemma compare_first lnl lnr l r H H' n : Tab H l -> Tab H' r ->
  compare_ops lnl lnr l r 0 (S n) = compare_ops lnl lnr l r 1 n.
Proof.
  intros T T'. cbn [compare_ops]. assert (N := t_n _ _ T). assert (N' := t_n _ _ T').
  destruct (Z.leb_spec 0 (c_nops l)); [|lia]. destruct (Z.leb_spec 0 (c_nops r)); [|lia]. cbn [andb].
  unfold oper_at. rewrite (t_0 _ _ T), (t_0 _ _ T').
  assert (E : oper_eqb first_cell first_cell = true) by (apply oper_eqb_ok; reflexivity). rewrite E. reflexivity.
Qed.

Lemma entry_at_tab H st k cls name base tr args : Tab H st -> In (SCreate k cls name base tr args) (shape H) ->
  entry_at st k = entry_of cls name base tr args.
Proof. intros T E. unfold entry_at. rewrite (proj2 (t_ent _ _ T _ _ _ _ _ _ E)). reflexivity. Qed.

(** The answer for two programs. *)
Lemma compare_ok lnl lnr H H' l r idx idx' : program H -> program H' -> Inv H l idx -> Inv H' r idx' -> Tab H l -> Tab H' r ->
  exists b z, compare lnl lnr l r = Ok tt (b, z) /\
    (b = true <-> exists s, shape H = (s ++ shape H')%list /\ forall x, In x s -> creation x = false) /\
    ((List.length (shape H') <= List.length (shape H))%nat -> forall L L', lines_ok lnl L -> lines_ok lnr L' -> 0 <= z < L + L') /\
    (forall s, shape H' = (s ++ shape H)%list -> (forall x, In x s -> creation x = false) -> s <> [] ->
       b = false /\ 2 ^ 64 - 1 <= z).
Proof.
  intros P P' I I' T T'. unfold compare. rewrite (i_na _ _ _ I), (i_na _ _ _ I').
  assert (C := creations_count H P). assert (C' := creations_count H' P').
  destruct (Z.eqb_spec (ncreated H) (ncreated H')) as [En|Nn]; cbn [negb].
  2:{ exists false, 0. split; [reflexivity|].
      assert (X : forall s, (forall x, In x s -> creation x = false) -> filter creation s = []).
      { clear. induction s as [|x s IH]; intros Hs; [reflexivity|]. cbn. rewrite (Hs x) by (left; reflexivity).
        apply IH. intros y Hy. apply Hs. right. exact Hy. }
      split; [|split].
      - split; [discriminate|]. intros (s & E & Hs). rewrite E, filter_app, (X s Hs) in C. cbn [app] in C. lia.
      - intros _ L L' [_ A] [_ B]. specialize (A 1 ltac:(lia)). specialize (B 1 ltac:(lia)). lia.
      - intros s E Hs. rewrite E, filter_app, (X s Hs) in C'. cbn [app] in C'. lia. }
  replace (Z.to_nat (c_nops r)) with (S (List.length (rev (shape H')))) by (rewrite (t_n _ _ T'), rev_length; lia).
  rewrite (compare_first lnl lnr l r H H' _ T T').
  destruct (compare_list lnl lnr l r (rev (shape H')) (rev (shape H)) 1 ltac:(lia) (tab_rows _ _ T) (tab_rows _ _ T'))
    as (b & z & E1 & E2 & E3 & E4).
  rewrite E1. exists (compare_allocators l r && b)%bool, z. split; [reflexivity|].
  assert (Al : compare_allocators l r = true <-> forall k, 0 <= k < ncreated H' -> entry_at l k = entry_at r k).
  { unfold compare_allocators. rewrite forallb_forall, (i_na _ _ _ I'). split.
    - intros F k Hk. specialize (F (Z.to_nat k)). rewrite Z2Nat.id in F by lia. apply entry_eqb_ok, F, in_seq. lia.
    - intros F k Hk. apply in_seq in Hk. apply entry_eqb_ok, F. lia. }
  split; [|split].
  - rewrite andb_true_iff, Al, E2. split.
    + intros [Ha [t Et]].
      destruct (prefix_inj (rev (shape H)) (rev (shape H')) t) as [s Es]; [|exact Et|].
      { intros x y Hx Hy E. apply in_rev in Hx, Hy.
        destruct x, y; cbn [encode] in E; try discriminate E; injection E; intros; subst; try reflexivity.
        - assert (X := Ha k0 (proj1 (t_ent _ _ T' _ _ _ _ _ _ Hy))).
          rewrite (entry_at_tab _ _ _ _ _ _ _ _ T Hx), (entry_at_tab _ _ _ _ _ _ _ _ T' Hy) in X.
          unfold entry_of in X. injection X; intros; subst. reflexivity.
        - destruct k as [k|], k0 as [k0|]; try congruence; subst.
          + exfalso. apply (t_co _ _ T Hx).
          + exfalso. apply (t_co _ _ T' Hy). }
      exists (rev s). assert (Es' := f_equal (@rev sop) Es). rewrite rev_app_distr, !rev_involutive in Es'.
      split; [exact Es'|].
      apply filter_none. rewrite Es', filter_app, app_length in C. lia.
    + intros (s & Es & Hs). split.
      * intros k Hk. destruct (t_all _ _ T' k Hk) as (cls & name & base & tr & args & E).
        rewrite (entry_at_tab _ _ _ _ _ _ _ _ T' E). apply (entry_at_tab _ _ _ _ _ _ _ _ T).
        rewrite Es. apply in_or_app. right. exact E.
      * exists (map encode (rev s)). rewrite Es, rev_app_distr, map_app. reflexivity.
  - rewrite !rev_length in E3. exact E3.
  - intros s Es Hs Ne. destruct (E4 (map encode (rev s))) as [-> Hz].
    + rewrite Es, rev_app_distr, map_app. reflexivity.
    + intros X. apply Ne. destruct s as [|x s]; [reflexivity|]. cbn [rev] in X. rewrite map_app in X.
      destruct (map encode (rev s)); discriminate.
    + rewrite andb_false_r. tauto.
Qed.

(** Programs of the same shape are replayed alike. *)
Lemma shape_runs H H' l r : Tab H l -> Tab H' r -> shape H = shape H' -> ncreated H = ncreated H' ->
  (forall i, 1 <= i < c_nops l -> exists o, c_tab l i = Some o /\ 0 <= o_allocator o < ncreated H) ->
  forall W (lib : rcall -> W -> outcome W Z) ptrs w, run_all lib r ptrs w = run_all lib l ptrs w.
Proof.
  intros T T' E En F W lib ptrs w. assert (N := t_n _ _ T). assert (N' := t_n _ _ T'). rewrite <- E in N'.
  apply run_all_same.
  - intros i Hi. split.
    + destruct (nth_error (rev (shape H)) (Z.to_nat (i - 1))) as [s|] eqn:Es.
      * assert (X := t_tab _ _ T _ _ Es). rewrite E in Es. assert (X' := t_tab _ _ T' _ _ Es).
        replace (1 + Z.of_nat (Z.to_nat (i - 1))) with i in * by lia. congruence.
      * apply nth_error_None in Es. rewrite rev_length in Es. lia.
    + intros o Eo. destruct (F i Hi) as (o' & Eo' & B). assert (o' = o) by congruence. subst o'.
      destruct (t_all _ _ T _ B) as (cls & name & base & tr & args & Ec).
      rewrite (proj2 (t_ent _ _ T _ _ _ _ _ _ Ec)). rewrite E in Ec. apply (t_ent _ _ T' _ _ _ _ _ _ Ec).
  - intros i Hi. destruct (F i Hi) as (o & Eo & _). eauto.
  - lia.
  - lia.
Qed.

(** ** Other addresses *)
Section Move.
  Variables (g : Z -> Z) (f : Z -> Z -> Z).
  Hypothesis g_inj : forall r r', g r = g r' -> r = r'.
  Hypothesis f_inj : forall r p p', f r p = f r p' -> p = p'.
  Hypothesis f_null : forall r, f r 0 = 0.

  Let mv := map (move g f).

  Lemma g_eqb r r' : (g r =? g r') = (r =? r').
  Proof.
    destruct (Z.eqb_spec r r') as [->|Ne]; [apply Z.eqb_refl|].
    destruct (Z.eqb_spec (g r) (g r')) as [E|]; [|reflexivity]. apply g_inj in E. contradiction.
  Qed.
  Lemma f_eqb r r' p p' : ((r =? r') && (f r p =? f r' p') = (r =? r') && (p =? p'))%bool.
  Proof.
    destruct (Z.eqb_spec r r') as [->|Ne]; [|reflexivity]. cbn [andb].
    destruct (Z.eqb_spec p p') as [->|Ne]; [apply Z.eqb_refl|].
    destruct (Z.eqb_spec (f r' p) (f r' p')) as [E|]; [|reflexivity]. apply f_inj in E. contradiction.
  Qed.

  Lemma move_created H : ncreated (mv H) = ncreated H.
  Proof. induction H as [|c H IH]; [reflexivity|]. unfold mv in *. cbn [map ncreated]. rewrite IH. destruct c; reflexivity. Qed.

  Lemma move_made H r : made (mv H) (g r) = made H r.
  Proof.
    induction H as [|c H IH]; [reflexivity|]. change (mv (c :: H)) with (move g f c :: mv H). cbn [made].
    rewrite move_created, IH. destruct c; cbn [move creates]; rewrite ?g_eqb; reflexivity.
  Qed.

  Lemma move_name H n : made_name (mv H) n = made_name H n.
  Proof.
    induction H as [|c H IH]; [reflexivity|]. change (mv (c :: H)) with (move g f c :: mv H).
    destruct c; cbn [move made_name]; rewrite ?move_created, IH; reflexivity.
  Qed.

  Lemma move_produces c r p : produces (move g f c) (g r) (f r p) = produces c r p.
  Proof. destruct c; cbn [move produces]; try reflexivity; [| |destruct q; cbn [option_map]; [|reflexivity]]; rewrite g_eqb; apply f_eqb. Qed.
  Lemma move_consumes c r p : consumes (move g f c) (g r) (f r p) = consumes c r p.
  Proof. destruct c; cbn [move consumes]; try reflexivity; [|destruct q; cbn [option_map]; [|reflexivity]]; rewrite g_eqb; apply f_eqb. Qed.

  Lemma move_holds H r p : holds (mv H) (g r) (f r p) = holds H r p.
  Proof.
    induction H as [|c H IH]; [reflexivity|]. change (mv (c :: H)) with (move g f c :: mv H). cbn [holds].
    rewrite move_produces, move_consumes, IH. reflexivity.
  Qed.

  Lemma move_noted H c : noted (mv H) (move g f c) = noted H c.
  Proof. destruct c; try reflexivity. cbn [move noted]. apply move_holds. Qed.

  Lemma move_count H : count (mv H) = count H.
  Proof.
    induction H as [|c H IH]; [reflexivity|]. change (mv (c :: H)) with (move g f c :: mv H). cbn [count].
    rewrite move_noted, IH. reflexivity.
  Qed.

  Lemma move_born H r p : born (mv H) (g r) (f r p) = born H r p.
  Proof.
    induction H as [|c H IH]; [reflexivity|]. change (mv (c :: H)) with (move g f c :: mv H). cbn [born].
    rewrite move_produces, move_consumes, move_count, IH. reflexivity.
  Qed.

  Lemma f_zero r p : (f r p =? 0) = (p =? 0).
  Proof.
    destruct (Z.eqb_spec p 0) as [->|Ne]; [rewrite f_null; reflexivity|].
    destruct (Z.eqb_spec (f r p) 0) as [E|]; [|reflexivity]. rewrite <- (f_null r) in E. apply f_inj in E. contradiction.
  Qed.

  Lemma move_shape H : shape (mv H) = shape H.
  Proof.
    induction H as [|c H IH]; [reflexivity|]. change (mv (c :: H)) with (move g f c :: mv H). cbn [shape].
    assert (E : step_of (mv H) (move g f c) = step_of H c).
    { unfold step_of. rewrite move_noted. destruct (noted H c); [|reflexivity].
      destruct c; cbn [move]; rewrite ?move_created, ?move_made, ?move_born, ?move_name, ?f_zero; reflexivity. }
    rewrite E, IH. reflexivity.
  Qed.
End Move.

(** ** Whole logs *)
Section Logs.
  Variables (dump_s : list (string * string) -> string) (dump_n : list (string * Z) -> string).
  Notation logged := (logged dump_s dump_n).
  Lemma logged_tab times H : program H -> exists cs idx, logged times H cs /\ Inv H cs idx /\ Tab H cs.
  Proof. intros P. apply build_tab; [exact P | apply file_long]. Qed.

  Lemma logged_is times H cs : program H -> logged times H cs -> exists idx, Inv H cs idx /\ Tab H cs.
  Proof.
    intros P E. destruct (logged_tab times H P) as (cs' & idx & E' & I & T). unfold logged in *.
    assert (cs' = cs) by congruence. subst. eauto.
  Qed.

  Lemma verdict H H' t t' cs cs' lnl lnr : program H -> program H' -> logged t H cs -> logged t' H' cs' ->
    exists b z, compare lnl lnr cs cs' = Ok tt (b, z) /\
      (b = true <-> exists s, shape H = (s ++ shape H')%list /\ forall x, In x s -> creation x = false).
  Proof.
    intros P P' E E'. destruct (logged_is _ _ _ P E) as (idx & I & T). destruct (logged_is _ _ _ P' E') as (idx' & I' & T').
    destruct (compare_ok lnl lnr H H' cs cs' idx idx' P P' I I' T T') as (b & z & A & B & _). eauto.
  Qed.

  Lemma verdict_equal H H' t t' cs cs' lnl lnr : program H -> program H' -> logged t H cs -> logged t' H' cs' ->
    List.length (shape H) = List.length (shape H') ->
    exists b z, compare lnl lnr cs cs' = Ok tt (b, z) /\ (b = true <-> shape H = shape H').
  Proof.
    intros P P' E E' L. destruct (verdict H H' t t' cs cs' lnl lnr P P' E E') as (b & z & A & B).
    exists b, z. split; [exact A|]. rewrite B. split.
    - intros (s & Es & _). rewrite Es in *. rewrite app_length in L. destruct s; [reflexivity | cbn in L; lia].
    - intros Es. exists []. split; [exact Es | intros x []].
  Qed.

  Lemma runs_alike H H' t t' cs cs' : program H -> program H' -> logged t H cs -> logged t' H' cs' ->
    shape H = shape H' ->
    forall W (lib : rcall -> W -> outcome W Z) ptrs w, run_all lib cs' ptrs w = run_all lib cs ptrs w.
  Proof.
    intros P P' E E' Es. destruct (logged_is _ _ _ P E) as (idx & I & T). destruct (logged_is _ _ _ P' E') as (idx' & I' & T').
    apply (shape_runs H H'); try assumption.
    - rewrite (creations_count H P), (creations_count H' P'), Es. reflexivity.
    - intros i Hi. rewrite <- (i_na _ _ _ I). apply (i_ops _ _ _ I). exact Hi.
  Qed.

  Lemma moved_alike g f H t t' cs cs' lnl lnr : (forall r r', g r = g r' -> r = r') ->
    (forall r p p', f r p = f r p' -> p = p') -> (forall r, f r 0 = 0) ->
    program H -> program (map (move g f) H) -> logged t H cs -> logged t' (map (move g f) H) cs' ->
    exists z, compare lnl lnr cs cs' = Ok tt (true, z).
  Proof.
    intros G F F0 P P' E E'. assert (S := move_shape g f G F F0 H).
    destruct (verdict_equal _ _ t t' cs cs' lnl lnr P P' E E') as (b & z & A & B); [rewrite S; reflexivity|].
    exists z. rewrite A. do 3 f_equal. apply B. symmetry. exact S.
  Qed.

  Lemma rounds H H' t t' cs cs' lnl lnr L L' : program H -> program H' -> logged t H cs -> logged t' H' cs' ->
    (List.length (shape H') <= List.length (shape H))%nat -> lines_ok lnl L -> lines_ok lnr L' ->
    exists b z, compare lnl lnr cs cs' = Ok tt (b, z) /\ 0 <= z < L + L'.
  Proof.
    intros P P' E E' Hl A A'. destruct (logged_is _ _ _ P E) as (idx & I & T). destruct (logged_is _ _ _ P' E') as (idx' & I' & T').
    destruct (compare_ok lnl lnr H H' cs cs' idx idx' P P' I I' T T') as (b & z & B & _ & C & _).
    exists b, z. split; [exact B | apply C; assumption].
  Qed.

  Lemma rounds_forever H H' t t' cs cs' lnl lnr s : program H -> program H' -> logged t H cs -> logged t' H' cs' ->
    shape H' = (s ++ shape H)%list -> (forall x, In x s -> creation x = false) -> s <> [] ->
    exists z, compare lnl lnr cs cs' = Ok tt (false, z) /\ 2 ^ 64 - 1 <= z.
  Proof.
    intros P P' E E' Es Hs Ne. destruct (logged_is _ _ _ P E) as (idx & I & T). destruct (logged_is _ _ _ P' E') as (idx' & I' & T').
    destruct (compare_ok lnl lnr H H' cs cs' idx idx' P P' I I' T T') as (b & z & B & _ & _ & C).
    destruct (C s Es Hs Ne) as [-> Hz]. eauto.
  Qed.
End Logs.
