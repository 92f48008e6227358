(** Proofs of the properties of the registry. *)
From Coq Require Import String Lia ZifyBool ZifyNat.
From Verif Require Import Base RegistryModel RegistrySpec RegistryFacts.

Lemma t_known_names x :
  string_to_resource x <> None <-> In x ["HOST"; "DEVICE"; "UM"; "PINNED"; "DEVICE_CONST"; "FILE"; "NO_OP"; "SHARED"]%string.
Proof.
  split.
  - intros H. destruct (string_to_resource x) as [ty|] eqn:E; [|now destruct H]. apply string_to_resource_back in E.
    destruct ty; cbn in E; try discriminate; injection E as <-; cbn; tauto.
  - cbn [In]. intros H. repeat (destruct H as [<-|H]; [discriminate|]). destruct H.
Qed.
Lemma t_types_named ty : ty <> Unknown <-> resource_to_string ty <> None.
Proof. split; [intros H; destruct ty; try discriminate; now destruct H|intros H ->; now apply H]. Qed.
Lemma t_names_differ a b x : resource_to_string a = Some x -> resource_to_string b = Some x -> a = b.
Proof. intros A B. apply resource_to_string_back in A, B. congruence. Qed.

Section Thms.
  Context (R : list string) (valid : string -> bool) (prep : string -> option exn).
  Notation stands_for := (stands_for R valid prep).
  Notation unused := (unused R valid prep).
  Notation harmless := (harmless R valid prep).
  Notation allowed := (allowed R valid prep).
  Notation rpath := (rpath R valid prep allowed).
  Notation rhist := (rhist R valid prep allowed).
  Notation rexec := (rexec R valid prep).
  Notation rinv_of := (rhist_inv R valid prep).

  Lemma rpath_app st st' : rhist st -> rpath st st' -> rhist st'.
  Proof. intros H. induction 1 as [|fl c st1 st2 _ IH Ha Hl]; [exact H|]. exact (rp_step _ _ _ _ _ fl c st1 st2 IH Ha Hl). Qed.

  Lemma is_alloc_nth st h x i : is_alloc st h x i -> exists o, nth_error (rg_objs st) h = Some o /\ o_name o = x /\ o_id o = i.
  Proof. intros (o & A & _ & B & C). now exists o. Qed.
  Lemma nth_is_alloc st h o : rinv st -> nth_error (rg_objs st) h = Some o -> is_alloc st h (o_name o) (o_id o).
  Proof. intros I E. exists o. split; [exact E|]. split; [exact (ri_live st I h o E)|]. split; reflexivity. Qed.

  Lemma same_id st h h' x x' i : rinv st -> is_alloc st h x i -> is_alloc st h' x' i -> h = h'.
  Proof.
    intros I A B. apply is_alloc_nth in A as (o & Ho & _ & Hi). apply is_alloc_nth in B as (o' & Ho' & _ & Hi').
    destruct (Nat.lt_total h h') as [Hlt|[He|Hlt]]; [|exact He|].
    - pose proof (ri_inc st I h h' o o' Hlt Ho Ho'). lia.
    - pose proof (ri_inc st I h' h o' o Hlt Ho' Ho). lia.
  Qed.

  Lemma t_unique st h h' x x' i i' :
    rhist st -> is_alloc st h x i -> is_alloc st h' x' i' -> (i = i' -> h = h') /\ (public h -> public h' -> x = x' -> h = h').
  Proof.
    intros Hr A B. pose proof (rinv_of st Hr) as I. split.
    - intros <-. exact (same_id st h h' x x' i I A B).
    - intros P P' <-. apply is_alloc_nth in A as (o & Ho & Hx & _). apply is_alloc_nth in B as (o' & Ho' & Hx' & _).
      destruct (ri_own st I h o P Ho) as [E _]. destruct (ri_own st I h' o' P' Ho') as [E' _]. rewrite Hx in E. rewrite Hx' in E'. congruence.
  Qed.

  Lemma t_agree st h x i :
    rhist st -> public h -> is_alloc st h x i -> stands_for st x h /\ (i <> invalid_allocator_id -> id_stands_for st i h).
  Proof.
    intros Hr P A. pose proof (rinv_of st Hr) as I. apply is_alloc_nth in A as (o & Ho & <- & <-).
    destruct (ri_own st I h o P Ho) as [E E']. split; [now apply by_name_handle|]. intros Hi. unfold id_stands_for, get_by_id.
    pose proof (ri_ids st I h o Ho). destruct (o_id o <? 0) eqn:E1; [lia|]. destruct (o_id o =? invalid_allocator_id) eqn:E2; [lia|]. rewrite E'.
    apply handle_ok; [exact I|]. apply nth_error_Some. congruence.
  Qed.

  Lemma grows_alloc st st' h x i : grows st st' -> is_alloc st h x i -> is_alloc st' h x i.
  Proof.
    intros [[l E] _] (o & Ho & L). exists o. split; [|exact L]. rewrite E. rewrite nth_error_app1; [exact Ho|]. apply nth_error_Some. congruence.
  Qed.

  Lemma grows_trans a b c : grows a b -> grows b c -> grows a c.
  Proof. intros [[l E] N] [[l' E'] N']. constructor; [exists (l ++ l'); rewrite E', E; now rewrite app_assoc|lia]. Qed.

  Lemma rpath_grows st st' : rhist st -> rpath st st' -> grows st st'.
  Proof.
    intros Hr. induction 1 as [|fl c st1 st2 Hp IH Ha Hl]; [apply grows_refl|].
    pose proof (rinv_of st1 (rpath_app st st1 Hr Hp)) as I1.
    destruct (change_left R valid prep _ _ _ _ I1 (rexec_change R valid prep fl c st1 I1 Ha) Hl) as (_ & G & _). exact (grows_trans _ _ _ IH G).
  Qed.

  (** Ids of new objects come from the counter. *)
  Lemma rpath_fresh st st' h o : rhist st -> rpath st st' -> nth_error (rg_objs st) h = None -> nth_error (rg_objs st') h = Some o -> rg_next st <= o_id o.
  Proof.
    intros Hr Hp. induction Hp as [|fl c st1 st2 Hp IH Ha Hl]; [congruence|]. intros En Eo.
    pose proof (rpath_app st st1 Hr Hp) as Hr1. pose proof (rinv_of st1 Hr1) as I1. pose proof (rpath_grows st st1 Hr Hp) as G1.
    destruct (nth_error (rg_objs st1) h) as [o1|] eqn:E1.
    - destruct (change_left R valid prep _ _ _ _ I1 (rexec_change R valid prep fl c st1 I1 Ha) Hl) as (_ & [[l El] _] & _).
      rewrite El, nth_error_app1 in Eo by (apply nth_error_Some; congruence). rewrite E1 in Eo. injection Eo as <-. now apply IH.
    - assert (Hm : forall x o2, made st1 x o2 -> left_by o2 st2 \/ (exists a b ts, o2 = Ok (entered st1 x a ts) b /\ rg_objs st2 = rg_objs (entered st1 x a ts)) -> rg_next st <= o_id o).
      { intros x o2 Hm Hl2. destruct G1 as [_ G1]. assert (Hs : rg_objs st2 = rg_objs st1 \/ exists a ts, rg_objs st2 = rg_objs (entered st1 x a ts)).
        { destruct Hl2 as [Hl2|(a & b & ts & -> & E)]; [|right; now exists a, ts].
          destruct Hm as [e|e|Hm|xs ts A B C D]; destruct Hl2 as [[a Hl2]|[a Hl2]]; try discriminate; injection Hl2 as <- _; auto. right. now exists xs, ts. }
        destruct Hs as [Hs|(a & ts & Hs)]; rewrite Hs in Eo; [congruence|]. cbn [entered rg_objs] in Eo. apply nth_snoc in Eo as [[_ Eo]|[_ ->]]; [congruence|].
        cbn. lia. }
      pose proof (rexec_change R valid prep fl c st1 I1 Ha) as Hc.
      destruct Hc as [x o2 Hmd _|k Hk|e|k Hk|x xs ts Hmd|x k Ec Hk Hx Hn|x x' k xs ts Ec Hmd|x k ob Ec Hx Ho Hne|x k Ec Hx Hn].
      + apply (Hm x o2 Hmd). now left.
      + destruct Hl as [[a Hl]|[a Hl]]; [injection Hl as <- _; congruence|discriminate].
      + destruct Hl as [[a Hl]|[a Hl]]; [discriminate|injection Hl as <- _; congruence].
      + destruct Hl as [[a Hl]|[a Hl]]; [injection Hl as <- _; cbn in Eo; congruence|discriminate].
      + destruct Hl as [[a Hl]|[a Hl]]; [injection Hl as <- _|discriminate]. apply (Hm x _ Hmd). right. now eexists xs, _, ts.
      + destruct Hl as [[a Hl]|[a Hl]]; [injection Hl as <- _; cbn in Eo; congruence|discriminate].
      + destruct Hl as [[a Hl]|[a Hl]]; [discriminate|injection Hl as <- _]. apply (Hm x _ Hmd). right. now eexists xs, _, ts.
      + destruct Hl as [[a Hl]|[a Hl]]; [injection Hl as <- _; cbn in Eo; congruence|discriminate].
      + destruct Hl as [[a Hl]|[a Hl]]; discriminate.
  Qed.

  Lemma t_never_reused st st' h x i :
    rhist st -> rpath st st' -> is_alloc st h x i ->
    is_alloc st' h x i /\
    (forall h' x' i', is_alloc st' h' x' i' -> (forall y j, ~ is_alloc st h' y j) -> i < i').
  Proof.
    intros Hr Hp A. split; [exact (grows_alloc _ _ _ _ _ (rpath_grows _ _ Hr Hp) A)|]. intros h' x' i' B Hn.
    pose proof (rinv_of st Hr) as I. apply is_alloc_nth in B as (o' & Ho' & _ & <-). apply is_alloc_nth in A as (o & Ho & _ & <-).
    pose proof (ri_ids st I h o Ho). enough (rg_next st <= o_id o') by lia. apply (rpath_fresh st st' h' o' Hr Hp); [|exact Ho'].
    destruct (nth_error (rg_objs st) h') as [o2|] eqn:E; [|reflexivity]. exfalso. exact (Hn _ _ (nth_is_alloc st h' o2 I E)).
  Qed.

  Lemma taken_iff st x : rinv st -> is_allocator R x st = true <-> (exists h, stands_for st x h) \/ In x R.
  Proof. intros I. now apply is_allocator_iff. Qed.
  Lemma not_taken st x : rinv st -> is_allocator R x st = false <-> unused st x /\ ~ In x R.
  Proof.
    intros I. pose proof (taken_iff st x I) as H. unfold RegistrySpec.unused. destruct (is_allocator R x st); split; intros A; try discriminate.
    - exfalso. destruct H as [H _]. specialize (H eq_refl). tauto.
    - split; intros B; enough (false = true) by discriminate; apply H; auto.
    - reflexivity.
  Qed.

  Lemma stands_entered st x xs ts y k :
    rinv st -> rinv (entered st x xs ts) -> y <> x -> ~ In y xs -> (stands_for st y k <-> stands_for (entered st x xs ts) y k).
  Proof.
    intros I I' Hx Hxs. rewrite !by_name_handle by assumption. rewrite by_name_entered.
    destruct (existsb _ (x :: xs)) eqn:E; [|reflexivity]. apply existsb_exists in E as (z & Hz & Ez). apply String.eqb_eq in Ez. subst z.
    destruct Hz as [Hz|Hz]; [now subst y|contradiction].
  Qed.

  Lemma t_make st fl x :
    rhist st ->
    match rexec fl (RMake x) st with
    | Ok st' h =>
        fl = None /\ unused st x /\ ~ In x R /\ public h /\ stands_for st' x h /\
        (forall y j, ~ is_alloc st h y j) /\
        (exists i, is_alloc st' h x i /\ (forall h0 y j, is_alloc st h0 y j -> j < i)) /\
        (forall h0 y j, h0 <> h -> is_alloc st h0 y j <-> is_alloc st' h0 y j) /\
        (forall y k, y <> x -> stands_for st y k <-> stands_for st' y k)
    | Throw st' e =>
        (st' = st /\ ((exists h, stands_for st x h) \/ In x R \/ rg_next st + 1 = invalid_allocator_id) \/ fl = Some e) /\
        (forall h0 y j, is_alloc st h0 y j <-> is_alloc st' h0 y j) /\
        (forall y k, stands_for st y k <-> stands_for st' y k)
    | UB => rg_next st = INT_MAX
    | _ => False
    end.
  Proof.
    intros Hr. pose proof (rinv_of st Hr) as I. cbn [RegistryModel.rexec].
    destruct (make_allocator_cases R valid prep fl x st I) as [(Hw & ->)|[(H & _ & ->)|[(_ & _ & e & Hf & ->)|(Hn & _ & Hf & -> & I')]]].
    - split; [left; split; [reflexivity|]|split; reflexivity]. destruct Hw as [Hw|Hw]; [auto|]. apply taken_iff in Hw; [tauto|exact I].
    - exact H.
    - split; [now right|]. split; [reflexivity|]. intros y k. rewrite !by_name_handle; [reflexivity|now apply rinv_burn|exact I].
    - apply not_taken in Hn as [Hu HR]; [|exact I]. split; [exact Hf|]. split; [exact Hu|]. split; [exact HR|]. split; [exact (ri_len st I)|].
      split; [apply by_name_handle; [exact I'|]; rewrite by_name_entered; cbn; now rewrite String.eqb_refl|].
      split; [|split; [|split]].
      + intros y j A. apply is_alloc_lt in A. lia.
      + exists (rg_next st). split.
        * exists (mkObj x (rg_next st) true). cbn [entered rg_objs o_live o_name o_id]. split; [|auto]. rewrite nth_error_app2 by lia. now rewrite Nat.sub_diag.
        * intros h0 y j A. apply is_alloc_nth in A as (o & Ho & _ & <-). pose proof (ri_ids st I h0 o Ho). lia.
      + intros h0 y j Hne. split; intros (o & Ho & L); exists o; (split; [|exact L]); cbn [entered rg_objs] in *.
        * rewrite nth_error_app1; [exact Ho|]. apply nth_error_Some. congruence.
        * apply nth_snoc in Ho as [[_ Ho]|[E _]]; [exact Ho|contradiction].
      + intros y k Hne. apply stands_entered; auto.
  Qed.

  Lemma t_duplicate st fl x :
    rhist st ->
    ((exists h, stands_for st x h) \/ In x R -> rexec fl (RMake x) st = Throw st RuntimeError) /\
    ((exists h, stands_for st x h) -> rexec fl (RMakeResource x) st = Throw st RuntimeError /\ rexec fl (RMakeResourceWith x) st = Throw st RuntimeError).
  Proof.
    intros Hr. pose proof (rinv_of st Hr) as I. split.
    - intros H. apply taken_iff in H; [|exact I]. cbn [RegistryModel.rexec]. unfold make_allocator. rewrite H. now destruct (_ =? _).
    - intros [h H]. apply by_name_handle in H; [|exact I]. cbn [RegistryModel.rexec]. unfold make_resource, make_resource_with. rewrite H.
      split; [now destruct (negb (valid x))|reflexivity].
  Qed.

  (** *** Aliases *)
  Lemma hist_step st fl c st' : rhist st -> allowed st c -> left_by (rexec fl c st) st' -> rinv st'.
  Proof. intros Hr Ha Hl. apply rinv_of. exact (rp_step _ _ _ _ _ fl c st st' Hr Ha Hl). Qed.

  Lemma t_add_alias st fl x h y i :
    rhist st -> is_alloc st h y i ->
    (unused st x -> ~ In x R ->
       exists st', rexec fl (RAddAlias x h) st = Ok st' h /\ stands_for st' x h /\
         (forall z k, z <> x -> stands_for st z k <-> stands_for st' z k) /\
         (forall h0 z j, is_alloc st h0 z j <-> is_alloc st' h0 z j) /\ (forall j k, id_stands_for st j k -> id_stands_for st' j k)) /\
    (forall k, stands_for st x k -> rexec fl (RAddAlias x h) st = Throw st RuntimeError).
  Proof.
    intros Hr A. pose proof (rinv_of st Hr) as I. split.
    - intros Hu HR. pose proof (proj2 (not_taken st x I) (conj Hu HR)) as Hn. cbn [RegistryModel.rexec]. unfold add_alias. rewrite Hn.
      eexists. split; [reflexivity|]. set (st' := set_names _ st).
      assert (I' : rinv st').
      { apply (hist_step st fl (RAddAlias x h) st' Hr); [split; [now exists y, i|now intros Hi]|]. left. exists h. cbn [RegistryModel.rexec]. unfold add_alias. now rewrite Hn. }
      assert (Hb : forall z, by_name z st' = if (x =? z)%string then Some h else by_name z st) by (intros z; apply (alook_put String.eqb String.eqb_eq)).
      split; [apply by_name_handle; [exact I'|]; rewrite Hb; now rewrite String.eqb_refl|]. split; [|split; [reflexivity|]].
      + intros z k Hz. rewrite !by_name_handle by assumption. rewrite Hb. destruct (x =? z)%string eqn:E; [|reflexivity]. apply String.eqb_eq in E. congruence.
      + intros j k. unfold id_stands_for, get_by_id. destruct (j <? 0); [discriminate|]. destruct (j =? _); [discriminate|].
        change (by_id j st') with (by_id j st). destruct (by_id j st) as [k'|] eqn:Ek.
        * destruct (ri_byid st I j k' Ek) as (_ & o & Ho & _). assert (Hk : (k' < length (rg_objs st))%nat) by (apply nth_error_Some; congruence).
          rewrite (handle_ok st k' I Hk). rewrite (handle_ok st' k' I' Hk). congruence.
        * rewrite (listing_ok st I). discriminate.
    - intros k Hk. cbn [RegistryModel.rexec]. unfold add_alias. rewrite (proj2 (taken_iff st x I) (or_introl (ex_intro _ k Hk))).
      now rewrite (Hk fl).
  Qed.

  Lemma t_remove_alias st fl x h y i :
    rhist st -> is_alloc st h y i ->
    (stands_for st x h -> x <> y ->
       exists st', rexec fl (RRemoveAlias x h) st = Ok st' h /\ unused st' x /\
         (forall z k, z <> x -> stands_for st z k <-> stands_for st' z k) /\
         (forall h0 z j, is_alloc st h0 z j <-> is_alloc st' h0 z j)) /\
    (stands_for st x h -> x = y -> rexec fl (RRemoveAlias x h) st = Throw st RuntimeError) /\
    (forall k, stands_for st x k -> k <> h -> rexec fl (RRemoveAlias x h) st = Throw st RuntimeError) /\
    (unused st x -> ~ In x R -> rexec fl (RRemoveAlias x h) st = Throw st RuntimeError).
  Proof.
    intros Hr A. pose proof (rinv_of st Hr) as I. pose proof A as A'. apply is_alloc_nth in A' as (o & Ho & Hx & Hi).
    pose proof (is_alloc_lt st h y i A) as Hl. destruct (live_of st h I Hl) as (o1 & Ho1 & Hlo). rewrite Ho in Ho1. injection Ho1 as <-.
    assert (Hf : stands_for st x h -> rexec fl (RRemoveAlias x h) st = if (y =? x)%string then Throw st RuntimeError else Ok (set_names (adrop String.eqb x (rg_names st)) st) h).
    { intros Hs. cbn [RegistryModel.rexec]. unfold remove_alias. rewrite (proj2 (taken_iff st x I) (or_introl (ex_intro _ h Hs))). cbn [negb].
      apply by_name_handle in Hs; [|exact I]. rewrite Hs, Hlo, Hx. destruct (y =? x)%string; [reflexivity|]. now rewrite Z.eqb_refl. }
    split; [|split; [|split]].
    - intros Hs Hne. rewrite (Hf Hs). destruct (y =? x)%string eqn:E; [apply String.eqb_eq in E; congruence|]. eexists. split; [reflexivity|].
      set (st' := set_names _ st).
      assert (I' : rinv st').
      { apply (hist_step st fl (RRemoveAlias x h) st' Hr); [now exists y, i|]. left. exists h. exact (Hf Hs). }
      assert (Hb : forall z, by_name z st' = if (x =? z)%string then None else by_name z st) by (intros z; apply (alook_drop String.eqb String.eqb_eq)).
      split; [apply unused_none; [exact I'|]; rewrite Hb; now rewrite String.eqb_refl|]. split; [|reflexivity].
      intros z k Hz. rewrite !by_name_handle by assumption. rewrite Hb. destruct (x =? z)%string eqn:E2; [|reflexivity]. apply String.eqb_eq in E2. congruence.
    - intros Hs ->. rewrite (Hf Hs). now rewrite String.eqb_refl.
    - intros k Hs Hne. cbn [RegistryModel.rexec]. unfold remove_alias. rewrite (proj2 (taken_iff st x I) (or_introl (ex_intro _ k Hs))). cbn [negb].
      apply by_name_handle in Hs; [|exact I]. rewrite Hs. destruct (live_of st k I (ri_names st I x k Hs)) as (o2 & Ho2 & ->).
      destruct (o_name o2 =? x)%string; [reflexivity|]. rewrite Hlo. destruct (o_id o2 =? o_id o) eqn:E; cbn [negb]; [|reflexivity]. exfalso. apply Hne.
      apply (same_id st k h (o_name o2) y i I); [|exact A]. replace i with (o_id o2) by lia. now apply nth_is_alloc.
    - intros Hu HR. cbn [RegistryModel.rexec]. unfold remove_alias. now rewrite (proj2 (not_taken st x I) (conj Hu HR)).
  Qed.

  Lemma t_stable st fl c st' x k :
    rhist st -> allowed st c -> left_by (rexec fl c st) st' -> stands_for st x k -> (forall h, c <> RRemoveAlias x h) -> stands_for st' x k.
  Proof.
    intros Hr Ha Hl Hs Hn. pose proof (rinv_of st Hr) as I. pose proof (hist_step st fl c st' Hr Ha Hl) as I'.
    destruct (change_left R valid prep _ _ _ _ I (rexec_change R valid prep fl c st I Ha) Hl) as (_ & _ & Hk).
    apply by_name_handle in Hs; [|exact I]. apply by_name_handle; [exact I'|]. destruct (Hk x k Hs) as [E|[h E]]; [exact E|]. destruct (Hn h E).
  Qed.

  Lemma t_defined st fl c :
    rhist st -> allowed st c -> rg_next st <> INT_MAX -> (forall x h, c = RRemoveAlias x h -> unused st x -> ~ In x R) ->
    exists st', left_by (rexec fl c st) st'.
  Proof.
    intros Hr Ha Hm Hn. pose proof (rinv_of st Hr) as I. pose proof (rexec_change R valid prep fl c st I Ha) as Hc.
    destruct Hc as [x o Hmd _|k Hk|e|k Hk|x xs ts Hmd|x k Ec Hk Hx HR|x x' k xs ts Ec Hmd|x k ob Ec Hx Ho Hne|x k Ec Hx HR].
    - destruct Hmd as [e|e|Hmd|xs ts A B C D]; [eexists; right; now eexists|eexists; right; now eexists|congruence|eexists; left; now eexists].
    - eexists; left; now eexists.
    - eexists; right; now eexists.
    - eexists; left; now eexists.
    - eexists; left; now eexists.
    - eexists; left; now eexists.
    - eexists; right; now eexists.
    - eexists; left; now eexists.
    - exfalso. exact (Hn x k Ec (proj2 (unused_none R valid prep st x I) Hx) HR).
  Qed.
End Thms.
