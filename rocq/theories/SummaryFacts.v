(** The summary of the replay tool. *)
From Coq Require Import String.
From Verif Require Import Base BaseFacts ReplayModel ReplaySpec ReplayFacts SummaryModel SummarySpec.
Local Open Scope string_scope.
Local Open Scope Z_scope.

(** ** Counters *)
Definition means (s : tallies) (n : kind -> Z) : Prop := forall k, s_count s k = w64 (n k).

Lemma w64_step a b : w64 (w64 a + b) = w64 (a + b).
Proof. unfold w64. rewrite Zplus_mod_idemp_l. reflexivity. Qed.

Definition one (b : bool) : Z := if b then 1 else 0.

Lemma means_bump k s n n' : means s n -> (forall j, n' j = n j + one (kind_eqb k j)) -> means (bump k s) n'.
Proof.
  intros M E j. cbn [bump s_count]. rewrite E. unfold one. destruct (kind_eqb k j).
  - rewrite M. apply w64_step.
  - rewrite Z.add_0_r. apply M.
Qed.

Lemma means_ext s n n' : means s n -> (forall j, n' j = n j) -> means s n'.
Proof. intros M E j. rewrite E. apply M. Qed.

(** What one call adds. *)
Definition adds (H : list pcall) (c : pcall) (k : kind) : Z :=
  match k with
  | KRogue => match c with PFree r p => if holds H r p then 0 else 1 | _ => 0 end
  | KReallocate => 2 * one (counts_as KReallocate c)
  | _ => one (counts_as k c) + count (counts_as k) (inside c)
  end.

Fixpoint total (H : list pcall) (k : kind) : Z :=
  match H with nil => 0 | c :: H => total H k + adds H c k end.

Section Steps.
  Variable fsize : Z.

  Lemma tally_app a b st s : tally fsize (a ++ b)%list st s = bind (tally fsize a st s) (fun st s => tally fsize b st s).
  Proof.
    revert st s. induction a as [|e a IH]; intros st s; cbn [app tally]; [reflexivity|].
    destruct (compile_event fsize e st) as [st1 []| | | |]; cbn [bind]; auto.
  Qed.

  Definition keeps (s s' : tallies) : Prop := s_version s <> None -> s_version s' <> None.

  Lemma tally_inner inner : Forall inner_ok inner -> forall st s n, c_re st = true -> means s n ->
    exists s', tally fsize (records inner) st s = Ok st s' /\ keeps s s' /\
      means s' (fun k => n k + count (counts_as k) inner).
  Proof.
    intros Fi. induction Fi as [|c inner Hc Fi IH]; intros st s n Re M.
    - exists s. split; [reflexivity|]. split; [exact (fun X => X)|]. eapply means_ext; [exact M|]. intros j. cbn [count]. lia.
    - destruct (IH st s n Re M) as (s1 & E1 & K1 & M1).
      cbn [records]. rewrite tally_app, E1. cbn [bind].
      destruct c; try contradiction; cbn [record tally]; unfold compile_event, tally_event;
        cbn [mk_event e_oper e_name negb String.eqb Ascii.eqb Bool.eqb].
      + unfold compile_allocate. rewrite Re. cbn [bind]. eexists. split; [reflexivity|]. split; [exact K1|].
        eapply means_bump; [exact M1|]. intros j. cbn [count]. destruct j; cbn [counts_as kind_eqb one]; lia.
      + unfold compile_deallocate, rogue. rewrite Re. cbn [bind negb andb]. eexists. split; [reflexivity|]. split; [exact K1|].
        eapply means_bump; [exact M1|]. intros j. cbn [count]. destruct j; cbn [counts_as kind_eqb one]; lia.
      + cbn [bind]. eexists. split; [reflexivity|]. split; [exact K1|].
        eapply means_bump; [exact M1|]. intros j. cbn [count]. destruct j; cbn [counts_as kind_eqb one]; lia.
      + cbn [bind]. eexists. split; [reflexivity|]. split; [exact K1|].
        eapply means_bump; [exact M1|]. intros j. cbn [count]. destruct j; cbn [counts_as kind_eqb one]; lia.
      + cbn [bind]. eexists. split; [reflexivity|]. split; [exact K1|].
        eapply means_bump; [exact M1|]. intros j. cbn [count]. destruct j; cbn [counts_as kind_eqb one]; lia.
      + cbn [bind]. eexists. split; [reflexivity|]. split; [exact K1|].
        eapply means_bump; [exact M1|]. intros j. cbn [count]. destruct j; cbn [counts_as kind_eqb one]; lia.
      + cbn [bind]. destruct (String.eqb name "version") eqn:En.
        * eexists. split; [reflexivity|]. split; [intros _; discriminate|].
          intros j. cbn [s_count]. revert j. change (means (bump KVersion s1) (fun k => n k + count (counts_as k) (PMeta name :: inner))).
          eapply means_bump; [exact M1|]. intros j. cbn [count]. destruct j; cbn [counts_as kind_eqb one]; rewrite ?En; lia.
        * eexists. split; [reflexivity|]. split; [exact K1|]. eapply means_ext; [exact M1|].
          intros j. cbn [count]. destruct j; cbn [counts_as kind_eqb one]; rewrite ?En; lia.
  Qed.

  Lemma realloc_re r p n st st' :
    compile_event fsize (mk_event "reallocate" [("current_ptr", show_s p); ("allocator_ref", show_s r)] [("size", n)] []) st = Ok st' tt ->
    c_re st' = true.
  Proof.
    unfold compile_event. cbn [mk_event e_oper e_name negb String.eqb Ascii.eqb Bool.eqb].
    unfold compile_reallocate, sget, nget. cbn [mk_event e_str e_num afind String.eqb Ascii.eqb Bool.eqb].
    destruct (stoul (show_s p)) as [z|]; [|discriminate].
    destruct (if z =? 0 then _ else _) as [j|]; [|discriminate].
    unfold allocator_index. destruct (stoul (show_s r)) as [y|]; [|discriminate].
    destruct (c_refs (with_re true st) y) as [k|]; [|discriminate].
    cbn [bind]. unfold put. cbn [with_re c_nops].
    match goal with |- context [if ?b then _ else _] => destruct b end; cbn [bind]; try discriminate.
    destruct (z =? 0); intros E; injection E as <-; reflexivity.
  Qed.

  Lemma rogue_free H st idx r p : program H -> Inv H st idx -> made H r <> None -> 0 <= p ->
    rogue (mk_event "deallocate" [("allocator_ref", show_p r); ("pointer", show_p p)] [] [("replay", "true")]) st
    = negb (holds H r p).
  Proof.
    intros P I Hm Hp. unfold rogue. rewrite (i_re _ _ _ I). cbn [negb andb].
    unfold sget. cbn [mk_event e_str afind String.eqb Ascii.eqb Bool.eqb].
    destruct (made H r) as [k|] eqn:Ek; [|contradiction Hm; reflexivity]. destruct (made_pos H r k P Ek) as [Hr _].
    destruct (Z.eq_dec p 0) as [->|Hp0].
    - assert (Hh : holds H r 0 = false).
      { clear - P. induction H as [|c H IH]; [reflexivity|]. destruct P as [P M]. cbn [holds].
        destruct c; cbn [produces consumes may_follow] in *; try (apply IH; exact P);
          try contradiction.
        - destruct M as (_ & Hq & _). destruct (Z.eqb_spec 0 q); [lia|]. rewrite andb_false_r. apply IH; exact P.
        - destruct ((r =? r0) && (0 =? p)); [reflexivity | apply IH; exact P].
        - destruct q as [q|]; [|contradiction]. destruct M as (_ & _ & Hq & _).
          destruct (Z.eqb_spec 0 q); [lia|]. rewrite andb_false_r.
          destruct ((r =? r0) && (0 =? p)); [reflexivity | apply IH; exact P]. }
      rewrite Hh. rewrite show_p_pos by exact Hr. change (show_p 0) with "(nil)". rewrite (i_nil _ _ _ I). reflexivity.
    - assert (0 < p) by lia. rewrite key_show by assumption. rewrite (i_ids _ _ _ I) by assumption.
      assert (L := i_live _ _ _ I r p Hr H0). destruct (idx r p); destruct (holds H r p); try reflexivity.
      + assert (X : false = true) by (apply L; discriminate). discriminate.
      + exfalso. apply L; reflexivity.
  Qed.

  Lemma tally_call H st idx c st' s : program (c :: H) -> Inv H st idx -> compile fsize (record c) st = Ok st' tt ->
    means s (total H) ->
    exists s', tally fsize (record c) st s = Ok st' s' /\ keeps s s' /\ means s' (total (c :: H)) /\
      (c = PMeta "version" -> s_version s' <> None).
  Proof.
    intros [P May] I E M.
    assert (One : forall e k, record c = [e] -> tally_event e st s = bump k s ->
      (forall j, adds H c j = one (kind_eqb k j)) -> c <> PMeta "version" ->
      exists s', tally fsize (record c) st s = Ok st' s' /\ keeps s s' /\ means s' (total (c :: H)) /\
        (c = PMeta "version" -> s_version s' <> None)).
    { intros e k Er Et Ea Hv. rewrite Er in *. cbn [compile tally] in *. rewrite Et.
      destruct (compile_event fsize e st) as [st1 []| | | |]; cbn [bind] in *; try discriminate. injection E as ->.
      eexists. split; [reflexivity|]. split; [exact (fun X => X)|]. split; [|intros X; contradiction].
      eapply means_bump; [exact M|]. intros j. cbn [total]. rewrite Ea. reflexivity. }
    destruct c; cbn [may_follow] in May; try contradiction.
    all: try (eapply One; [reflexivity | reflexivity | intros j; destruct j; reflexivity | discriminate]).
    - (* deallocate *) clear One. destruct May as [Hm Hp]. cbn [record compile tally] in *.
      destruct (compile_event fsize _ st) as [st1 []| | | |]; cbn [bind] in *; try discriminate. injection E as ->.
      unfold tally_event. cbn [mk_event e_oper e_name negb String.eqb Ascii.eqb Bool.eqb].
      fold (mk_event "deallocate" [("allocator_ref", show_p r); ("pointer", show_p p)] [] [("replay", "true")]).
      rewrite (rogue_free H st idx r p P I Hm Hp). eexists. split; [reflexivity|].
      split; [destruct (negb (holds H r p)); exact (fun X => X)|]. split; [|discriminate].
      destruct (holds H r p) eqn:Hh; cbn [negb].
      + eapply means_bump; [exact M|]. intros j. cbn [total]. destruct j; cbn [adds]; rewrite ?Hh; reflexivity.
      + eapply means_bump; [eapply means_bump; [exact M | intros j; reflexivity]|].
        intros j. cbn [total]. destruct j; cbn [adds]; rewrite ?Hh; cbn [adds inside count counts_as kind_eqb one]; lia.
    - (* reallocate *) clear One. destruct q as [q|]; [|contradiction]. destruct May as (_ & _ & _ & _ & Fi).
      rewrite record_realloc in *. cbn [compile tally] in *.
      destruct (compile_event fsize (mk_event "reallocate" [("current_ptr", show_s p); ("allocator_ref", show_s r)] _ _) st)
        as [st1 []| | | |] eqn:E1; cbn [bind] in *; try discriminate.
      assert (Re := realloc_re _ _ _ _ _ E1).
      unfold tally_event at 1. cbn [mk_event e_oper e_name negb String.eqb Ascii.eqb Bool.eqb].
      assert (M1 : means (bump KReallocate s) (fun k => total H k + one (kind_eqb KReallocate k)))
        by (eapply means_bump; [exact M | intros j; reflexivity]).
      destruct (tally_inner inner Fi st1 _ _ Re M1) as (s2 & E2 & K2 & M2).
      rewrite tally_app, E2. rewrite compile_app, compile_inner in E by assumption. cbn [bind compile tally] in *.
      destruct (compile_event fsize _ st1) as [st3 []| | | |]; cbn [bind] in *; try discriminate. injection E as ->.
      unfold tally_event. cbn [mk_event e_oper e_name negb String.eqb Ascii.eqb Bool.eqb].
      eexists. split; [reflexivity|]. split; [exact K2|]. split; [|discriminate].
      assert (Z0 : count (counts_as KReallocate) inner = 0 /\ count (counts_as KRogue) inner = 0).
      { clear - Fi. induction Fi as [|c l Hc Fi IH]; [split; reflexivity|]. cbn [count].
        destruct c; try contradiction; cbn [counts_as]; lia. }
      eapply means_bump; [exact M2|]. intros j. cbn [total adds inside]. destruct j; cbn [adds inside count counts_as kind_eqb one]; lia.
    - (* meta *) clear One. cbn [record compile tally] in *. unfold compile_event, tally_event in *.
      cbn [e_oper e_name negb e_num bind] in *. injection E as ->.
      destruct (String.eqb name "version") eqn:En.
      + eexists. split; [reflexivity|]. split; [intros _; discriminate|]. split; [|intros _; discriminate].
        intros j. cbn [s_count]. revert j. change (means (bump KVersion s) (total (PMeta name :: H))).
        eapply means_bump; [exact M|]. intros j. cbn [total]. destruct j; cbn [adds inside count counts_as kind_eqb one]; rewrite ?En; cbn [one]; lia.
      + eexists. split; [reflexivity|]. split; [exact (fun X => X)|]. split.
        * eapply means_ext; [exact M|]. intros j. cbn [total]. destruct j; cbn [adds inside count counts_as kind_eqb one]; rewrite ?En; cbn [one]; lia.
        * intros X. injection X as ->. discriminate.
  Qed.

  Lemma tally_all H : program H -> OPSIZE * Z.of_nat (List.length (records H)) <= fsize ->
    exists st idx s, tally fsize (records H) c_init s_init = Ok st s /\ Inv H st idx /\ means s (total H) /\
      (In (PMeta "version") H -> s_version s <> None).
  Proof.
    induction H as [|c H IH]; intros P Hf.
    - exists c_init, (fun _ _ => None), s_init. split; [reflexivity|]. split; [exact inv_init|].
      split; [intros k; reflexivity | contradiction].
    - assert (Hl := len_records c H). destruct IH as (st & idx & s & E & I & M & V); [apply P | unfold OPSIZE in *; lia|].
      destruct (step_any fsize H st idx c P I Hf) as (st' & idx' & E' & I').
      destruct (tally_call H st idx c st' s P I E' M) as (s' & Es & K & M' & V').
      exists st', idx', s'. rewrite records_cons, tally_app, E. cbn [bind].
      split; [exact Es|]. split; [exact I'|]. split; [exact M'|]. intros [->|Hi]; [apply V'; reflexivity | apply K, V, Hi].
  Qed.
End Steps.

(** ** Totals *)
Lemma total_number k H : k <> KRogue -> k <> KReallocate -> total H k = number k H.
Proof.
  intros N1 N2. induction H as [|c H IH]; [reflexivity|]. cbn [total number]. rewrite IH.
  replace (adds H c k) with (one (counts_as k c) + count (counts_as k) (inside c)) by (destruct k; (reflexivity || congruence)).
  cbn [count]. unfold one. lia.
Qed.
Lemma total_rogue H : total H KRogue = strays H.
Proof. induction H as [|c H IH]; [reflexivity|]. cbn [total strays adds]. rewrite IH. lia. Qed.
Lemma total_realloc H : total H KReallocate = 2 * count (counts_as KReallocate) H.
Proof. induction H as [|c H IH]; [reflexivity|]. cbn [total adds count]. rewrite IH. unfold one. lia. Qed.

(** ** Live allocations *)
Lemma drop_one {A} (x : A) L : NoDup L -> In x L ->
  exists L', NoDup L' /\ (forall y, In y L' <-> In y L /\ y <> x) /\ List.length L = S (List.length L').
Proof.
  intros N Hi. apply in_split in Hi. destruct Hi as (a & b & ->). exists (a ++ b)%list.
  split; [exact (NoDup_remove_1 _ _ _ N)|]. assert (Hx := NoDup_remove_2 _ _ _ N). split.
  - intros y. rewrite !in_app_iff in *. cbn [In]. split.
    + intros Hy. split; [tauto|]. intros ->. tauto.
    + intros [[Hy|[Hy|Hy]] Hn]; [tauto | congruence | tauto].
  - rewrite !app_length. cbn [List.length]. lia.
Qed.

Lemma eqb2 (r r' p p' : Z) : (r =? r') && (p =? p') = true <-> (r, p) = (r', p').
Proof. rewrite andb_true_iff, !Z.eqb_eq. split; [intros [-> ->]; reflexivity | intros E; injection E; auto]. Qed.

Lemma lists_iff H L r p b : lists_live H L -> (In (r, p) L <-> b = true) -> holds H r p = b.
Proof. intros [_ E] X. specialize (E r p). destruct b, (holds H r p); try reflexivity; intuition congruence. Qed.

Lemma holds_pos H : program H -> forall r p, holds H r p = true -> 0 < p.
Proof.
  induction H as [|c H IH]; intros P r p; cbn [holds]; [discriminate|]. destruct P as [P M].
  destruct (produces c r p) eqn:Ep.
  - intros _. destruct c; cbn [produces may_follow] in *; try discriminate; try contradiction.
    + apply eqb2 in Ep. injection Ep as -> ->. tauto.
    + destruct q as [q|]; [|discriminate]. apply eqb2 in Ep. injection Ep as -> ->. tauto.
  - destruct (consumes c r p); [discriminate|]. apply IH, P.
Qed.

Lemma count_live H : program H -> Forall even_call H ->
  exists L, lists_live H L /\ number KAllocate H - number KDeallocate H = Z.of_nat (List.length L) - strays H.
Proof.
  induction H as [|c H IH]; intros P Fe.
  - exists []. split; [split; [constructor | intros; cbn; intuition discriminate] | reflexivity].
  - destruct P as [P M]. inversion Fe as [|? ? Ec Fe']; subst. destruct (IH P Fe') as (L & [Nd Li] & Eq).
    assert (Same : produces c = (fun _ _ => false) -> consumes c = (fun _ _ => false) -> lists_live (c :: H) L).
    { intros E1 E2. split; [exact Nd|]. intros r p. cbn [holds]. rewrite E1, E2. apply Li. }
    destruct c; cbn [may_follow] in M; try contradiction.
    all: try (exists L; split; [apply Same; reflexivity | cbn [number strays inside count counts_as]; lia]).
    + (* allocate *) destruct M as (_ & Hq & Hf). exists ((r, q) :: L). split.
      * split; [constructor; [rewrite Li, Hf; discriminate | exact Nd]|].
        intros r' p'. cbn [holds produces consumes In]. destruct ((r' =? r) && (p' =? q)) eqn:E.
        -- apply eqb2 in E. rewrite E. tauto.
        -- rewrite Li. split; [intros [X|X]; [|exact X] | tauto]. symmetry in X. apply eqb2 in X. congruence.
      * cbn [number strays inside count counts_as List.length]. lia.
    + (* deallocate *) destruct (holds H r p) eqn:Hh.
      * apply Li in Hh. destruct (drop_one (r, p) L Nd Hh) as (L' & Nd' & Li' & Len). exists L'. split.
        -- split; [exact Nd'|]. intros r' p'. rewrite Li', Li. cbn [holds produces consumes].
           destruct ((r' =? r) && (p' =? p)) eqn:E.
           ++ apply eqb2 in E. split; [intros [_ X]; congruence | discriminate].
           ++ split; [tauto|]. intros X. split; [exact X|]. intros Y. apply eqb2 in Y. congruence.
        -- apply Li in Hh. cbn [number strays inside count counts_as]. rewrite Hh. lia.
      * exists L. split; [split; [exact Nd|]|].
        -- intros r' p'. rewrite Li. cbn [holds produces consumes]. destruct ((r' =? r) && (p' =? p)) eqn:E; [|reflexivity].
           apply eqb2 in E. injection E as -> ->. rewrite Hh. reflexivity.
        -- cbn [number strays inside count counts_as]. rewrite Hh. lia.
    + (* reallocate *) destruct q as [q|]; [|contradiction]. destruct M as (_ & Hp & Hq & Hqp & _).
      cbn [even_call] in Ec.
      destruct (Z.eqb_spec p 0) as [->|Hp0].
      * assert (Hf : holds H r q = false) by (destruct Hqp; [lia | assumption]).
        exists ((r, q) :: L). split.
        -- split; [constructor; [rewrite Li, Hf; discriminate | exact Nd]|].
           intros r' p'. cbn [holds produces consumes In]. destruct ((r' =? r) && (p' =? q)) eqn:E.
           ++ apply eqb2 in E. rewrite E. tauto.
           ++ destruct ((r' =? r) && (p' =? 0)) eqn:E0.
              ** apply eqb2 in E0. injection E0 as -> ->. split; [|discriminate].
                 intros [X|X]; [injection X; lia|]. apply Li in X. apply (holds_pos H P) in X. lia.
              ** rewrite Li. split; [intros [X|X]; [|exact X] | tauto]. symmetry in X. apply eqb2 in X. congruence.
        -- cbn [number strays inside count counts_as List.length]. lia.
      * destruct Hp as [?|[_ Hh]]; [lia|]. apply Li in Hh. destruct (drop_one (r, p) L Nd Hh) as (L' & Nd' & Li' & Len).
        assert (Hn : ~ In (r, q) L').
        { rewrite Li'. intros [X Y]. destruct Hqp as [->|Hqp]; [congruence|]. apply Li in X. congruence. }
        exists ((r, q) :: L'). split.
        -- split; [constructor; assumption|].
           intros r' p'. cbn [holds produces consumes In]. rewrite Li', Li. destruct ((r' =? r) && (p' =? q)) eqn:E.
           ++ apply eqb2 in E. rewrite E. tauto.
           ++ destruct ((r' =? r) && (p' =? p)) eqn:E0.
              ** apply eqb2 in E0. split; [|discriminate]. intros [X|[_ X]]; [|congruence].
                 symmetry in X. apply eqb2 in X. congruence.
              ** split; [|intros X; right; split; [exact X|]; intros Y; apply eqb2 in Y; congruence].
                 intros [X|[X _]]; [|exact X]. symmetry in X. apply eqb2 in X. congruence.
        -- cbn [number strays inside count counts_as List.length]. lia.
Qed.

(** ** The summary *)
Lemma printed fsize H : program H -> In (PMeta "version") H -> OPSIZE * Z.of_nat (List.length (records H)) <= fsize ->
  exists st m, summarise fsize true false (records H) = Ok st (Some m) /\
    (forall k, p_count m k = w64 (total H k)) /\ p_leaked m = w64 (number KAllocate H - number KDeallocate H).
Proof.
  intros P Hv Hf. destruct (tally_all fsize H P Hf) as (st & idx & s & E & _ & M & V). specialize (V Hv).
  unfold summarise, print. rewrite E. cbn [bind]. destruct (s_version s) as [v|]; [|contradiction V; reflexivity].
  eexists _, _. split; [reflexivity|]. cbn [p_count p_leaked]. split; [exact M|].
  rewrite !M, !total_number by discriminate. unfold w64. rewrite <- Zminus_mod. reflexivity.
Qed.

Lemma printed_counts ds dn tss H : program H -> In (PMeta "version") H ->
  exists st m, summarise (file_size ds dn (records H) tss) true false (records H) = Ok st (Some m) /\
    (forall k, k <> KRogue -> k <> KReallocate -> p_count m k = w64 (number k H)) /\
    p_count m KRogue = w64 (strays H) /\
    p_count m KReallocate = w64 (2 * count (counts_as KReallocate) H) /\
    (Forall even_call H -> exists L, lists_live H L /\ p_leaked m = w64 (Z.of_nat (List.length L) - strays H)).
Proof.
  intros P Hv. destruct (printed (file_size ds dn (records H) tss) H P Hv (file_long ds dn (records H) tss)) as (st & m & E & C & Lk).
  exists st, m. split; [exact E|]. split; [intros k N1 N2; rewrite C, total_number by assumption; reflexivity|].
  split; [rewrite C, total_rogue; reflexivity|]. split; [rewrite C, total_realloc; reflexivity|].
  intros Fe. destruct (count_live H P Fe) as (L & Ll & Eq). exists L. split; [exact Ll|]. rewrite Lk, Eq. reflexivity.
Qed.

(** The version printed is the one of the last version event. *)
Definition is_version (e : event) : bool := negb (e_oper e) && String.eqb (e_name e) "version".

Lemma version_event e st s : is_version e = false -> s_version (tally_event e st s) = s_version s.
Proof.
  unfold is_version, tally_event. destruct (e_oper e); cbn [negb andb].
  - intros _. repeat (destruct (String.eqb _ _); [try reflexivity|]); [|reflexivity]. destruct (rogue e st); reflexivity.
  - intros ->. reflexivity.
Qed.

Lemma version_after fsize b : Forall (fun e => is_version e = false) b -> forall st s st' s',
  tally fsize b st s = Ok st' s' -> s_version s' = s_version s.
Proof.
  induction 1 as [|e b He Fb IH]; intros st s st' s'; cbn [tally]; [intros E; injection E as _ <-; reflexivity|].
  destruct (compile_event fsize e st) as [st1 []| | | |]; cbn [bind]; try discriminate.
  intros E. rewrite (IH _ _ _ _ E). apply version_event, He.
Qed.

Lemma last_version fsize a e b st m : is_version e = true -> Forall (fun e => is_version e = false) b ->
  summarise fsize true false (a ++ e :: b)%list = Ok st (Some m) ->
  p_version m = (s32 (nget "major" (e_num e)), s32 (nget "minor" (e_num e)), s32 (nget "patch" (e_num e))).
Proof.
  intros He Fb. unfold summarise. rewrite tally_app. destruct (tally fsize a c_init s_init) as [st1 s1| | | |]; cbn [bind]; try discriminate.
  cbn [tally]. unfold is_version in He. apply andb_true_iff in He. destruct He as [Ho Hn].
  unfold compile_event, tally_event. rewrite Ho, Hn. cbn [bind].
  destruct (tally fsize b st1 _) as [st2 s2| | | |] eqn:E; cbn [bind]; try discriminate.
  apply version_after in E; [|exact Fb]. cbn [s_version] in E. unfold print. rewrite E. intros X. injection X as _ <-. reflexivity.
Qed.

Lemma last_version_spelled fsize a e b st m :
  e_oper e = false -> e_name e = "version" ->
  (forall x, In x b -> e_oper x = true \/ e_name x <> "version") ->
  summarise fsize true false (a ++ e :: b)%list = Ok st (Some m) ->
  p_version m = (s32 (nget "major" (e_num e)), s32 (nget "minor" (e_num e)), s32 (nget "patch" (e_num e))).
Proof.
  intros Ho Hn Fb. apply last_version.
  - unfold is_version. rewrite Ho, Hn. reflexivity.
  - apply Forall_forall. intros x Hx. unfold is_version. destruct (Fb x Hx) as [->|X]; [reflexivity|].
    destruct (String.eqb_spec (e_name x) "version"); [contradiction|]. apply andb_false_r.
Qed.

Lemma record_quiet c : c <> PMeta "version" -> inside c = [] -> Forall (fun e => is_version e = false) (record c).
Proof.
  intros Hv Hi. destruct c; try (repeat constructor; fail).
  - cbn [inside] in Hi. subst inner. destruct q; repeat constructor.
  - constructor; [|constructor]. unfold is_version. cbn [e_oper e_name negb andb].
    destruct (String.eqb_spec name "version"); [congruence | reflexivity].
Qed.

Lemma no_version fsize H st s : tally fsize (records H) c_init s_init = Ok st s ->
  (forall c, In c H -> c <> PMeta "version" /\ inside c = []) ->
  summarise fsize true false (records H) = UB.
Proof.
  intros E Hc. unfold summarise. rewrite E. cbn [bind]. apply version_after in E.
  - unfold print. rewrite E. reflexivity.
  - clear E. induction H as [|c H IH]; [constructor|]. rewrite records_cons. apply Forall_app. split.
    + apply IH. intros c' Hi. apply Hc. right. exact Hi.
    + apply record_quiet; apply Hc; left; reflexivity.
Qed.

(** ** Programs *)
Definition host : list pcall := [PMakeRes 0x5000 "HOST"; PMeta "version"].

Lemma host_program : program host.
Proof. cbn [host program may_follow made ncreated is_creation]. unfold short. cbn [String.length]. repeat split; lia. Qed.

Lemma leak_hidden : exists H st m L,
  program H /\ Forall even_call H /\ summarise 100000 true false (records H) = Ok st (Some m) /\
  lists_live H L /\ List.length L = 1%nat /\ p_leaked m = 0 /\
  H = PFree 0x5000 0 :: PAlloc 0x5000 8 0x300 :: host.
Proof.
  set (H := PFree 0x5000 0 :: PAlloc 0x5000 8 0x300 :: host).
  assert (P : program H) by (split; [split; [exact host_program|]|]; vm_compute; repeat split; congruence).
  destruct (printed 100000 H P) as (st & m & E & _ & Lk); [cbn; tauto | vm_compute; discriminate|].
  exists H, st, m, [(0x5000, 0x300)]. split; [exact P|]. split; [repeat constructor|]. split; [exact E|].
  split; [|split; [|split; [rewrite Lk; vm_compute; reflexivity | reflexivity]]].
  - split; [constructor; [intros [] | constructor]|]. intros r p. unfold H. cbn [host holds produces consumes In].
    destruct ((r =? 0x5000) && (p =? 0)) eqn:E0.
    + apply eqb2 in E0. injection E0 as -> ->. split; [intros [X|[]]; discriminate X | discriminate].
    + destruct ((r =? 0x5000) && (p =? 0x300)) eqn:E1.
      * apply eqb2 in E1. rewrite E1. split; [reflexivity | intros _; left; reflexivity].
      * split; [intros [X|[]]; symmetry in X; apply eqb2 in X; congruence | discriminate].
  - reflexivity.
Qed.

Lemma leak_wrap : exists H st m L,
  program H /\ Forall even_call H /\ summarise 100000 true false (records H) = Ok st (Some m) /\
  lists_live H L /\ L = [] /\ p_leaked m = 2 ^ 64 - 1 /\ H = PFree 0x5000 0 :: host.
Proof.
  set (H := PFree 0x5000 0 :: host).
  assert (P : program H) by (split; [exact host_program|]; vm_compute; repeat split; congruence).
  destruct (printed 100000 H P) as (st & m & E & _ & Lk); [cbn; tauto | vm_compute; discriminate|].
  exists H, st, m, []. split; [exact P|]. split; [repeat constructor|]. split; [exact E|].
  split; [|split; [|split; [rewrite Lk; vm_compute; reflexivity | reflexivity]]].
  - split; [constructor|]. intros r p. unfold H. cbn [host holds produces consumes In].
    destruct ((r =? 0x5000) && (p =? 0)); split; (contradiction || discriminate).
  - reflexivity.
Qed.

Lemma realloc_twice : exists H st m,
  program H /\ summarise 100000 true false (records H) = Ok st (Some m) /\
  count (counts_as KReallocate) H = 1 /\ p_count m KReallocate = 2.
Proof.
  set (H := PRealloc 0x5000 0x300 16 [] (Some 0x300) :: PAlloc 0x5000 8 0x300 :: host).
  assert (P : program H).
  { split; [split; [exact host_program|]|].
    - vm_compute. repeat split; congruence.
    - cbn [may_follow]. split; [vm_compute; congruence|]. split; [right; split; [lia | vm_compute; reflexivity]|].
      split; [lia|]. split; [left; reflexivity | constructor]. }
  destruct (printed 100000 H P) as (st & m & E & C & _); [cbn; tauto | vm_compute; discriminate|].
  exists H, st, m. split; [exact P|]. split; [exact E|]. split; [reflexivity|]. rewrite C. vm_compute. reflexivity.
Qed.
