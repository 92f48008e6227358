(** Proofs about the sessions of the replay tool. *)
From Coq Require Import String.
From Verif Require Import Base ReplayModel ReplaySpec ReplayFacts ToolModel ToolSpec.
Local Open Scope string_scope.
Local Open Scope Z_scope.

Lemma keep_compile fsize l : forall st, snd (compile_keep fsize l st) = compile fsize l st.
Proof.
  induction l as [|e l IH]; intros st; cbn [compile_keep compile snd]; [reflexivity|].
  destruct (compile_event fsize e st) as [st' []|st' x| | |]; cbn [bind snd]; auto.
Qed.

Lemma poolish_is cls : poolish cls = true <-> is_pool cls.
Proof.
  unfold poolish, is_pool. rewrite Bool.orb_true_iff, !String.eqb_eq. tauto.
Qed.

Lemma retype_poolish o en : accepted o -> poolish (en_cls (retype o en)) = poolish (en_cls en).
Proof.
  intros A. unfold retype. destruct (p_pool o) as [p|] eqn:E; [|reflexivity].
  destruct (poolish (en_cls en)) eqn:P; [|exact P]. cbn. apply poolish_is. now apply A.
Qed.

Lemma retype_twice o en : accepted o -> retype o (retype o en) = retype o en.
Proof.
  intros A. generalize (retype_poolish o en A). unfold retype. destruct (p_pool o) as [p|]; [|reflexivity].
  destruct (poolish (en_cls en)) eqn:P; intros Q; [|now rewrite P]. rewrite Q. reflexivity.
Qed.

(** What the tool makes of a creation. *)
Definition turned (o : opts) (c : rcall) : rcall :=
  match c with
  | RCreate k cls name base tracked args =>
      creation o k (retype o {| en_cls := cls; en_name := name; en_base := base; en_tracked := tracked; en_args := args |})
  | _ => c
  end.
Definition turn (o : opts) (ca : rcall * Z) : rcall * Z := (turned o (fst ca), snd ca).

(** The entry of an allocator. *)
Definition look (ents : fmap entry) (k : Z) : entry :=
  match ents k with
  | Some en => en
  | None => {| en_cls := "INIT"; en_name := EmptyString; en_base := EmptyString; en_tracked := false; en_args := [] |}
  end.

Section Sim.
  Context {W : Type} (lib : rcall -> W -> outcome W Z) (o : opts) (Ho : accepted o).

  Definition lib' : rcall -> W -> outcome W Z := fun c => lib (turned o c).

  Lemma orderly' : orderly lib -> orderly lib'.
  Proof. intros H c w. apply H. Qed.

  (** The tool with options, the tool without over the other library. *)
  Definition sim (cs : cstate) (s : @tstate W) (st : @rstate W) : Prop :=
    r_lib (fst s) = r_lib st /\ r_made (fst s) = r_made st /\ r_ptrs (fst s) = r_ptrs st /\
    r_log (fst s) = map (turn o) (r_log st) /\
    forall k, retype o (look (snd s) k) = retype o (look (c_entries cs) k).

  Definition alike (cs : cstate) (x : outcome tstate unit) (y : outcome (@rstate W) unit) : Prop :=
    match x, y with
    | Ok s _, Ok st _ => sim cs s st
    | Throw s e, Throw st e' => sim cs s st /\ e = e'
    | UB, UB | Abort, Abort | NoFuel, NoFuel => True
    | _, _ => False
    end.

  Lemma call_sim cs s st c : sim cs s st -> turned o c = c ->
    match call lib c (fst s), call lib' c st with
    | Ok s1 a, Ok st1 b => sim cs (s1, snd s) st1 /\ a = b
    | Throw s1 e, Throw st1 e' => sim cs (s1, snd s) st1 /\ e = e'
    | UB, UB | Abort, Abort | NoFuel, NoFuel => True
    | _, _ => False
    end.
  Proof.
    intros (E1 & E2 & E3 & E4 & E5) Hc. unfold call, lib'. rewrite Hc, E1. destruct (lib c (r_lib st)); auto.
    - split; [|reflexivity]. repeat split; cbn [fst snd r_lib r_made r_ptrs r_log map]; auto. unfold turn at 1. cbn [fst snd]. rewrite Hc. now f_equal.
    - split; [|reflexivity]. repeat split; cbn [fst snd r_lib r_made r_ptrs r_log]; auto.
  Qed.

  Lemma call_on_sim cs s st k c : sim cs s st -> turned o c = c ->
    match call_on lib k c (fst s), call_on lib' k c st with
    | Ok s1 a, Ok st1 b => sim cs (s1, snd s) st1 /\ a = b
    | Throw s1 e, Throw st1 e' => sim cs (s1, snd s) st1 /\ e = e'
    | UB, UB | Abort, Abort | NoFuel, NoFuel => True
    | _, _ => False
    end.
  Proof.
    intros S Hc. unfold call_on, is_made. destruct S as (E1 & E2 & E3). rewrite E2.
    destruct (r_made st k); [|exact I]. apply call_sim; [|exact Hc]. unfold sim. auto.
  Qed.

  Lemma set_ptr_sim cs s st i q : sim cs s st -> sim cs (set_ptr i (fst s) q, snd s) (set_ptr i st q).
  Proof. intros (E1 & E2 & E3 & E4 & E5). unfold sim, set_ptr. cbn [fst snd r_lib r_made r_ptrs r_log]. rewrite E3. auto. Qed.

  (** An operation on an allocator. *)
  Lemma on_sim cs s st k c (g : Z -> @rstate W -> @rstate W) : sim cs s st -> turned o c = c ->
    (forall q s st, sim cs s st -> sim cs (g q (fst s), snd s) (g q st)) ->
    alike cs (omap (fun st => (st, snd s)) (fun u => u) (let* (st, q) := call_on lib k c (fst s) in Ok (g q st) tt))
             (let* (st, q) := call_on lib' k c st in Ok (g q st) tt).
  Proof.
    intros S Hc Hg. assert (X := call_on_sim cs s st k c S Hc).
    destruct (call_on lib k c (fst s)) as [s1 a|s1 e| | |], (call_on lib' k c st) as [st1 b|st1 e'| | |]; cbn [bind omap alike]; try contradiction; auto.
    destruct X as [X ->]. apply (Hg b (s1, snd s) st1 X).
  Qed.

  Lemma op_sim cs cs' i s st : c_tab cs' = c_tab cs -> sim cs s st -> alike cs (opt_op lib o cs' i s) (run_op lib' cs i st).
  Proof.
    intros Et S. assert (P : forall i, ptr_of i (fst s) = ptr_of i st) by (intros j; unfold ptr_of; destruct S as (_ & _ & -> & _); reflexivity).
    destruct s as [s ents]. unfold opt_op, run_op. cbn [with_entries c_tab c_entries]. rewrite Et. cbn zeta.
    set (p := match c_tab cs i with Some p => p | None => ozero end). fold (look ents (o_allocator p)). fold (look (c_entries cs) (o_allocator p)).
    assert (G : forall k c, turned o c = c -> alike cs (omap (fun st => (st, ents)) (fun u => u) (let* (st, _) := call_on lib k c s in Ok st tt)) (let* (st, _) := call_on lib' k c st in Ok st tt)).
    { intros k c Hc. apply (on_sim cs (s, ents) st k c (fun _ x => x) S Hc). intros q s1 st1 X. now destruct s1. }
    assert (G' : forall k c, turned o c = c -> alike cs (omap (fun st => (st, ents)) (fun u => u) (let* (st, q) := call_on lib k c s in Ok (set_ptr i st q) tt)) (let* (st, q) := call_on lib' k c st in Ok (set_ptr i st q) tt)).
    { intros k c Hc. apply (on_sim cs (s, ents) st k c (fun q x => set_ptr i x q) S Hc). intros q s1 st1 X. now apply set_ptr_sim. }
    cbn [fst] in P. rewrite !P.
    assert (Er := proj2 (proj2 (proj2 (proj2 S))) (o_allocator p)). cbn [snd] in Er.
    destruct (o_type p) eqn:Ty; try exact I; try (apply G; reflexivity); try (apply G'; reflexivity).
    - set (en := look ents (o_allocator p)) in *. set (en0 := look (c_entries cs) (o_allocator p)) in *.
      assert (T : turned o (RCreate (o_allocator p) (en_cls en0) (en_name en0) (en_base en0) (en_tracked en0) (en_args en0)) = creation o (o_allocator p) (retype o en)).
      { unfold turned. rewrite Er. destruct en0. reflexivity. }
      destruct S as (E1 & E2 & E3 & E4 & E5). unfold call, lib'. rewrite T. cbn [fst snd] in *. rewrite E1.
      assert (E5' : forall k, retype o (look (fset ents (o_allocator p) (retype o en)) k) = retype o (look (c_entries cs) k)).
      { intros k. unfold look at 1, fset. destruct (Z.eqb_spec k (o_allocator p)) as [->|N]; [|apply E5]. rewrite retype_twice by exact Ho. exact Er. }
      destruct (lib (creation o (o_allocator p) (retype o en)) (r_lib st)) as [w a|w e| | |]; cbn [bind alike]; auto.
      + repeat split; cbn [fst snd r_lib r_made r_ptrs r_log map]; auto; [now rewrite E2|]. unfold turn at 1. cbn [fst snd]. rewrite T. now f_equal.
      + repeat split; cbn [fst snd r_lib r_made r_ptrs r_log map]; auto.
    - assert (Ep : poolish (en_cls (look ents (o_allocator p))) = poolish (en_cls (look (c_entries cs) (o_allocator p)))).
      { rewrite <- (retype_poolish o (look ents _)), Er, retype_poolish by exact Ho. reflexivity. }
      unfold poolish in Ep. rewrite Bool.orb_comm, Ep, Bool.orb_comm.
      destruct (String.eqb (en_cls (look (c_entries cs) (o_allocator p))) "QuickPool" || _)%bool; [apply G; reflexivity|]. exact S.
  Qed.

  Lemma run_sim cs cs' objs n : c_tab cs' = c_tab cs ->
    forall i s st, sim cs s st -> alike cs (opt_run lib o cs' objs i n s) (run lib' cs i n st) \/
      opt_run lib o cs' objs i n s = UB /\ p_dump o = true /\ exists k, objs k = true.
  Proof.
    intros Et. induction n as [|n IH]; intros i s st S; cbn [opt_run run]; [left; exact S|].
    assert (X := op_sim cs cs' i s st Et S).
    destruct (opt_op lib o cs' i s) as [s1 []|s1 e| | |], (run_op lib' cs i st) as [st1 []|st1 e'| | |]; cbn [alike bind] in *; try contradiction; auto.
    unfold opt_dump; destruct (p_dump o) eqn:Pd; cbn [andb bind]; [|now apply IH].
    destruct (existsb _ _) eqn:X1; cbn [bind]; [|now apply IH]. right. split; [reflexivity|]. split; [reflexivity|].
    apply existsb_exists in X1. destruct X1 as (k & _ & Y). exists (Z.of_nat k). now apply andb_prop in Y.
  Qed.
End Sim.

(** Operation 0 has no pointer. *)
Section Zero.
  Context {W : Type} (lib : rcall -> W -> outcome W Z).
  Definition zero_free (x : outcome (@rstate W) unit) : Prop :=
    match x with Ok st _ | Throw st _ => r_ptrs st 0 = None | _ => True end.

  Lemma call_on_ptrs k c st : match call_on lib k c st with Ok s _ | Throw s _ => r_ptrs s = r_ptrs st | _ => True end.
  Proof. unfold call_on, call. destruct (is_made k st); [|exact I]. destruct (lib c (r_lib st)); auto. Qed.

  Lemma op_zero cs i st : 0 < i -> r_ptrs st 0 = None -> zero_free (run_op lib cs i st).
  Proof.
    intros Hi H0. unfold run_op.
    set (p := match c_tab cs i with Some p => p | None => ozero end). cbn zeta.
    assert (G : forall k c, zero_free (let* (s, _) := call_on lib k c st in Ok s tt)).
    { intros k c. assert (X := call_on_ptrs k c st). destruct (call_on lib k c st); cbn [bind zero_free]; try rewrite X; auto. }
    assert (G' : forall k c, zero_free (let* (s, q) := call_on lib k c st in Ok (set_ptr i s q) tt)).
    { intros k c. assert (X := call_on_ptrs k c st). destruct (call_on lib k c st); cbn [bind zero_free set_ptr r_ptrs]; try rewrite X; auto.
      unfold fset. destruct (Z.eqb_spec 0 i); [lia|exact H0]. }
    destruct (o_type p); try exact I; try apply G; try apply G'.
    - unfold call. destruct (lib _ (r_lib st)); cbn; auto.
    - destruct (_ || _)%bool; [apply G|exact H0].
  Qed.

  Lemma run_zero cs n : forall i st, 0 < i -> r_ptrs st 0 = None -> zero_free (run lib cs i n st).
  Proof.
    induction n as [|n IH]; intros i st Hi H0; cbn [run]; [exact H0|].
    assert (X := op_zero cs i st Hi H0). destruct (run_op lib cs i st) as [s []|s e| | |]; cbn [bind zero_free] in *; auto. apply IH; [lia|exact X].
  Qed.
End Zero.

(** ** What the options want *)
Definition fine (o : opts) (H : list pcall) : Prop := p_heur o = None \/ tracks_pools H.

Lemma filled_defaults l : (List.length l <= 3)%nat -> filled l = (l ++ skipn (List.length l) pool_defaults)%list.
Proof. destruct l as [|a [|b [|c [|d l]]]]; cbn; try reflexivity. lia. Qed.

Lemma params_pool cls args args' : params cls args args' -> is_pool cls -> (List.length args' <= 3)%nat.
Proof.
  intros P [-> | ->]; inversion P; subst; cbn in *; try lia; try (repeat match goal with H : _ \/ _ |- _ => destruct H end; (discriminate || contradiction)).
Qed.

Lemma turned_wanted o k cls name base tr args :
  (poolish cls = true -> (List.length args <= 3)%nat /\ (p_heur o = None \/ tr = true)) -> accepted o ->
  turned o (RCreate k cls name base tr args) = wanted o (RCreate k cls name base tr args).
Proof.
  intros Hp A. unfold turned, wanted, creation. rewrite retype_poolish by exact A. cbn [en_cls].
  unfold retype. cbn [en_cls].
  destruct (poolish cls) eqn:P.
  - destruct (Hp eq_refl) as [Hl [Hh|Ht]].
    + rewrite Hh. destruct (p_pool o); reflexivity.
    + subst tr. destruct (p_pool o), (p_heur o) as [[h parm]|]; cbn [with_cls en_tracked en_args en_name en_base en_cls]; try reflexivity;
        rewrite filled_defaults by exact Hl; now rewrite <- app_assoc.
  - destruct (p_pool o), (p_heur o) as [[h parm]|]; reflexivity.
Qed.

Lemma mirrors_turned o H L f : mirrors H L f -> accepted o -> fine o H -> map (turn o) L = map (fun ca => (wanted o (fst ca), snd ca)) L.
Proof.
  intros M A. induction M; intros F; cbn [map]; try reflexivity;
    assert (F' : fine o H) by (destruct F as [F|F]; [now left | right; intros ? ? ? ? ? ? X; eapply F; right; exact X]);
    specialize (IHM F'); try exact IHM; rewrite IHM; try reflexivity.
  - f_equal. unfold turn. cbn [fst snd]. f_equal. apply turned_wanted; [discriminate|exact A].
  - f_equal. unfold turn. cbn [fst snd]. f_equal. apply turned_wanted; [|exact A]. intros P. apply poolish_is in P. split.
    + apply (params_pool cls args args'); assumption.
    + destruct F as [F|F]; [now left|right]. eapply F; [now left | exact P].
Qed.

Lemma fine_suffix o H1 H0 : fine o (H1 ++ H0)%list -> fine o H0.
Proof. intros [F|F]; [now left|right]. intros ? ? ? ? ? ? X. eapply F. apply in_or_app. right. exact X. Qed.

(** ** Sessions over the log of a program *)
Section Log.
  Context (H : list pcall) (fsize : Z) (HP : program H) (Hf : OPSIZE * Z.of_nat (List.length (records H)) <= fsize).

  (** What a compiled file holds. *)
  Definition good (cs : cstate) (clean : bool) (m : image) : Prop :=
    c_tab (m_cs m) = c_tab cs /\ c_nops (m_cs m) = c_nops cs /\
    (forall k, look (c_entries (m_cs m)) k = look (c_entries cs) k) /\ m_ptrs m 0 = None /\
    (clean = true -> forall k, m_objs m k = false).
  Definition keeps (cs : cstate) (clean : bool) (f : bfile) : Prop :=
    match f with Absent => True | Foreign _ => clean = false | Compiled m => good cs clean m end.

  (** The calls of a session, and how it ended. *)
  Definition called {W} (o : opts) (r : outcome (@tstate W) unit) : Prop :=
    (exists s, r = Ok s tt /\ as_wanted o H (r_log (fst s))) \/
    (exists s e H1 H0, r = Throw s e /\ H = (H1 ++ H0)%list /\ as_wanted o H0 (r_log (fst s))).

  Definition stale (o : opts) (b : bool) : Prop := p_dump o = true /\ b = false.

  Lemma image_runs cs idx W (lib : rcall -> W -> outcome W Z) o b m w : Inv H cs idx -> good cs b m -> orderly lib -> accepted o ->
    run_image lib o m w = UB /\ stale o b \/
    exists r, run_image lib o m w = r /\ (fine o H -> called o r) /\
      match r with Ok s _ | Throw s _ => r_ptrs (fst s) 0 = None /\ forall k, retype o (look (snd s) k) = retype o (look (c_entries cs) k) | _ => False end.
  Proof.
    intros I (Gt & Gn & Ge & Gp & Gc) O A. unfold run_image. rewrite Gn.
    set (s := ({| r_lib := w; r_made := fempty; r_ptrs := m_ptrs m; r_log := [] |}, c_entries (m_cs m)) : tstate).
    assert (S : sim o cs s (fst s)). { repeat split; try reflexivity. intros k. cbn [snd s]. now rewrite Ge. }
    destruct (run_sim lib o A cs (m_cs m) (m_objs m) (Z.to_nat (c_nops cs - 1)) Gt 1 s (fst s) S) as [X|(X & Pd & k & Ek)].
    2: { left. split; [exact X|]. split; [exact Pd|]. destruct b; [|reflexivity]. rewrite (Gc eq_refl) in Ek. discriminate. }
    right. eexists. split; [reflexivity|].
    assert (R := i_run _ _ _ I W (lib' lib o) (m_ptrs m) w (orderly' lib o O) Gp).
    unfold run_all in R. cbn [fst s] in X. assert (Z := run_zero (lib' lib o) cs (Z.to_nat (c_nops cs - 1)) 1 _ ltac:(lia) (Gp : r_ptrs {| r_lib := w; r_made := fempty; r_ptrs := m_ptrs m; r_log := [] |} 0 = None)).
    destruct (run (lib' lib o) cs 1 _ _) as [rs []|rs e| | |]; cbn [runs_ok zero_free] in *; try contradiction;
      destruct (opt_run lib o (m_cs m) _ _ _ s) as [t []|t e'| | |]; cbn [alike] in X; try contradiction.
    - destruct X as (X1 & X2 & X3 & X4 & X5). split.
      + intros F. left. exists t. split; [reflexivity|]. destruct R as ((f & M & _) & _). exists (r_log rs), f. split; [exact M|].
        rewrite X4. now apply (mirrors_turned o H _ f).
      + rewrite X3. split; [exact Z | exact X5].
    - destruct X as ((X1 & X2 & X3 & X4 & X5) & ->). split.
      + intros F. right. destruct R as (H1 & H0 & f & E & M). exists t, e, H1, H0. split; [reflexivity|]. split; [exact E|]. exists (r_log rs), f. split; [exact M|].
        rewrite X4. apply (mirrors_turned o H0 _ f M A). rewrite E in F. now apply fine_suffix in F.
      + rewrite X3. split; [exact Z | exact X5].
  Qed.

  Lemma mapped_runs cs idx W (lib : rcall -> W -> outcome W Z) o b m w : Inv H cs idx -> good cs b m -> orderly lib -> accepted o ->
    run_mapped lib o m w = Undefined /\ stale o b \/
    exists r f', run_mapped lib o m w = Ran r f' /\ (fine o H -> called o r) /\
      ((p_force o = true -> p_pool o = None) -> keeps cs (b && negb (p_force o)) f').
  Proof.
    intros I G O A. unfold run_mapped. destruct (image_runs cs idx W lib o b m w I G O A) as [(E & St)|(r & E & C & K)]; rewrite E.
    { left. split; [now destruct (p_force o) | exact St]. }
    right. destruct G as (Gt & Gn & Ge & Gp & Gc).
    destruct (p_force o) eqn:Pf.
    - assert (T : forall s, r_ptrs (fst s) 0 = None -> (forall k, retype o (look (snd s) k) = retype o (look (c_entries cs) k)) ->
                 p_pool o = None -> good cs false (left_image (W:=W) m s)).
      { intros s K1 K2 Po. unfold good, left_image. cbn [m_cs m_ptrs m_objs with_entries c_tab c_nops c_entries]. split; [exact Gt|]. split; [exact Gn|].
        split; [|split; [exact K1 | discriminate]]. intros k. specialize (K2 k). unfold retype in K2. now rewrite Po in K2. }
      rewrite Bool.andb_false_r.
      destruct r as [s []|s e| | |]; try contradiction; destruct K as [K1 K2]; do 2 eexists; (split; [reflexivity|]); (split; [exact C|]); intros Y; cbn [keeps]; apply T; auto.
    - rewrite Bool.andb_true_r. destruct r as [s []|s e| | |]; try contradiction; do 2 eexists; (split; [reflexivity|]); (split; [exact C|]); intros _; cbn [keeps good]; repeat split; auto.
  Qed.

  Definition fresher (f : bfile) (b : bool) : bool := match f with Absent => true | Foreign _ => false | Compiled _ => b end.

  Lemma compiled_good cs f b : keeps cs b f -> good cs (fresher f b) (mkImage cs fempty (old_objs f)).
  Proof.
    intros K. repeat split; cbn [m_objs]; try reflexivity. destruct f; cbn [old_objs keeps fresher] in *; try discriminate; auto. intros ->. now apply K.
  Qed.

  Lemma session_runs cs idx W (lib : rcall -> W -> outcome W Z) o b f w : build fsize (records H) = Ok cs tt -> Inv H cs idx -> keeps cs b f -> orderly lib -> accepted o ->
    session lib o fsize (records H) f w = Undefined /\ stale o b \/
    exists r f', session lib o fsize (records H) f w = Ran r f' /\ (fine o H -> called o r) /\
      ((p_force o = true -> p_pool o = None) -> keeps cs (b && negb (p_force o)) f').
  Proof.
    intros B I K O A. unfold session. destruct (compile_needed o f) eqn:N.
    - assert (X := keep_compile fsize (records H) c_init). unfold build in B. rewrite B in X.
      destruct (compile_keep fsize (records H) c_init) as [c0 x]. cbn [snd] in X. subst x.
      destruct (mapped_runs cs idx W lib o (fresher f b) _ w I (compiled_good cs f b K) O A) as [(E & Sd & Sb)|(r & f' & E & C & Kp)].
      + left. split; [exact E|]. split; [exact Sd|]. destruct f; cbn [fresher keeps] in *; congruence.
      + right. exists r, f'. split; [exact E|]. split; [exact C|].
        intros Y. specialize (Kp Y). destruct f; cbn [keeps fresher] in *; auto; [|subst b; exact Kp].
        destruct b; [exact Kp|]. destruct f'; cbn [keeps andb] in *; auto. destruct Kp as (? & ? & ? & ? & ?). repeat split; auto. discriminate.
    - unfold compile_needed in N. destruct f as [|objs|m]; try (destruct (p_force o); discriminate). apply (mapped_runs cs idx); assumption.
  Qed.

  Lemma files_keep cs idx b f : build fsize (records H) = Ok cs tt -> Inv H cs idx -> files fsize (records H) b f -> keeps cs b f.
  Proof.
    intros B I F. induction F as [|objs|b f o W lib w r f' F IH O A Y S]; [exact Logic.I | reflexivity|].
    destruct (session_runs cs idx W lib o b f w B I IH O A) as [(E & _)|(r0 & f0 & E & _ & Kp)]; rewrite S in E; [discriminate|].
    injection E as -> ->. apply Kp, Y.
  Qed.

  (** Compiling over any file. *)
  Definition ours (f : bfile) : Prop := match f with Compiled _ => False | _ => True end.

  Lemma forced_runs W (lib : rcall -> W -> outcome W Z) o f w : orderly lib -> accepted o -> p_dump o = false ->
    p_force o = true \/ ours f ->
    exists r f', session lib o fsize (records H) f w = Ran r f' /\ (fine o H -> called o r).
  Proof.
    intros O A D N. destruct (build_inv fsize H HP Hf) as (cs & idx & B & I).
    unfold session. replace (compile_needed o f) with true.
    2: { unfold compile_needed. destruct N as [-> | N]; [reflexivity|]. destruct f; try contradiction; now destruct (p_force o). }
    assert (X := keep_compile fsize (records H) c_init). unfold build in B. rewrite B in X.
    destruct (compile_keep fsize (records H) c_init) as [c0 x]. cbn [snd] in X. subst x.
    assert (G : good cs false (mkImage cs fempty (old_objs f))) by (repeat split; discriminate).
    destruct (mapped_runs cs idx W lib o false _ w I G O A) as [(E & Sd & _)|(r & f' & E & C & _)]; [congruence|].
    exists r, f'. split; [exact E | exact C].
  Qed.

  Lemma sessions W (lib : rcall -> W -> outcome W Z) o b f w : files fsize (records H) b f -> orderly lib -> accepted o ->
    session lib o fsize (records H) f w = Undefined /\ stale o b \/
    exists r f', session lib o fsize (records H) f w = Ran r f' /\ (fine o H -> called o r).
  Proof.
    intros F O A. destruct (build_inv fsize H HP Hf) as (cs & idx & B & I).
    destruct (session_runs cs idx W lib o b f w B I (files_keep cs idx b f B I F) O A) as [E|(r & f' & E & C & _)]; [left; exact E|right].
    exists r, f'. split; [exact E | exact C].
  Qed.
End Log.

Lemma dump_exact W (o : opts) cs objs (s : @tstate W) : 0 <= c_nalloc cs ->
  (opt_dump o cs objs s = UB <-> p_dump o = true /\ exists k, 0 <= k < c_nalloc cs /\ objs k = true /\ r_made (fst s) k = None) /\
  (opt_dump o cs objs s = UB \/ opt_dump o cs objs s = Ok s tt).
Proof.
  intros Hn. unfold opt_dump. destruct (p_dump o); cbn [andb]; [|split; [split; [discriminate|intros [D _]; discriminate]|now right]].
  destruct (existsb _ _) eqn:E.
  - split; [|now left]. split; [|reflexivity]. intros _. split; [reflexivity|]. apply existsb_exists in E. destruct E as (k & I & B).
    apply in_seq in I. apply andb_prop in B. destruct B as [B1 B2]. exists (Z.of_nat k). split; [lia|]. split; [exact B2|].
    unfold is_made in B1. destruct (r_made _ _); [discriminate|reflexivity].
  - split; [|now right]. split; [discriminate|]. intros (_ & k & I & B1 & B2). exfalso.
    assert (F : existsb (fun k => negb (is_made (Z.of_nat k) (fst s)) && objs (Z.of_nat k)) (seq 0 (Z.to_nat (c_nalloc cs))) = true).
    { apply existsb_exists. exists (Z.to_nat k). split; [apply in_seq; lia|]. rewrite Z2Nat.id by lia. unfold is_made. now rewrite B2, B1. }
    congruence.
Qed.
