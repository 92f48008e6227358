(** Running concrete histories of a collection of allocators, used for the worked examples. *)
From Verif Require Import Base BaseFacts AlignedModel AlignedFacts HeapModel HeapFacts StratModel WrapModel QuickPoolModel
  QuickPoolInv QuickPoolMain MixedPoolModel DynPoolModel DynPoolMain GlobalModel GlobalSpec.

Inductive gcall : Type :=
| GCreate (c : nodecfg)
| GAlloc (i : nat) (n : Z)
| GFree (i : nat) (p : Z)
| GRelease (i : nat)
| GCoalesce (i : nat).

Definition gstate : Type := {C : list nodecfg & (gworld C * holdings)%type}.

Definition pow2b (a : Z) : bool := (0 <=? Z.log2 a) && (Z.log2 a <? 62) && (a =? 2 ^ Z.log2 a).

Definition qcfg_okb (cfg : qcfg) (limP : Z) : bool :=
  pow2b (cf_align cfg) && (0 <=? cf_first cfg) && (cf_first cfg + cf_align cfg <=? limP) &&
  (0 <=? cf_next cfg) && (cf_next cfg + cf_align cfg <=? limP) && (limP <? M64) &&
  (ASP <=? limP - 2 * cf_align cfg).

Definition dcfg_okb (cfg : dcfg) (limP : Z) : bool :=
  pow2b (dc_align cfg) && (0 <=? dc_first cfg) && (dc_first cfg + dc_align cfg <=? limP) &&
  (0 <=? dc_next cfg) && (dc_next cfg + dc_align cfg <=? limP) && (limP <? M64) &&
  (ASP <=? limP - 2 * dc_align cfg).

Definition kind_okb (k : kind) (limP : Z) : bool :=
  match k with
  | KQuick cfg _ => qcfg_okb cfg limP
  | KAligned a => pow2b a && (16 <=? a)
  | KMonotonic capacity => (0 <? capacity) && (capacity <=? limP)
  | KFixed obj per _ => (0 <? obj) && Nat.ltb 0 per && (obj * Z.of_nat per <=? limP)
  | KMixed cfg _ _ =>
      (0 <? mc_small cfg) && (2 <=? mc_mult cfg) && (mc_large cfg * mc_mult cfg <? M64) &&
      (mc_max_initial cfg <=? limP) && qcfg_okb (mc_quick cfg) limP
  | KDynamic cfg => dcfg_okb cfg limP
  | KDynamicKeep first next align => dcfg_okb (mkDcfg first next align dh_percent_0) limP
  | _ => true
  end.

Definition node_okb (C : list nodecfg) (c : nodecfg) : bool :=
  match climit C (nc_parent c) with Some limP => kind_okb (nc_kind c) limP | None => false end.

Definition kind_guardb (k : kind) (limP : Z) : st_ty (strat_of k) -> Z -> bool :=
  match k return st_ty (strat_of k) -> Z -> bool with
  | KMonotonic _ => fun m n => (0 <? n) && (mo_size m + n <? M64)
  | KSlotPool _ => fun _ n => (0 <? n) && (n <=? limP) && (n <? M64)
  | KDynamic cfg => fun _ n => (0 <? n) && (n <=? limP - 2 * dc_align cfg)
  | k' => fun _ n => match kind_lim k' limP with Some lim => (0 <? n) && (n <=? lim) | None => false end
  end.

Fixpoint user_guardb (C : list nodecfg) (i : nat) (n : Z) : gworld C -> bool :=
  match C return gworld C -> bool with
  | [] => fun _ => Nat.eqb i 0 && (0 <? n) && (n <? M64)
  | c :: C' => fun nw =>
      if Nat.eqb i (S (length C')) then
        match climit C' (nc_parent c) with
        | Some limP => kind_guardb (nc_kind c) limP (snd (fst nw)) n
        | None => false
        end
      else user_guardb C' i n (snd nw)
  end.

Definition gstep (c : gcall) (st : gstate) : option gstate :=
  let '(existT _ C (w, X)) := st in
  match c with
  | GCreate d =>
      if node_okb C d then
        match gcreate C d w with
        | Ok _ v => Some (existT _ (d :: C) (v, X))
        | Throw w' _ => Some (existT _ C (w', X))
        | _ => None
        end
      else None
  | GAlloc i n =>
      if user_guardb C i n w then
        match p_alloc (guser C i) n w with
        | Ok w' p => Some (existT _ C (w', if p =? 0 then X else hold X i ((p, n) :: X i)))
        | Throw w' _ => Some (existT _ C (w', X))
        | _ => None
        end
      else None
  | GFree i p =>
      match take_block p (X i) with
      | Some (n, rest) =>
          match p_dealloc (guser C i) p n w with
          | Ok w' _ => Some (existT _ C (w', hold X i rest))
          | Throw w' _ => Some (existT _ C (w', hold X i rest))
          | _ => None
          end
      | None => None
      end
  | GRelease i =>
      match grelease C i w with
      | Ok w' _ => Some (existT _ C (w', X))
      | Throw w' _ => Some (existT _ C (w', X))
      | _ => None
      end
  | GCoalesce i =>
      match gcoalesce C i w with
      | Ok w' _ => Some (existT _ C (w', X))
      | Throw w' _ => Some (existT _ C (w', X))
      | _ => None
      end
  end.

Fixpoint grun (l : list gcall) (st : gstate) : option gstate :=
  match l with
  | [] => Some st
  | c :: l' => match gstep c st with None => None | Some st' => grun l' st' end
  end.

Definition gstart (orc : nat -> list region -> Z -> answer) : gstate :=
  existT _ [] ((stats0, mkHeap orc 0 [] []), fun _ => []).

Lemma take_block_split p l n t : take_block p l = Some (n, t) -> exists l1 l2, l = l1 ++ (p, n) :: l2 /\ t = l1 ++ l2.
Proof.
  revert n t. induction l as [|[q m] l IH]; cbn; intros n t; [discriminate|].
  destruct (Z.eqb_spec q p) as [->|Hne].
  - intros E. injection E as <- <-. exists [], l. auto.
  - destruct (take_block p l) as [[m' t']|]; [|discriminate]. intros E. injection E as <- <-.
    destruct (IH _ _ eq_refl) as (l1 & l2 & -> & ->). exists ((q, m) :: l1), l2. auto.
Qed.

Lemma pow2b_ok a : pow2b a = true -> pow2_align a.
Proof.
  unfold pow2b. intros H. apply andb_true_iff in H as [H H3]. apply andb_true_iff in H as [H1 H2].
  exists (Z.log2 a). lia.
Qed.

Ltac bools := repeat match goal with
  | H : (_ && _)%bool = true |- _ => apply andb_true_iff in H as [? ?]
  end.

(** The coalescing heuristics in use. *)
Definition kind_heur_ok (k : kind) : Prop :=
  match k with
  | KQuick cfg _ => heur_ok (cf_heur cfg)
  | KMixed cfg _ _ => heur_ok (cf_heur (mc_quick cfg))
  | KDynamic cfg => dheur_ok (dc_heur cfg)
  | _ => True
  end.

Lemma qcfg_okb_ok cfg limP : heur_ok (cf_heur cfg) -> qcfg_okb cfg limP = true -> qcfg_ok cfg limP.
Proof. intros Hh H. unfold qcfg_okb in H. bools. constructor; try lia; [now apply pow2b_ok|exact Hh]. Qed.

Lemma dcfg_okb_ok cfg limP : dheur_ok (dc_heur cfg) -> dcfg_okb cfg limP = true -> dcfg_ok cfg limP.
Proof. intros Hh H. unfold dcfg_okb in H. bools. constructor; try lia; [now apply pow2b_ok|exact Hh]. Qed.

Lemma kind_okb_ok k limP : kind_heur_ok k -> kind_okb k limP = true -> kind_ok k limP.
Proof.
  intros Hh. destruct k; cbn [kind_okb kind_ok kind_heur_ok] in *; auto; intros H; bools.
  - now apply qcfg_okb_ok.
  - split; [now apply pow2b_ok|lia].
  - lia.
  - apply Nat.ltb_lt in H1. lia.
  - pose proof (qcfg_okb_ok _ _ Hh H0). split; [lia|]. split; [lia|]. split; [lia|]. split; [lia|assumption].
  - now apply dcfg_okb_ok.
  - apply dcfg_okb_ok; [intros cur v Hv _; unfold dh_percent_0; cbn; unfold ASP; lia|exact H].
Qed.

Lemma node_okb_ok C c : kind_heur_ok (nc_kind c) -> node_okb C c = true -> node_ok C c.
Proof.
  intros Hh H. unfold node_okb in H. unfold node_ok. destruct (climit C (nc_parent c)) as [limP|]; [|discriminate].
  exists limP. split; auto. now apply kind_okb_ok.
Qed.

Lemma kind_guardb_ok k limP s n : kind_guardb k limP s n = true -> kind_guard k limP s n.
Proof. destruct k; cbn [kind_guardb kind_guard kind_lim]; intros H; bools; lia. Qed.

Lemma user_guardb_ok C i n : forall w, user_guardb C i n w = true -> user_guard C i n w.
Proof.
  induction C as [|c C IH]; intros w; cbn [user_guardb user_guard].
  - intros H. bools. apply Nat.eqb_eq in H. lia.
  - destruct (Nat.eqb i (S (length C))); [|apply IH].
    destruct (climit C (nc_parent c)); [apply kind_guardb_ok|discriminate].
Qed.

Definition gstate_hist (st : gstate) : Prop := ghist (projT1 st) (fst (projT2 st)) (snd (projT2 st)).

Lemma gstart_hist orc : gstate_hist (gstart orc).
Proof. apply gh_start. Qed.

Lemma grun_hist l : (forall c, In (GCreate c) l -> kind_heur_ok (nc_kind c)) ->
  forall st st', grun l st = Some st' -> gstate_hist st -> gstate_hist st'.
Proof.
  induction l as [|c l IH]; intros Hh st st' E H; cbn [grun] in E; [injection E as <-; exact H|].
  destruct (gstep c st) as [st1|] eqn:Es; [|discriminate].
  refine (IH _ st1 st' E _); [intros c' Hin; apply Hh; right; exact Hin|]. clear IH E.
  destruct st as [C [w X]]. unfold gstate_hist in H. cbn [projT1 projT2 fst snd] in H. unfold gstep in Es.
  destruct c as [d|i n|i p|i|i].
  - destruct (node_okb C d) eqn:En; [|discriminate].
    assert (Hn : node_ok C d).
    { apply node_okb_ok; auto. apply Hh. now left. }
    destruct (gcreate C d w) as [w' v|w' e| | |] eqn:Ec; try discriminate; injection Es as <-; unfold gstate_hist; cbn.
    + eapply gh_create; eauto.
    + eapply gh_create_throw; eauto.
  - destruct (user_guardb C i n w) eqn:En; [|discriminate]. apply user_guardb_ok in En.
    destruct (p_alloc (guser C i) n w) as [w' p|w' e| | |] eqn:Ea; try discriminate; injection Es as <-; unfold gstate_hist; cbn [projT1 projT2 fst snd].
    + destruct (Z.eqb_spec p 0) as [->|Hp]; [eapply gh_alloc_null; eauto|eapply gh_alloc; eauto].
    + eapply gh_alloc_throw; eauto.
  - destruct (take_block p (X i)) as [[n rest]|] eqn:Et; [|discriminate].
    apply take_block_split in Et as (l1 & l2 & E1 & ->).
    destruct (p_dealloc (guser C i) p n w) as [w' []|w' e| | |] eqn:Ed; try discriminate; injection Es as <-;
    unfold gstate_hist; cbn [projT1 projT2 fst snd]; [eapply gh_free; eauto|eapply gh_free_throw; eauto].
  - destruct (grelease C i w) as [w' []|w' e| | |] eqn:Ed; try discriminate; injection Es as <-; unfold gstate_hist; cbn [projT1 projT2 fst snd];
      [eapply gh_release; eauto|eapply gh_release_throw; eauto].
  - destruct (gcoalesce C i w) as [w' []|w' e| | |] eqn:Ed; try discriminate; injection Es as <-; unfold gstate_hist; cbn [projT1 projT2 fst snd];
      [eapply gh_coalesce; eauto|eapply gh_coalesce_throw; eauto].
Qed.

(** What an example shows: everything held, by allocator, the current sizes, and the blocks taken from malloc. *)
Fixpoint gheap (C : list nodecfg) : gworld C -> heap :=
  match C return gworld C -> heap with [] => fun w => snd w | _ :: C' => fun w => gheap C' (snd w) end.

Definition gobs (o : option gstate) : option (list (list region) * list Z * list region) :=
  match o with
  | Some (existT _ C (w, X)) =>
      let ids := seq 0 (S (length C)) in
      Some (map X ids, map (fun i => st_cur (gstats C i w)) ids, h_live (gheap C w))
  | None => None
  end.
