(** Running concrete histories with untracked allocators and arbitrary declared sizes. *)
From Verif Require Import Base BaseFacts HeapModel HeapFacts StratModel WrapModel QuickPoolModel QuickPoolMain MixedPoolModel
  DynPoolModel DynPoolMain GlobalModel GlobalSpec GlobalRun LooseSpec.

Inductive lcall : Type :=
| LCreate (c : nodecfg)
| LAlloc (tracked : bool) (i : nat) (n : Z)
| LFree (tracked : bool) (i : nat) (p m : Z)
| LRelease (i : nat)
| LCoalesce (i : nat).

Definition lstep (c : lcall) (st : gstate) : option gstate :=
  let '(existT _ C (w, X)) := st in
  match c with
  | LCreate d => gstep (GCreate d) st
  | LAlloc b i n =>
      if user_guardb C i n w then
        match p_alloc (gvia b C i) n w with
        | Ok w' p => Some (existT _ C (w', if p =? 0 then X else hold X i ((p, n) :: X i)))
        | Throw w' _ => Some (existT _ C (w', X))
        | _ => None
        end
      else None
  | LFree b i p m =>
      match take_block p (X i) with
      | Some (n, rest) =>
          match p_dealloc (gvia b C i) p m w with
          | Ok w' _ => Some (existT _ C (w', hold X i rest))
          | Throw w' _ => Some (existT _ C (w', hold X i rest))
          | _ => None
          end
      | None => None
      end
  | LRelease i => gstep (GRelease i) st
  | LCoalesce i => gstep (GCoalesce i) st
  end.

Fixpoint lrun (l : list lcall) (st : gstate) : option gstate :=
  match l with
  | [] => Some st
  | c :: l' => match lstep c st with None => None | Some st' => lrun l' st' end
  end.

Definition lstate_hist (st : gstate) : Prop := lhist (projT1 st) (fst (projT2 st)) (snd (projT2 st)).

Lemma lrun_hist l : (forall c, In (LCreate c) l -> kind_heur_ok (nc_kind c)) ->
  forall st st', lrun l st = Some st' -> lstate_hist st -> lstate_hist st'.
Proof.
  induction l as [|c l IH]; intros Hh st st' E H; cbn [lrun] in E; [injection E as <-; exact H|].
  destruct (lstep c st) as [st1|] eqn:Es; [|discriminate].
  refine (IH _ st1 st' E _); [intros c' Hin; apply Hh; right; exact Hin|]. clear IH E.
  destruct st as [C [w X]]. unfold lstate_hist in H. cbn [projT1 projT2 fst snd] in H. unfold lstep, gstep in Es.
  destruct c as [d|b i n|b i p m|i|i].
  - destruct (node_okb C d) eqn:En; [|discriminate].
    assert (Hn : node_ok C d).
    { apply node_okb_ok; auto. apply Hh. now left. }
    destruct (gcreate C d w) as [w' v|w' e| | |] eqn:Ec; try discriminate; injection Es as <-; unfold lstate_hist; cbn.
    + eapply lh_create; eauto.
    + eapply lh_create_throw; eauto.
  - destruct (user_guardb C i n w) eqn:En; [|discriminate]. apply user_guardb_ok in En.
    destruct (p_alloc (gvia b C i) n w) as [w' p|w' e| | |] eqn:Ea; try discriminate; injection Es as <-; unfold lstate_hist; cbn [projT1 projT2 fst snd].
    + destruct (Z.eqb_spec p 0) as [->|Hp]; [eapply lh_alloc_null; eauto|eapply lh_alloc; eauto].
    + eapply lh_alloc_throw; eauto.
  - destruct (take_block p (X i)) as [[n rest]|] eqn:Et; [|discriminate].
    apply take_block_split in Et as (l1 & l2 & E1 & ->).
    destruct (p_dealloc (gvia b C i) p m w) as [w' []|w' e| | |] eqn:Ed; try discriminate; injection Es as <-;
    unfold lstate_hist; cbn [projT1 projT2 fst snd]; [eapply lh_free; eauto|eapply lh_free_throw; eauto].
  - destruct (grelease C i w) as [w' []|w' e| | |] eqn:Ed; try discriminate; injection Es as <-; unfold lstate_hist; cbn [projT1 projT2 fst snd];
      [eapply lh_release; eauto|eapply lh_release_throw; eauto].
  - destruct (gcoalesce C i w) as [w' []|w' e| | |] eqn:Ed; try discriminate; injection Es as <-; unfold lstate_hist; cbn [projT1 projT2 fst snd];
      [eapply lh_coalesce; eauto|eapply lh_coalesce_throw; eauto].
Qed.

(** Whatever can be computed from the state a run ends in holds of some history. *)
Lemma lobs_hist (A : Type) orc l (f : forall C, gworld C -> holdings -> A) (v : A) :
  (forall c, In (LCreate c) l -> kind_heur_ok (nc_kind c)) ->
  match lrun l (gstart orc) with Some (existT _ C (w, X)) => Some (f C w X) | None => None end = Some v ->
  exists C w X, lhist C w X /\ f C w X = v.
Proof.
  intros Hh E. destruct (lrun l (gstart orc)) as [st|] eqn:Er; [|discriminate].
  assert (H : lstate_hist st) by (eapply lrun_hist; eauto; apply lh_start).
  destruct st as [C [w X]]. injection E as E. exists C, w, X. auto.
Qed.
