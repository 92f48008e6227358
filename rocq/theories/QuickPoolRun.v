(** Running concrete call sequences on a pool, used for the worked examples. *)
From Verif Require Import Base BaseFacts AlignedModel HeapModel HeapFacts QuickPoolModel QuickPoolSpec.

Inductive call : Type :=
| CAlloc (n : Z)
| CFree (p : Z)
| CRelease
| CCoalesce.

Definition cstate : Type := (list region * (qpool * heap) * list qpool)%type.

Section Run.
  Context (cfg : qcfg) (fuel : nat).

  Definition cstep (c : call) (st : cstate) : option cstate :=
    let '(U, sw, H) := st in
    match c with
    | CAlloc n =>
        if (0 <? n) && (n <=? M64 - 1 - 2 * cf_align cfg) then
          match q_allocate host cfg n sw with
          | Ok sw' p => Some ((p, n) :: U, sw', fst sw' :: H)
          | Throw sw' _ => Some (U, sw', fst sw' :: H)
          | _ => None
          end
        else None
    | CFree p =>
        match take_block p U with
        | None => None
        | Some (_, U') =>
            match q_deallocate host cfg fuel p sw with
            | Ok sw' _ => Some (U', sw', fst sw' :: H)
            | _ => None
            end
        end
    | CRelease =>
        match q_release host sw with
        | Ok sw' _ => Some (U, sw', fst sw' :: H)
        | _ => None
        end
    | CCoalesce =>
        match q_coalesce host cfg fuel sw with
        | Ok sw' _ => Some (U, sw', fst sw' :: H)
        | _ => None
        end
    end.

  Fixpoint crun (l : list call) (st : cstate) : option cstate :=
    match l with
    | [] => Some st
    | c :: t => match cstep c st with None => None | Some st' => crun t st' end
    end.

  Definition cinit (orc : nat -> list region -> Z -> answer) : cstate :=
    ([], (q_init, mkHeap orc 0 [] []), [q_init]).

  Lemma cstep_hstep (Inv : heap -> list region -> Prop) c U sw H U' sw' H' :
    cstep c (U, sw, H) = Some (U', sw', H') ->
    hstep host cfg fuel (M64 - 1 - 2 * cf_align cfg) Inv (U, sw) (U', sw') /\ H' = fst sw' :: H.
  Proof.
    destruct c as [n|p| |]; cbn [cstep].
    - destruct ((0 <? n) && (n <=? M64 - 1 - 2 * cf_align cfg)) eqn:E; [|discriminate].
      apply andb_true_iff in E as [E1 E2]. apply Z.ltb_lt in E1. apply Z.leb_le in E2.
      destruct (q_allocate host cfg n sw) as [sw1 p|sw1 e| | |] eqn:Ea; try discriminate; intros X; inversion X; subst.
      + split; auto. now apply hs_alloc.
      + split; auto. now apply (hs_alloc_fail _ _ _ _ _ U' sw n sw' e).
    - destruct (take_block p U) as [[n t]|] eqn:E; [|discriminate].
      destruct (q_deallocate host cfg fuel p sw) as [sw1 []|sw1 e| | |] eqn:Ea; try discriminate; intros X; inversion X; subst.
      split; auto. apply (hs_free _ _ _ _ _ U U' sw p n sw'); [now apply take_block_some|exact Ea].
    - destruct (q_release host sw) as [sw1 []|sw1 e| | |] eqn:Ea; try discriminate; intros X; inversion X; subst.
      split; auto. now apply hs_release.
    - destruct (q_coalesce host cfg fuel sw) as [sw1 []|sw1 e| | |] eqn:Ea; try discriminate; intros X; inversion X; subst.
      split; auto. now apply hs_coalesce.
  Qed.

  Lemma crun_hist (Inv : heap -> list region -> Prop) l : forall U sw H U' sw' H',
    crun l (U, sw, H) = Some (U', sw', H') ->
    hist host cfg fuel (M64 - 1 - 2 * cf_align cfg) Inv U sw H ->
    hist host cfg fuel (M64 - 1 - 2 * cf_align cfg) Inv U' sw' H'.
  Proof.
    induction l as [|c l IH]; intros U sw H U' sw' H' E Hh; cbn [crun] in E.
    - inversion E; subst. exact Hh.
    - destruct (cstep c (U, sw, H)) as [[[U1 sw1] H1]|] eqn:Ec; [|discriminate].
      destruct (cstep_hstep Inv _ _ _ _ _ _ _ Ec) as [Hs ->].
      eapply IH; [exact E|]. eapply hist_step; eauto.
  Qed.

  (** Whatever the concrete run reaches is reachable. *)
  Lemma crun_reaches (Inv : heap -> list region -> Prop) orc l U sw H :
    Inv (mkHeap orc 0 [] []) [] -> crun l (cinit orc) = Some (U, sw, H) ->
    hist host cfg fuel (M64 - 1 - 2 * cf_align cfg) Inv U sw H.
  Proof. intros HI E. eapply crun_hist; [exact E|]. now apply hist_init. Qed.
End Run.

(** An oracle that places every block above all live ones, leaving one byte of slack
    below the alignment of malloc. *)
Definition bump : nat -> list region -> Z -> answer :=
  fun _ live _ =>
    Addr (16 * (fold_right (fun r m => Z.max (fst r + snd r) m) 0 live / 16 + 1)).

(** The same, but failing at the listed request numbers. *)
Definition bump_failing (bad : list nat) : nat -> list region -> Z -> answer :=
  fun k live n => if existsb (Nat.eqb k) bad then Fail true else bump k live n.
