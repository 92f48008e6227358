(** Running concrete call sequences on a FixedMallocPool. *)
From Verif Require Import Base HeapModel HeapFacts FixedMallocPoolModel.

Inductive fmcall : Type := FAlloc | FFree (p : Z) | FWrite (p v : Z).

Section FRun.
  Context (obj per : Z).

  Fixpoint remove1 (p : Z) (l : list Z) : option (list Z) :=
    match l with
    | [] => None
    | x :: t => if x =? p then Some t else match remove1 p t with Some t' => Some (x :: t') | None => None end
    end.

  Definition fstep (c : fmcall) (st : list Z * (fmstate * heap)) : option (list Z * (fmstate * heap)) :=
    let '(A, sw) := st in
    match c with
    | FAlloc => match fm_allocate obj per host 2 sw with Ok sw' p => Some (p :: A, sw') | _ => None end
    | FFree p =>
        match remove1 p A with
        | Some A' => match fm_deallocate obj per p sw with Ok sw' _ => Some (A', sw') | _ => None end
        | None => None
        end
    | FWrite p v => if existsb (Z.eqb p) A then Some (A, (fm_write p v (fst sw), snd sw)) else None
    end.

  Fixpoint frun (l : list fmcall) (st : list Z * (fmstate * heap)) : option (list Z * (fmstate * heap)) :=
    match l with
    | [] => Some st
    | c :: l' => match fstep c st with None => None | Some st' => frun l' st' end
    end.

  Definition ffrom (orc : nat -> list region -> Z -> answer) (l : list fmcall) : option (list Z * (fmstate * heap)) :=
    match p_alloc host (w64 (obj * per)) (mkHeap orc 0 [] []) with
    | Ok _ _ => match fm_init obj per host (mkHeap orc 0 [] []) with
                | Ok w s => frun l ([], (s, w))
                | _ => None
                end
    | _ => None
    end.

  Notation Hist := (fmhist obj per host heap_inv 2).

  Lemma remove1_split p l l' : remove1 p l = Some l' -> exists a b, l = a ++ p :: b /\ l' = a ++ b.
  Proof.
    revert l'. induction l as [|x t IH]; cbn [remove1]; intros l' E; [discriminate|].
    destruct (Z.eqb_spec x p) as [->|_]; [injection E as <-; exists [], t; auto|].
    destruct (remove1 p t) as [t'|]; [|discriminate]. injection E as <-.
    destruct (IH _ eq_refl) as (a & b & -> & ->). exists (x :: a), b. auto.
  Qed.

  Lemma frun_hist l : forall A sw A' sw', frun l (A, sw) = Some (A', sw') -> Hist A (fst sw) (snd sw) -> Hist A' (fst sw') (snd sw').
  Proof.
    induction l as [|c l IH]; intros A sw A' sw' E H; cbn [frun] in E; [injection E as <- <-; exact H|].
    destruct (fstep c (A, sw)) as [[A1 sw1]|] eqn:Es; [|discriminate]. apply (IH _ _ _ _ E). clear IH E.
    destruct sw as [s w]. destruct c as [|p|p v]; cbn [fstep fst snd] in *.
    - destruct (fm_allocate obj per host 2 (s, w)) as [[s1 w1] p| | | |] eqn:Ea; try discriminate. injection Es as <- <-.
      cbn [fst snd]. econstructor; eauto.
    - destruct (remove1 p A) as [A2|] eqn:Er; [|discriminate].
      destruct (fm_deallocate obj per p (s, w)) as [[s1 w1] []| | | |] eqn:Ea; try discriminate. injection Es as <- <-.
      apply remove1_split in Er as (a & b & -> & ->). cbn [fst snd]. eapply fh_free; eauto.
    - destruct (existsb (Z.eqb p) A) eqn:Ex; [|discriminate]. injection Es as <- <-. cbn [fst snd]. apply fh_write; auto.
      apply existsb_exists in Ex as (q & Hq & Eq). apply Z.eqb_eq in Eq. now subst q.
  Qed.

  Lemma ffrom_hist orc l A sw : ffrom orc l = Some (A, sw) -> Hist A (fst sw) (snd sw).
  Proof.
    unfold ffrom. destruct (p_alloc host (w64 (obj * per)) (mkHeap orc 0 [] [])) as [w1 d| | | |] eqn:Ed; try discriminate.
    assert (Ei : fm_init obj per host (mkHeap orc 0 [] []) = Ok w1 (mkFmState [mkFm d d 0 per] fempty)).
    { unfold fm_init, fm_new_pool. rewrite Ed. reflexivity. }
    rewrite Ei. intros H. apply (frun_hist _ _ _ _ _ H). cbn [fst snd].
    eapply fh_start; [|exact Ed|exact Ei]. exists []. split; [constructor|]. split; [intros r []|exact I].
  Qed.

  Definition fobs (o : option (list Z * (fmstate * heap))) : option (list Z * list region) :=
    match o with Some (A, sw) => Some (A, h_live (snd sw)) | None => None end.
End FRun.
