(** Running concrete call sequences on a FixedSizePool over malloc. *)
From Verif Require Import Base HeapModel HeapFacts FixedPoolModel FixedMallocPoolRun BlockPoolModel.

Inductive bscall : Type := BAlloc | BFree (p : Z).

Section BRun.
  Context (obj : Z) (np : nat).

  Definition roomb (w : heap) : bool :=
    match p_alloc host (32 + Z.of_nat np * 4) w with
    | Ok w1 _ => match p_alloc host (Z.of_nat np * 32 * obj) w1 with Ok _ _ => true | _ => false end
    | _ => false
    end.

  Lemma roomb_ok w : roomb w = true -> room obj np host w.
  Proof.
    unfold roomb, room. destruct (p_alloc host (32 + Z.of_nat np * 4) w) as [w1 h| | | |]; try discriminate.
    destruct (p_alloc host (Z.of_nat np * 32 * obj) w1) as [w2 d| | | |] eqn:E; try discriminate. intros _.
    exists w1, h. split; [reflexivity|]. exists w2, d. exact E.
  Qed.

  Definition bstep (c : bscall) (st : list Z * (bstate * heap)) : option (list Z * (bstate * heap)) :=
    let '(A, sw) := st in
    match c with
    | BAlloc =>
        if (Z.of_nat (length A) <? Z.of_nat np * 32 * bs_num_pools (fst sw)) || roomb (snd sw)
        then match bs_allocate obj np host 2 sw with Ok sw' p => Some (p :: A, sw') | _ => None end
        else None
    | BFree p =>
        match remove1 p A with
        | Some A' => match bs_deallocate obj np p sw with Ok sw' _ => Some (A', sw') | _ => None end
        | None => None
        end
    end.

  Fixpoint brun (l : list bscall) (st : list Z * (bstate * heap)) : option (list Z * (bstate * heap)) :=
    match l with
    | [] => Some st
    | c :: l' => match bstep c st with None => None | Some st' => brun l' st' end
    end.

  Definition bfrom (orc : nat -> list region -> Z -> answer) (l : list bscall) : option (list Z * (bstate * heap)) :=
    if roomb (mkHeap orc 0 [] [])
    then match bs_init obj np host (mkHeap orc 0 [] []) with
         | Ok w s => brun l ([], (s, w))
         | _ => None
         end
    else None.

  Notation Hist := (bshist obj np host heap_inv 2).

  Lemma brun_hist l : forall A sw A' sw', brun l (A, sw) = Some (A', sw') -> Hist A (fst sw) (snd sw) -> Hist A' (fst sw') (snd sw').
  Proof.
    induction l as [|c l IH]; intros A sw A' sw' E H; cbn [brun] in E; [injection E as <- <-; exact H|].
    destruct (bstep c (A, sw)) as [[A1 sw1]|] eqn:Es; [|discriminate]. apply (IH _ _ _ _ E). clear IH E.
    destruct sw as [s w]. destruct c as [|p]; cbn [bstep fst snd] in *.
    - destruct (_ || _) eqn:Er; [|discriminate].
      destruct (bs_allocate obj np host 2 (s, w)) as [[s1 w1] p| | | |] eqn:Ea; try discriminate. injection Es as <- <-.
      cbn [fst snd]. eapply bh_alloc; eauto. apply orb_true_iff in Er as [Er|Er]; [left; lia|right; now apply roomb_ok].
    - destruct (remove1 p A) as [A2|] eqn:Er; [|discriminate].
      destruct (bs_deallocate obj np p (s, w)) as [[s1 w1] []| | | |] eqn:Ea; try discriminate. injection Es as <- <-.
      apply remove1_split in Er as (a & b & -> & ->). cbn [fst snd]. eapply bh_free; eauto.
  Qed.

  Lemma bfrom_hist orc l A sw : bfrom orc l = Some (A, sw) -> Hist A (fst sw) (snd sw).
  Proof.
    unfold bfrom. destruct (roomb _) eqn:Er; [|discriminate].
    destruct (bs_init obj np host (mkHeap orc 0 [] [])) as [w1 s| | | |] eqn:Ei; try discriminate.
    intros H. apply (brun_hist _ _ _ _ _ H). cbn [fst snd].
    eapply bh_start; [|apply roomb_ok, Er|exact Ei]. exists []. split; [constructor|]. split; [intros r []|exact I].
  Qed.
End BRun.
