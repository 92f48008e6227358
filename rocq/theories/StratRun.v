(** Running concrete call sequences on one strategy over malloc, used for the worked
    examples. *)
From Verif Require Import Base BaseFacts HeapModel HeapFacts StratModel StratSpec QuickPoolSpec.

Inductive scall : Type :=
| SAlloc (n : Z)
| SFree (p : Z)
| SRelease.

Section SRun.
  Context (S : Strat).

  Definition sstep (c : scall) (st : list ev * (st_ty S * heap)) : option (list ev * (st_ty S * heap)) :=
    let '(t, sw) := st in
    match c with
    | SAlloc n =>
        if (0 <? n) && (n <? M64) then
          match st_alloc S heap host n sw with
          | Ok sw' p => Some ((if p =? 0 then Null n else Got n p) :: t, sw')
          | Throw sw' _ => Some (Refused n :: t, sw')
          | _ => None
          end
        else None
    | SFree p =>
        match take_block p (live t) with
        | None => None
        | Some (n, _) =>
            match st_dealloc S heap host 0 p n sw with
            | Ok sw' _ => Some (Returned p n :: t, sw')
            | _ => None
            end
        end
    | SRelease =>
        match st_release S heap host sw with
        | Ok sw' _ => Some (Released :: t, sw')
        | _ => None
        end
    end.

  Fixpoint srun (l : list scall) (st : list ev * (st_ty S * heap)) : option (list ev * (st_ty S * heap)) :=
    match l with
    | [] => Some st
    | c :: l' => match sstep c st with None => None | Some st' => srun l' st' end
    end.

  (** The history that starts by constructing the strategy over an empty heap. *)
  Definition sfrom (orc : nat -> list region -> Z -> answer) (l : list scall) : option (list ev * (st_ty S * heap)) :=
    match st_make S heap host (mkHeap orc 0 [] []) with
    | Ok w s => srun l ([], (s, w))
    | _ => None
    end.

  Lemma srun_runs l : forall t sw t' sw', srun l (t, sw) = Some (t', sw') ->
    runs S host heap_inv t sw -> runs S host heap_inv t' sw'.
  Proof.
    induction l as [|c l IH]; intros t sw t' sw' E Hr; cbn [srun] in E.
    - injection E as <- <-. exact Hr.
    - destruct (sstep c (t, sw)) as [[t1 sw1]|] eqn:Es; [|discriminate]. apply (IH _ _ _ _ E). clear IH E l.
      destruct c as [n|p|]; cbn [sstep] in Es.
      + destruct ((0 <? n) && (n <? M64)) eqn:En; [|discriminate].
        apply andb_true_iff in En as [E1 E2]. apply Z.ltb_lt in E1, E2.
        destruct (st_alloc S heap host n sw) as [sw2 p|sw2 e| | |] eqn:Ea; try discriminate; injection Es as <- <-.
        * destruct (Z.eqb_spec p 0) as [->|Hp].
          -- apply (r_null _ _ _ t sw); auto.
          -- apply (r_got _ _ _ t sw); auto.
        * apply (r_refused _ _ _ t sw _ _ e); auto.
      + destruct (take_block p (live t)) as [[n l]|] eqn:Et; [|discriminate].
        destruct (st_dealloc S heap host 0 p n sw) as [sw2 []| | | |] eqn:Ed; try discriminate. injection Es as <- <-.
        apply (r_returned _ _ _ t sw 0); auto.
        apply take_block_some in Et. eapply Permutation_in; [apply Permutation_sym, Et|simpl; auto].
      + destruct (st_release S heap host sw) as [sw2 []| | | |] eqn:Ed; try discriminate. injection Es as <- <-.
        apply (r_released _ _ _ t sw); auto.
  Qed.

  Lemma sfrom_runs orc l t sw : sfrom orc l = Some (t, sw) -> runs S host heap_inv t sw.
  Proof.
    unfold sfrom. destruct (st_make S heap host (mkHeap orc 0 [] [])) as [w s| | | |] eqn:E; try discriminate.
    intros H. apply (srun_runs _ _ _ _ _ H). apply (r_start _ _ _ (mkHeap orc 0 [] []) w s); [|exact E].
    exists []. split; [constructor|]. split; [intros r []|exact I].
  Qed.
End SRun.

(** What an example shows: the events and the blocks taken from malloc. *)
Definition sobs {S : Strat} (o : option (list ev * (st_ty S * heap))) : option (list ev * list region) :=
  match o with Some (t, sw) => Some (t, h_live (snd sw)) | None => None end.

(** The events shown are those of a history. *)
Lemma sobs_runs {S : Strat} orc l t L : sobs (sfrom S orc l) = Some (t, L) -> exists sw, runs S host heap_inv t sw /\ h_live (snd sw) = L.
Proof.
  unfold sobs. destruct (sfrom S orc l) as [[t' sw]|] eqn:E; [|discriminate]. intros [= <- <-]. exists sw. split; [exact (sfrom_runs _ _ _ _ _ E)|reflexivity].
Qed.
