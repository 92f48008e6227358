(** Executable histories of the shared memory segment. *)
From Coq Require Import String Ascii.
From Verif Require Import Base SegModel SegSpec.

Inductive scall : Type := SAlloc (n : string) (req : Z) | SFree (p : Z).

Definition ask_okb (G : list live) (n : string) (req : Z) : bool :=
  negb (existsb (Ascii.eqb zero) (list_ascii_of_string n)) && (Z.of_nat (String.length n) <? SEG_LIM) && (0 <=? req) && (req <? SEG_LIM) &&
  forallb (fun e => negb (named n e) || (l_refs e <? M64 - 1)) G.

Definition sstep (c : scall) (s : segment * list live) : option (segment * list live) :=
  let '(st, G) := s in
  match c with
  | SAlloc n req =>
      if ask_okb G n req then
        match allocate_named n req st with
        | Ok st' p => Some (st', note_alloc n p (sg_actual st' - sg_actual st) req G)
        | Throw st' _ => Some (st', G)
        | _ => None
        end
      else None
  | SFree p =>
      if existsb (at_off p) G then match seg_deallocate p st with Ok st' _ => Some (st', note_free p G) | _ => None end else None
  end.
Fixpoint ssteps (cs : list scall) (s : segment * list live) : option (segment * list live) :=
  match cs with
  | [] => Some s
  | c :: cs => match sstep c s with Some s => ssteps cs s | None => None end
  end.

Lemma ask_okb_ok G n req : ask_okb G n req = true -> ask_ok G n req.
Proof.
  unfold ask_okb, ask_ok, c_name. intros H. apply andb_prop in H as [H H5]. apply andb_prop in H as [H H4]. apply andb_prop in H as [H H3]. apply andb_prop in H as [H1 H2].
  split; [|split; [lia|split; [lia|]]].
  - intros Hi. apply negb_true_iff in H1. enough (existsb (Ascii.eqb zero) (list_ascii_of_string n) = true) by congruence. apply existsb_exists. exists zero. split; [exact Hi|apply Ascii.eqb_refl].
  - intros e He En. rewrite forallb_forall in H5. specialize (H5 e He). unfold named in H5. rewrite En, String.eqb_refl in H5. cbn [negb orb] in H5. lia.
Qed.
Lemma sstep_hist size c st G st' G' : seghist size st G -> sstep c (st, G) = Some (st', G') -> seghist size st' G'.
Proof.
  intros H. destruct c as [n req|p]; cbn [sstep].
  - destruct (ask_okb G n req) eqn:Ea; [|discriminate]. apply ask_okb_ok in Ea. destruct (allocate_named n req st) as [s p|s e| | |] eqn:E; try discriminate; intros [= <- <-].
    + exact (gh_alloc size st G n req s p H Ea E).
    + exact (gh_fail size st G n req s e H Ea E).
  - destruct (existsb (at_off p) G) eqn:Ea; [|discriminate]. apply existsb_exists in Ea as (e & He & Ea). destruct (seg_deallocate p st) as [s []|s e'| | |] eqn:E; try discriminate. intros [= <- <-].
    apply (gh_free size st G p s H); [|exact E]. exists e. split; [exact He|]. unfold at_off in Ea. lia.
Qed.
Lemma ssteps_hist size cs : forall st G st' G', seghist size st G -> ssteps cs (st, G) = Some (st', G') -> seghist size st' G'.
Proof.
  induction cs as [|c cs IH]; intros st G st' G' H; cbn [ssteps]; [intros [= <- <-]; exact H|].
  destruct (sstep c (st, G)) as [[s g]|] eqn:E; [|discriminate]. apply IH. exact (sstep_hist size c st G s g H E).
Qed.
(** Running a list of calls from the start and looking at the result. *)
Lemma sobs_hist {A} size cs (f : segment -> list live -> A) v :
  option_map (fun s => f (fst s) (snd s)) (ssteps cs (seg_init size, [])) = Some v -> exists st G, seghist size st G /\ f st G = v.
Proof.
  destruct (ssteps cs (seg_init size, [])) as [[st G]|] eqn:E; [|discriminate]. cbn. intros [= H]. exists st, G. split; [|exact H].
  exact (ssteps_hist size cs _ _ _ _ (gh_start size) E).
Qed.
