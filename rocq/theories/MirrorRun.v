(** Histories of device allocators, computed. *)
From Coq Require Import String Ascii.
From Verif Require Import Base DeviceModel MirrorModel MirrorSpec.

Inductive mop : Type := OMake (i size : Z) (name : string) | ODestroy | OSetUp (t : nat).

Definition mstate : Type := dworld * list dalloc * list Z * nat.

Fixpoint nodupb (l : list Z) : bool := match l with [] => true | x :: l => negb (existsb (Z.eqb x) l) && nodupb l end.
Definition apartb (w : dworld) : bool := nodupb (map fst (dw_live w)) && negb (existsb (Z.eqb 0) (map fst (dw_live w))).

Lemma existsb_in (x : Z) l : existsb (Z.eqb x) l = false -> ~ In x l.
Proof. intros E H. enough (existsb (Z.eqb x) l = true) by congruence. apply existsb_exists. exists x. split; [exact H|apply Z.eqb_refl]. Qed.
Lemma nodupb_ok l : nodupb l = true -> NoDup l.
Proof.
  induction l as [|x l IH]; [constructor|]. cbn [nodupb]. intros H. apply andb_prop in H as [A B]. constructor; [|auto]. apply existsb_in. now destruct (existsb (Z.eqb x) l).
Qed.
Lemma apartb_ok w : apartb w = true -> apart w.
Proof. unfold apartb. intros H. apply andb_prop in H as [A B]. split; [now apply nodupb_ok|]. apply existsb_in. now destruct (existsb (Z.eqb 0) _). Qed.

Section Run.
  Context (place : nat -> option Z) (fresh : Z -> list dalloc) (copy_ok : nat -> bool).

  Definition mstep (o : mop) (s : mstate) : option mstate :=
    let '(w, made, old, k) := s in
    match o with
    | OMake i size name =>
        match make place fresh copy_ok i size name w with
        | Ok w' d => if apartb w' then Some (w', d :: made, old, k) else None
        | Throw w' e => if apartb w' then Some (w', made, old, S k) else None
        | _ => None
        end
    | ODestroy => match dw_host w, destroy_all w with Some a, Ok w' _ => Some (w', [], a :: old, k) | _, _ => None end
    | OSetUp t => if Nat.eqb t 0 then None else Some (set_up copy_ok t w, made, old, k)
    end.
  Fixpoint mrun (l : list mop) (s : mstate) : option mstate :=
    match l with [] => Some s | o :: l => match mstep o s with Some s1 => mrun l s1 | None => None end end.

  Definition good (s : mstate) : Prop := let '(w, made, old, k) := s in mhist place fresh copy_ok w made old k.

  Lemma mstep_good o s s' : good s -> mstep o s = Some s' -> good s'.
  Proof.
    destruct s as [[[w made] old] k]. unfold good. intros H. destruct o as [i size name| |t]; cbn [mstep].
    - destruct (make place fresh copy_ok i size name w) as [w' d|w' e| | |] eqn:E; try discriminate; (destruct (apartb w') eqn:Ea; [|discriminate]); intros X; injection X as <-; apply apartb_ok in Ea;
        [exact (mh_make _ _ _ _ _ _ _ _ _ _ _ _ H E Ea)|exact (mh_throw _ _ _ _ _ _ _ _ _ _ _ _ H E Ea)].
    - destruct (dw_host w) as [a|] eqn:Eh; [|discriminate]. destruct (destroy_all w) as [w' []| | | |] eqn:E; try discriminate. intros X. injection X as <-. exact (mh_destroy _ _ _ _ _ _ _ _ _ H Eh E).
    - destruct (Nat.eqb t 0) eqn:E; [discriminate|]. intros X. injection X as <-. apply mh_set_up; [exact H|]. now apply Nat.eqb_neq.
  Qed.
  Lemma mrun_good l : forall s s', good s -> mrun l s = Some s' -> good s'.
  Proof.
    induction l as [|o l IH]; intros s s' H E; cbn [mrun] in E; [now injection E as <-|]. destruct (mstep o s) as [s1|] eqn:E1; [|discriminate]. exact (IH s1 s' (mstep_good o s s1 H E1) E).
  Qed.

  (** What is seen at the end of a history. *)
  Lemma mobs {A} (l : list mop) (f : dworld -> list dalloc -> list Z -> nat -> A) (v : A) :
    option_map (fun s : mstate => let '(w, made, old, k) := s in f w made old k) (mrun l (dw_init, [], [], 0%nat)) = Some v ->
    exists w made old k, mhist place fresh copy_ok w made old k /\ f w made old k = v.
  Proof.
    destruct (mrun l (dw_init, [], [], 0%nat)) as [[[[w made] old] k]|] eqn:E; [|discriminate]. cbn [option_map]. intros X. exists w, made, old, k. split; [|congruence].
    exact (mrun_good l (dw_init, [], [], 0%nat) (w, made, old, k) (mh_start _ _ _) E).
  Qed.
End Run.

Definition any_place (n : nat) : option Z := Some (1000 * (Z.of_nat n + 1)).
(** As [any_place], but the [m]th allocation is refused. *)
Definition but_place (m n : nat) : option Z := if Nat.eqb n m then None else any_place n.
Definition any_fresh (a : Z) : list dalloc := repeat (mkDA (mkEntry "-" 0 0) 0 0 0) 64.
Definition any_copy (n : nat) : bool := true.
Lemma any_blank : blank_arrays any_fresh.
Proof. intros a. split; [reflexivity|]. intros d H. apply repeat_spec in H. subst d. cbn. lia. Qed.

(** What the two sides answer, and whether the memory in the answer is in use. *)
Definition answer (o : outcome dworld dalloc) : option (string * bool) :=
  match o with
  | Ok w d => Some (e_name (da_entry d), existsb (fun x => fst x =? da_ptr d) (dw_live w))
  | _ => None
  end.
