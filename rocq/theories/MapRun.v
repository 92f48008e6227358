(** Executing histories of the pointer map and the allocation map. *)
From Verif Require Import Base MapModel MapSpec MapFacts MapThms JudyModel AllocMapThms.

Definition in_space (k : Z) : bool := (0 <=? k) && (k <? M64).

Lemma in_space_ok k : in_space k = true -> addr_ok k.
Proof. unfold in_space, addr_ok. intros H. apply andb_true_iff in H as [H1 H2]. lia. Qed.

Section Run.
  Context (okb : Z -> bool).

  (** Inserts and removals of an allocation map. *)
  Fixpoint arun (l : list acall) (s : registry * amap (judy_array (list arec))) : option (registry * amap (judy_array (list arec))) :=
    match l with
    | [] => Some s
    | AInsert k r :: t =>
        if in_space k && okb k then
          match am_insert _ k r (snd s) with Ok a _ => arun t ((k, r) :: fst s, a) | _ => None end
        else None
    | ARemove k :: t =>
        if in_space k then
          match am_remove _ k (snd s) with Ok a _ | Throw a _ => arun t (drop_newest k (fst s), a) | _ => None end
        else None
    | _ => None
    end.

  Definition aobs {A} (l : list acall) (f : registry -> amap (judy_array (list arec)) -> option A) : option A :=
    match arun l ([], am_init _) with Some s => f (fst s) (snd s) | None => None end.

  Context (ok : (Z -> Prop) -> Prop) (Hok : forall P : Z -> Prop, (forall x, P x -> okb x = true) -> ok P).

  Lemma drop_In x k g : In x (drop_newest k g) -> In x g.
  Proof.
    induction g as [|y g IH]; [auto|]. cbn [drop_newest]. destruct (fst y =? k); simpl; auto. intros [H|H]; auto.
  Qed.

  Lemma arun_hist l : forall s s', ahist _ ok s -> (forall x, registered (fst s) x -> okb x = true) -> arun l s = Some s' -> ahist _ ok s'.
  Proof.
    induction l as [|c l IH]; intros [g a] s' Hh Hr E; [injection E as <-; exact Hh|]. destruct c as [k r|k| | | | | ]; try discriminate; cbn [arun fst snd] in E.
    - destruct (in_space k) eqn:E1; [|discriminate]. destruct (okb k) eqn:E2; [|discriminate]. cbn [andb] in E. apply in_space_ok in E1.
      destruct (am_insert (judy_array (list arec)) k r a) as [a' []| | | |] eqn:Ei; try discriminate.
      assert (Hr' : forall x, registered ((k, r) :: g) x -> okb x = true) by (intros x [<-|Hx]; auto).
      apply IH in E; auto. eapply ah_step; [exact Hh|eapply (as_insert _ k r g a a' E1)|]; [now rewrite Ei|apply Hok, Hr'].
    - destruct (in_space k) eqn:E1; [|discriminate]. apply in_space_ok in E1.
      assert (Hr' : forall x, registered (drop_newest k g) x -> okb x = true).
      { intros x Hx. apply Hr. unfold registered in *. apply in_map_iff in Hx as (y & <- & Hy). apply in_map. eapply drop_In, Hy. }
      destruct (am_remove (judy_array (list arec)) k a) as [a' r|a' e| | |] eqn:Ei; try discriminate; apply IH in E; auto;
        (eapply ah_step; [exact Hh|eapply (as_remove _ k g a a' E1)|]; [now rewrite Ei|apply Hok, Hr']).
  Qed.

  Lemma aobs_hist {A} l (f : registry -> amap (judy_array (list arec)) -> option A) x : aobs l f = Some x ->
    exists g a, ahist _ ok (g, a) /\ f g a = Some x.
  Proof.
    unfold aobs. destruct (arun l ([], am_init _)) as [[g a]|] eqn:E; [|discriminate]. intros Hf. exists g, a. split; auto.
    apply (arun_hist l ([], am_init _)); [constructor|intros y []|exact E].
  Qed.
End Run.

Section MRun.
  Context (okb : Z -> bool).
  Notation J := (judy_array Z).

  Fixpoint mrun (l : list (@mcall Z)) (s : mstate J) : option (mstate J) :=
    match l with
    | [] => Some s
    | MInsert k v :: t =>
        if in_space k && okb k then
          let '(mm, _, _) := mm_insert J k v (ms_map J s) in
          mrun t (mkMS J (match ms_spec J s k with Some _ => ms_spec J s | None => fset (ms_spec J s) k v end) mm (ms_its J s))
        else None
    | MErase k :: t =>
        if in_space k then
          match mm_erase J k (ms_map J s) with
          | Ok mm _ => mrun t (mkMS J (fdel (ms_spec J s) k) mm (ms_its J s))
          | _ => None
          end
        else None
    | MBegin a :: t =>
        if a =? 0 then None else
          let '(mm, it) := mi_begin J a (ms_map J s) in mrun t (mkMS J (ms_spec J s) mm (fset (ms_its J s) a it))
    | MNext a :: t =>
        match ms_its J s a with
        | Some it => if it_key it =? 0 then None else
            let '(mm, it') := mi_next J it (ms_map J s) in mrun t (mkMS J (ms_spec J s) mm (fset (ms_its J s) a it'))
        | None => None
        end
    | _ => None
    end.

  Definition mobs {A} (l : list mcall) (f : mstate J -> option A) : option A :=
    match mrun l (ms_init J) with Some s => f s | None => None end.

  Context (ok : (Z -> Prop) -> Prop) (Hok : forall P : Z -> Prop, (forall x, P x -> okb x = true) -> ok P).

  Lemma mrun_hist l : forall s s', mhist J ok s -> (forall x, dom (ms_spec J s) x -> okb x = true) -> mrun l s = Some s' -> mhist J ok s'.
  Proof.
    induction l as [|c l IH]; intros [m mm its] s' Hh Hr E; [injection E as <-; exact Hh|]. cbn [ms_spec] in Hr.
    destruct c as [k v| | |k| |a|a| ]; try discriminate; cbn [mrun ms_spec ms_map ms_its] in E.
    - destruct (in_space k) eqn:E1; [|discriminate]. destruct (okb k) eqn:E2; [|discriminate]. cbn [andb] in E. apply in_space_ok in E1.
      destruct (mm_insert J k v mm) as [[mm' kv] b] eqn:Ei.
      assert (Hr' : forall x, dom (match m k with Some _ => m | None => fset m k v end) x -> okb x = true).
      { intros x Hx. destruct (m k); auto. unfold dom, fset in Hx. destruct (Z.eqb_spec x k) as [Ex|]; [rewrite Ex|]; auto. }
      eapply IH; [| |exact E]; [|exact Hr']. eapply mh_step; [exact Hh|eapply (ms_insert J k v m mm its mm' kv b E1 Ei)|]. apply Hok, Hr'.
    - destruct (in_space k) eqn:E1; [|discriminate]. apply in_space_ok in E1. destruct (mm_erase J k mm) as [mm' []| | | |] eqn:Ei; try discriminate.
      assert (Hr' : forall x, dom (fdel m k) x -> okb x = true).
      { intros x Hx. apply Hr. unfold dom, fdel in *. destruct (x =? k); congruence. }
      eapply IH; [| |exact E]; [|exact Hr']. eapply mh_step; [exact Hh|eapply (ms_erase J k m mm its mm' E1 Ei)|]. apply Hok, Hr'.
    - destruct (Z.eqb_spec a 0); [discriminate|]. destruct (mi_begin J a mm) as [mm' it] eqn:Ei. eapply IH; [| |exact E]; [|exact Hr].
      eapply mh_step; [exact Hh|eapply (ms_begin J a m mm its mm' it); auto|]. apply Hok, Hr.
    - destruct (its a) as [it|] eqn:Ea; [|discriminate]. destruct (Z.eqb_spec (it_key it) 0); [discriminate|]. destruct (mi_next J it mm) as [mm' it'] eqn:Ei.
      eapply IH; [| |exact E]; [|exact Hr]. eapply mh_step; [exact Hh|eapply (ms_next J a m mm its mm' it it'); auto|]. apply Hok, Hr.
  Qed.

  Lemma mobs_hist {A} l (f : mstate J -> option A) x : mobs l f = Some x -> exists s, mhist J ok s /\ f s = Some x.
  Proof.
    unfold mobs. destruct (mrun l (ms_init J)) as [s|] eqn:E; [|discriminate]. intros Hf. exists s. split; auto.
    apply (mrun_hist l (ms_init J)); [constructor|intros y Hy; elim Hy; reflexivity|exact E].
  Qed.
End MRun.
