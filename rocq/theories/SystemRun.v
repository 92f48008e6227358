(** Running concrete histories of the whole system, used for the worked examples. *)
From Verif Require Import Base BaseFacts HeapModel StratModel WrapModel QuickPoolModel GlobalModel GlobalSpec GlobalRun
  MapModel MapSpec MapThms JudyModel MapMain MapRun SystemModel SystemSpec.

Inductive ycall : Type :=
| YCreate (c : nodecfg)
| YAlloc (i : nat) (n : Z)
| YFree (i : nat) (p : Z)
| YRmFree (p : Z)
| YRelease (i : nat)
| YCoalesce (i : nat).

Definition ystate : Type := {C : list nodecfg & (sworld JR (C ++ boot) * list arec * list nat * list snapshot)%type}.

Definition usableb (C : list nodecfg) (i : nat) : bool := Nat.eqb i host_id || (Nat.leb 4 i && Nat.leb i (length C)).

Section Run.
  (** [okb]: addresses that may be in use. *)
  Context (okb : Z -> bool).

  Definition ystep (c : ycall) (st : ystate) : option ystate :=
    let '(existT _ C (sw, g, q, t)) := st in
    let next sw' g' := Some (existT (fun C => (sworld JR (C ++ boot) * list arec * list nat * list snapshot)%type) C
                               (sw', g', q, snap (C ++ boot) (fst sw') :: t)) in
    match c with
    | YCreate d =>
        if node_okb (C ++ boot) d && usableb (C ++ boot) (nc_parent d) then
          match gcreate (C ++ boot) d (fst sw) with
          | Ok _ v => Some (existT _ (d :: C) ((v, snd sw), g, nc_parent d :: q, snap ((d :: C) ++ boot) v :: t))
          | Throw w' _ => Some (existT _ C ((w', snd sw), g, nc_parent d :: q, snap (C ++ boot) w' :: t))
          | _ => None
          end
        else None
    | YAlloc i n =>
        if usableb (C ++ boot) i && ((n =? 0) || user_guardb (C ++ boot) i n (fst sw)) then
          match sys_allocate JR (C ++ boot) i n 0 sw with
          | Ok sw' p => if okb p then next sw' (mkRec p n (Z.of_nat i) 0 :: g) else None
          | Throw sw' _ => next sw' g
          | _ => None
          end
        else None
    | YFree i p =>
        if usableb (C ++ boot) i && in_space p then
          match sys_deallocate JR (C ++ boot) i p sw with
          | Ok sw' _ => next sw' (forget p g)
          | Throw sw' _ => next sw' (gone i p g)
          | _ => None
          end
        else None
    | YRmFree p =>
        if in_space p then
          match rm_deallocate JR (C ++ boot) p sw with
          | Ok sw' _ | Throw sw' _ => next sw' (forget p g)
          | _ => None
          end
        else None
    | YRelease i =>
        if usableb (C ++ boot) i then
          match sys_release JR (C ++ boot) i sw with
          | Ok sw' _ | Throw sw' _ => next sw' g
          | _ => None
          end
        else None
    | YCoalesce i =>
        if usableb (C ++ boot) i then
          match sys_coalesce JR (C ++ boot) i sw with
          | Ok sw' _ | Throw sw' _ => next sw' g
          | _ => None
          end
        else None
    end.

  Fixpoint yrun (l : list ycall) (st : ystate) : option ystate :=
    match l with
    | [] => Some st
    | c :: l' => match ystep c st with None => None | Some st' => yrun l' st' end
    end.

  Definition ystart (orc : nat -> list region -> Z -> answer) : option ystate :=
    match gcreate [] (mkNode KPassThrough 0) (stats0, mkHeap orc 0 [] []) with
    | Ok _ v1 =>
        match gcreate _ (mkNode KPassThrough 0) v1 with
        | Ok _ v2 =>
            match gcreate _ (mkNode (KFixed 1 2048 2) null_id) v2 with
            | Ok _ v3 => Some (existT _ [] ((v3, am_init JR), [], [null_id; 0%nat], [snap boot v3]))
            | _ => None
            end
        | _ => None
        end
    | _ => None
    end.

  Definition yobs {A : Type} orc (l : list ycall)
    (f : forall C, sworld JR (C ++ boot) -> list arec -> list nat -> list snapshot -> option A) : option A :=
    match ystart orc with
    | Some st => match yrun l st with
                 | Some (existT _ C (sw, g, q, t)) => f C sw g q t
                 | None => None
                 end
    | None => None
    end.

  Context (ok : (Z -> Prop) -> Prop) (Hokb : forall P : Z -> Prop, (forall x, P x -> okb x = true) -> ok P).

  Definition ygood (st : ystate) : Prop :=
    let '(existT _ C (sw, g, q, t)) := st in shist JR ok C sw g q t /\ forall r, In r g -> okb (r_ptr r) = true.

  Lemma usableb_ok C i : usableb C i = true -> usable C i.
  Proof.
    unfold usableb, usable. intros H. apply orb_true_iff in H as [H|H]; [apply Nat.eqb_eq in H; auto|].
    apply andb_true_iff in H as [H1 H2]. apply Nat.leb_le in H1, H2. auto.
  Qed.

  Lemma forget_sub p g r : In r (forget p g) -> In r g.
  Proof. induction g as [|x g IH]; cbn [forget]; [auto|]. destruct (r_ptr x =? p); [now right|]. intros [->|H]; [now left|right; auto]. Qed.
  Lemma gone_sub i p g r : In r (gone i p g) -> In r g.
  Proof. induction g as [|x g IH]; cbn [gone]; [auto|]. destruct (_ && _); cbn [In]; intuition. Qed.

  Lemma ystep_good c st st' : (forall d, c = YCreate d -> kind_heur_ok (nc_kind d)) -> ystep c st = Some st' -> ygood st -> ygood st'.
  Proof.
    intros Hc E HG. destruct st as [C [[[sw g] q] t]]. destruct HG as [Hh Hg]. unfold ystep in E.
    destruct c as [d|i n|i p|p|i|i].
    - destruct (node_okb (C ++ boot) d) eqn:E1; [|discriminate]. destruct (usableb (C ++ boot) (nc_parent d)) eqn:E2; [|discriminate].
      cbn [andb] in E. apply (node_okb_ok _ _ (Hc d eq_refl)) in E1. apply usableb_ok in E2. destruct sw as [w a]. cbn [fst snd] in E.
      destruct (gcreate (C ++ boot) d w) as [w' v|w' e| | |] eqn:Ec; try discriminate; injection E as <-; (split; [|exact Hg]).
      + eapply sh_create; eauto.
      + eapply sh_create_throw; eauto.
    - destruct (usableb (C ++ boot) i) eqn:E1; [|discriminate]. cbn [andb] in E. apply usableb_ok in E1.
      destruct ((n =? 0) || user_guardb (C ++ boot) i n (fst sw))%bool eqn:E2; [|discriminate].
      assert (Hn : n = 0 \/ user_guard (C ++ boot) i n (fst sw)).
      { apply orb_true_iff in E2 as [E2|E2]; [left; lia|right; now apply user_guardb_ok]. }
      destruct (sys_allocate JR (C ++ boot) i n 0 sw) as [sw' p|sw' e| | |] eqn:Ea; try discriminate.
      + destruct (okb p) eqn:Eo; [|discriminate]. injection E as <-.
        assert (Hg' : forall r, In r (mkRec p n (Z.of_nat i) 0 :: g) -> okb (r_ptr r) = true) by (intros r [<-|Hr]; auto).
        split; [|exact Hg']. eapply sh_alloc; eauto. apply Hokb. intros x (r & Hr & <-). auto.
      + injection E as <-. split; [|exact Hg]. eapply sh_alloc_throw; eauto.
    - destruct (usableb (C ++ boot) i) eqn:E1; [|discriminate]. cbn [andb] in E. apply usableb_ok in E1.
      destruct (in_space p) eqn:E2; [|discriminate]. apply in_space_ok in E2.
      destruct (sys_deallocate JR (C ++ boot) i p sw) as [sw' []|sw' e| | |] eqn:Ea; try discriminate; injection E as <-.
      + split; [eapply sh_free; eauto|]. intros r Hr. apply Hg. eapply forget_sub; eauto.
      + split; [eapply sh_free_throw; eauto|]. intros r Hr. apply Hg. eapply gone_sub; eauto.
    - destruct (in_space p) eqn:E2; [|discriminate]. apply in_space_ok in E2.
      destruct (rm_deallocate JR (C ++ boot) p sw) as [sw' []|sw' e| | |] eqn:Ea; try discriminate; injection E as <-.
      + split; [eapply sh_rm_free; eauto|]. intros r Hr. apply Hg. eapply forget_sub; eauto.
      + split; [eapply sh_rm_free_throw; eauto|]. intros r Hr. apply Hg. eapply forget_sub; eauto.
    - destruct (usableb (C ++ boot) i) eqn:E1; [|discriminate]. apply usableb_ok in E1.
      destruct (sys_release JR (C ++ boot) i sw) as [sw' []|sw' e| | |] eqn:Ea; try discriminate; injection E as <-;
        (split; [|exact Hg]); eapply sh_release; eauto; rewrite Ea; reflexivity.
    - destruct (usableb (C ++ boot) i) eqn:E1; [|discriminate]. apply usableb_ok in E1.
      destruct (sys_coalesce JR (C ++ boot) i sw) as [sw' []|sw' e| | |] eqn:Ea; try discriminate; injection E as <-;
        (split; [|exact Hg]); eapply sh_coalesce; eauto; rewrite Ea; reflexivity.
  Qed.

  Lemma yrun_good l : (forall d, In (YCreate d) l -> kind_heur_ok (nc_kind d)) ->
    forall st st', yrun l st = Some st' -> ygood st -> ygood st'.
  Proof.
    induction l as [|c l IH]; intros Hc st st' E HG; cbn [yrun] in E; [injection E as <-; exact HG|].
    destruct (ystep c st) as [st1|] eqn:Es; [|discriminate].
    refine (IH _ st1 st' E _); [intros d Hd; apply Hc; now right|].
    eapply ystep_good; eauto. intros d ->. apply Hc. now left.
  Qed.

  Lemma yobs_hist {A} orc l f (x : A) : (forall d, In (YCreate d) l -> kind_heur_ok (nc_kind d)) -> yobs orc l f = Some x ->
    exists C sw g q t, shist JR ok C sw g q t /\ f C sw g q t = Some x.
  Proof.
    intros Hc E. unfold yobs in E. destruct (ystart orc) as [st|] eqn:Es; [|discriminate].
    destruct (yrun l st) as [[C [[[sw g] q] t]]|] eqn:Er; [|discriminate].
    assert (HG : ygood st).
    { unfold ystart in Es.
      destruct (gcreate [] (mkNode KPassThrough 0) (stats0, mkHeap orc 0 [] [])) as [h1 v1| | | |] eqn:E1; try discriminate.
      destruct (gcreate _ (mkNode KPassThrough 0) v1) as [h2 v2| | | |] eqn:E2; try discriminate.
      destruct (gcreate _ (mkNode (KFixed 1 2048 2) null_id) v2) as [h3 v3| | | |] eqn:E3; try discriminate.
      injection Es as <-. split; [eapply sh_start; eauto|intros r []]. }
    pose proof (yrun_good l Hc _ _ Er HG) as [Hh _]. exists C, sw, g, q, t. auto.
  Qed.
End Run.

Definition any_addr (x : Z) : bool := true.
Lemma any_addr_ok (P : Z -> Prop) : (forall x, P x -> any_addr x = true) -> any_keys P.
Proof. intros _. exact I. Qed.
Definition addr16 (x : Z) : bool := x mod 16 =? 0.
Lemma addr16_ok (P : Z -> Prop) : (forall x, P x -> addr16 x = true) -> aligned16 P.
Proof. intros H x Hx. specialize (H x Hx). unfold addr16 in H. apply Z.mod_divide; lia. Qed.

(** Statistics of the allocators 0, 1, 2, ... as the program reads them, and its live allocations. *)
Definition yview (C : list nodecfg) (sw : sworld JR (C ++ boot)) (g : list arec) (q : list nat) (t : list snapshot)
  : option (list (Z * Z * Z) * list (Z * Z * Z)) :=
  Some (map (fun i => (current_size (C ++ boot) i (fst sw), high_watermark (C ++ boot) i (fst sw), allocation_count (C ++ boot) i (fst sw)))
            (seq 0 (S (length (C ++ boot)))),
        map (fun r => (r_strat r, r_ptr r, r_size r)) g).
