(** Running concrete histories with external registrations, used for the worked examples. *)
From Verif Require Import Base BaseFacts HeapModel StratModel WrapModel QuickPoolModel GlobalModel GlobalSpec GlobalRun
  MapModel MapSpec MapThms JudyModel MapMain MapRun SystemModel SystemSpec SystemRun ExtModel ExtSpec.

Inductive xcall : Type :=
| XRegister (k : Z) (r : arec)
| XDeregister (k : Z).

Section Run.
  (** [okb]: addresses that may be in use. *)
  Context (okb : Z -> bool).

  Definition keyedb (g : list arec) (k : Z) : bool := existsb (fun r => r_ptr r =? k) g.

  Fixpoint xrun (C : list nodecfg) (l : list xcall) (sw : sworld JR (C ++ boot)) (g : list arec) (x : registry) :
    option (sworld JR (C ++ boot) * registry) :=
    match l with
    | [] => Some (sw, x)
    | XRegister k r :: l =>
        if in_space k && negb (keyedb g k) && okb k then
          match ext_register JR (C ++ boot) false k r sw with
          | Ok sw' _ => xrun C l sw' g ((k, r) :: x)
          | _ => None
          end
        else None
    | XDeregister k :: l =>
        if in_space k && negb (keyedb g k) then
          match ext_deregister JR (C ++ boot) k sw with
          | Ok sw' _ | Throw sw' _ => xrun C l sw' g (drop_newest k x)
          | _ => None
          end
        else None
    end.

  Definition xobs {A : Type} orc (l : list ycall) (l' : list xcall)
    (f : forall C, sworld JR (C ++ boot) -> list arec -> registry -> option A) : option A :=
    yobs okb orc l (fun C sw g q t =>
      if forallb okb (map r_ptr g) then match xrun C l' sw g [] with Some (sw', x) => f C sw' g x | None => None end else None).

  Context (ok : (Z -> Prop) -> Prop) (Hokb : forall P : Z -> Prop, (forall x, P x -> okb x = true) -> ok P).

  Lemma keyedb_ok g k : keyedb g k = false -> ~ keyed g k.
  Proof.
    intros H (r & Hr & E). assert (keyedb g k = true); [|congruence]. apply existsb_exists. exists r. split; [exact Hr|]. now apply Z.eqb_eq.
  Qed.

  Lemma drop_in k x k' r' : In (k', r') (drop_newest k x) -> In (k', r') x.
  Proof.
    induction x as [|[j r] x IH]; cbn; auto. destruct (j =? k); cbn; auto. intros [H|H]; auto.
  Qed.

  Lemma xrun_good C l : forall sw g x q t sw' x',
    ehist JR ok C sw g x q t -> (forall r, In r g -> okb (r_ptr r) = true) -> (forall k r, In (k, r) x -> okb k = true) ->
    xrun C l sw g x = Some (sw', x') -> ehist JR ok C sw' g x' q t.
  Proof.
    induction l as [|[k r|k] l IH]; intros sw g x q t sw' x' H Hg Hx E; cbn [xrun] in E.
    - injection E as <- <-. exact H.
    - destruct (in_space k && negb (keyedb g k) && okb k) eqn:Eb; [|discriminate].
      apply andb_true_iff in Eb as [Eb Ek]. apply andb_true_iff in Eb as [Es En]. apply negb_true_iff in En.
      destruct (ext_register JR (C ++ boot) false k r sw) as [sw1 []| | | |] eqn:E1; try discriminate.
      apply (IH sw1 g ((k, r) :: x) q t sw' x'); auto.
      + eapply eh_register; eauto using keyedb_ok.
        * now apply in_space_ok.
        * apply Hokb. intros y Hy0. apply in_map_iff in Hy0 as ([y0 ry] & Ey & Hy). cbn in Ey. subst y0. apply in_app_iff in Hy as [Hy|[Hy|Hy]].
          -- unfold filed in Hy. apply in_map_iff in Hy as (r0 & Hy & Hr0). injection Hy as <- _. auto.
          -- injection Hy as <- _. exact Ek.
          -- eauto.
      + intros k' r' [Hi|Hi]; [injection Hi as <- _; exact Ek|eauto].
    - destruct (in_space k && negb (keyedb g k)) eqn:Eb; [|discriminate].
      apply andb_true_iff in Eb as [Es En]. apply negb_true_iff in En.
      destruct (ext_deregister JR (C ++ boot) k sw) as [sw1 r|sw1 e| | |] eqn:E1; try discriminate;
        (apply (IH sw1 g (drop_newest k x) q t sw' x'); auto;
         [eapply eh_deregister; eauto using keyedb_ok; [now apply in_space_ok|rewrite E1; reflexivity]|
          intros k' r' Hi; eapply Hx, drop_in, Hi]).
  Qed.

  Lemma xobs_hist {A} orc l l' f (v : A) : (forall d, In (YCreate d) l -> kind_heur_ok (nc_kind d)) -> xobs orc l l' f = Some v ->
    exists C sw g x q t, ehist JR ok C sw g x q t /\ f C sw g x = Some v.
  Proof.
    intros Hc E. unfold xobs in E. apply (yobs_hist okb ok Hokb) in E as (C & sw & g & q & t & H & E); [|exact Hc].
    destruct (forallb okb (map r_ptr g)) eqn:Eg; [|discriminate]. destruct (xrun C l' sw g []) as [[sw' x]|] eqn:Ex; [|discriminate].
    exists C, sw', g, x, q, t. split; [|exact E]. eapply (xrun_good C l' sw g [] q t); [now apply eh_plain| |intros k r []|exact Ex].
    intros r Hr. rewrite forallb_forall in Eg. apply Eg. now apply in_map.
  Qed.
End Run.
