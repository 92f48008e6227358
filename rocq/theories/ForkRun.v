(** Computing with programs that fork: for the examples beside the theorems. *)
From Coq Require Import String.
From Verif Require Import Base JsonModel StoreModel TraceModel JsonSpec StoreFacts TornFacts ForkModel ForkSpec.
Local Open Scope Z_scope.

Fixpoint frun (c : fworld -> fop -> bool) (l : list fop) (w : fworld) : option fworld :=
  match l with
  | [] => Some w
  | o :: l => if c w o then match fstep o w with Ok w' _ => frun c l w' | _ => None end else None
  end.

Definition log_is (w : fworld) (p : Z) (c : proc -> bool) : bool := match f_procs w p with Some x => c x | None => true end.
Definition aloneb (w : fworld) (o : fop) : bool :=
  match o with
  | FRecord p _ | FWrite p _ | FExit p => log_is w p (fun x => match f_log x with Some f => f =? p | None => true end)
  | _ => true
  end.
Definition earlyb (w : fworld) (o : fop) : bool :=
  match o with FFork p _ => log_is w p (fun x => match f_log x with Some _ => false | None => true end) | _ => true end.
Definition wholeb (w : fworld) (o : fop) : bool :=
  match o with
  | FWrite p n => log_is w p (fun x => match rev (firstn n (f_buf x)) with [] => true | c :: _ => c =? 10 end)
  | _ => true
  end.
Definition settledb (w : fworld) (o : fop) : bool :=
  match o with FFork p _ => log_is w p (fun x => match f_buf x with [] => true | _ => false end) | _ => true end.

Lemma log_is_ok w p c x : log_is w p c = true -> f_procs w p = Some x -> c x = true.
Proof. unfold log_is. intros H E. now rewrite E in H. Qed.
Lemma alone_ok w o : aloneb w o = true -> alone w o.
Proof.
  destruct o as [p r|p n|p q|p|p]; cbn [aloneb alone]; auto; intros H x f Hp Hl; pose proof (log_is_ok _ _ _ x H Hp) as K; cbv beta in K; rewrite Hl in K; lia.
Qed.
Lemma early_ok w o : earlyb w o = true -> early w o.
Proof. destruct o as [p r|p n|p q|p|p]; cbn [earlyb early]; auto. intros H x Hp. pose proof (log_is_ok _ _ _ x H Hp) as K; cbv beta in K. now destruct (f_log x). Qed.
Lemma whole_ok w o : wholeb w o = true -> whole w o.
Proof.
  destruct o as [p r|p n|p q|p|p]; cbn [wholeb whole]; auto. intros H x Hp. pose proof (log_is_ok _ _ _ x H Hp) as K; cbv beta in K. destruct (rev (firstn n (f_buf x))) as [|c l] eqn:E.
  - left. rewrite <- (rev_involutive (firstn n (f_buf x))), E. reflexivity.
  - right. exists (rev l). rewrite <- (rev_involutive (firstn n (f_buf x))), E. cbn [rev]. now replace c with 10 by lia.
Qed.
Lemma settled_ok w o : settledb w o = true -> settled w o.
Proof. destruct o as [p r|p n|p q|p|p]; cbn [settledb settled]; auto. intros H x Hp. pose proof (log_is_ok _ _ _ x H Hp) as K; cbv beta in K. now destruct (f_buf x). Qed.
Lemma both_ok w o : wholeb w o && settledb w o = true -> both whole settled w o.
Proof. intros H. apply andb_prop in H as [A B]. split; [now apply whole_ok|now apply settled_ok]. Qed.

Lemma frun_from (P : fworld -> fop -> Prop) c w0 : (forall w o, c w o = true -> P w o) -> forall l ops w w', frun c l w = Some w' -> fruns P w0 ops w -> fruns P w0 (ops ++ l) w'.
Proof.
  intros Hc. induction l as [|o l IH]; intros ops w w' E R; cbn [frun] in E; [injection E as <-; rewrite app_nil_r; exact R|].
  destruct (c w o) eqn:Ec; [|discriminate]. destruct (fstep o w) as [w1 []| | | |] eqn:Es; try discriminate. replace (ops ++ o :: l) with ((ops ++ [o]) ++ l) by (rewrite <- app_assoc; reflexivity).
  apply (IH _ w1); [exact E|]. eapply fr_step; [exact R|exact (Hc w o Ec)|exact Es].
Qed.
Lemma fobs {A} (P : fworld -> fop -> Prop) c l (g : fworld -> A) (v : A) : (forall w o, c w o = true -> P w o) ->
  option_map g (frun c l (f_start 1)) = Some v -> exists w, fruns P (f_start 1) l w /\ g w = v.
Proof.
  intros Hc H. destruct (frun c l (f_start 1)) as [w|] eqn:E; [|discriminate]. injection H as H. exists w. split; [|exact H]. exact (frun_from P c (f_start 1) Hc l [] _ w E (fr_start _ _)).
Qed.

Ltac fork_case P c ok :=
  match goal with |- exists w, fruns _ _ ?ops w /\ @?g w = ?v => apply (fobs P c ops g v ok); vm_compute; reflexivity end.

(** Events of a small session, and what a reader has of the log of a process. *)
Definition host : rec := oper_event 2 "make_memory_resource" [BPtr (bs "allocator_ref") 0x5000; BNum (bs "introspection") 1; ntag (bs "HOST"); rtag].
Definition got (n : Z) : rec := RAllocate 16 0x5000 n 4.
Definition no_real : bytes -> option Z := fun _ => None.
Definition reader (w : fworld) (p : Z) : option (list ev) :=
  match f_files w p with
  | Some d => match get_events no_real (mk_store (Some d) true true) with SOk _ l => Some l | _ => None end
  | None => None
  end.
Lemma host_writable : writable host.
Proof.
  unfold host, oper_event. split; [apply build_fits; unfold long; lia|]. split; [apply ascii_b; reflexivity|]. repeat split; repeat apply Forall_cons; try apply Forall_nil; cbn [fst snd];
    repeat split; apply ascii_b; reflexivity.
Qed.
Lemma got_writable n : 0 <= n -> writable (got n).
Proof. intros H. unfold got, writable, word, long. lia. Qed.
