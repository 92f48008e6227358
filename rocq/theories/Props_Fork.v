(** Property C89: the logs of a program that forks.  Runs, [alone], [early], [whole], [settled], [sent]: ForkSpec.v. *)
From Coq Require Import String.
From Verif Require Import Base JsonModel StoreModel TraceModel JsonSpec ForkModel ForkSpec ForkFacts ForkRun.
Local Open Scope Z_scope.

(** C89: if only the process that opened a log uses it, because others end by [_exit] or become another program, its file and
    what its stream holds are the texts of its records in order; nothing is held when it has exited. *)
Theorem C89_alone : forall p0 ops w p x,
  fruns alone (f_start p0) ops w -> f_procs w p = Some x -> f_log x = Some p ->
  exists d ts, f_files w p = Some d /\ Forall2 (fun r t => text r = DOk t) (recs_of p ops) ts /\ d ++ f_buf x = concat ts /\
    (f_fate x = Exited -> f_buf x = []).
Proof. exact alone_file. Qed.
Print Assumptions C89_alone.

(** C89: then a reader has the events that this process recorded; and the file is that of a program with these events that does not fork. *)
Theorem C89_alone_read : forall strtod p0 ops w p x,
  fruns alone (f_start p0) ops w -> all_writable ops -> f_procs w p = Some x -> f_log x = Some p -> f_fate x = Exited ->
  exists d, f_files w p = Some d /\ (exists s, get_events strtod (mk_store (Some d) true true) = SOk s (map meant (recs_of p ops))) /\
    forall e l disk, recs_of p ops = RGeneric e :: l ->
      exists s, record_all (recs_of p ops) (mk_store disk true false) = SOk s tt /\ finished s = Some d.
Proof. exact alone_read. Qed.
Print Assumptions C89_alone_read.

Example C89_alone_case :
  let ops := [FRecord 1 host; FFork 1 2; FKill 2; FRecord 1 (got 0x300); FWrite 1 7; FExit 1] in
  all_writable ops /\ exists w, fruns alone (f_start 1) ops w /\ (f_procs w 1, reader w 1, f_files w 2) = (Some (mkProc (Some 1) [] Exited), Some [meant host; meant (got 0x300)], None).
Proof.
  cbv zeta. split.
  - intros p r H. cbn [In] in H. repeat (destruct H as [H|H]; [try discriminate H; injection H as <- <-; first [apply host_writable|apply got_writable; lia]|]). destruct H.
  - fork_case alone aloneb alone_ok.
Qed.

(** C89: if processes fork only before their first event every log is used by one process alone. *)
Theorem C89_early : forall p0 ops w, fruns early (f_start p0) ops w ->
  (forall p x f, f_procs w p = Some x -> f_log x = Some f -> f = p) /\ fruns alone (f_start p0) ops w.
Proof. exact early_own. Qed.
Print Assumptions C89_early.

Example C89_early_case :
  exists w, fruns early (f_start 1) [FFork 1 2; FRecord 2 host; FRecord 1 host; FRecord 1 (got 0x300); FExit 1; FExit 2] w /\
    (reader w 1, reader w 2) = (Some [meant host; meant (got 0x300)], Some [meant host]).
Proof. fork_case early earlyb early_ok. Qed.

(** C89: a log that several processes use, written in whole lines: a reader gets events; of each process a part of those that it
    had from its parent and then recorded, from the first on, and all when it has exited; what it had from its parent is what
    that had recorded, or had itself from its parent, last. *)
Theorem C89_whole : forall strtod p0 ops w f d,
  fruns whole (f_start p0) ops w -> all_writable ops -> f_files w f = Some d ->
  exists tags inh, (exists s, get_events strtod (mk_store (Some d) true true) = SOk s (map meant (map snd tags))) /\
    (forall p r, In (p, r) tags -> exists x, f_procs w p = Some x /\ f_log x = Some f) /\
    (forall p x, f_procs w p = Some x -> f_log x = Some f ->
       exists rest, inh p ++ recs_of p ops = sent p tags ++ rest /\ (f_fate x = Exited -> rest = [])) /\
    (forall p, inh p <> [] -> exists o1 o2 q l, ops = o1 ++ FFork q p :: o2 /\ inh q ++ recs_of q o1 = l ++ inh p).
Proof. exact whole_file. Qed.
Print Assumptions C89_whole.

(** C89: if moreover nothing is held back at forks every event is in the log once, and those of each process are in order. *)
Theorem C89_settled : forall strtod p0 ops w f d,
  fruns (both whole settled) (f_start p0) ops w -> all_writable ops -> f_files w f = Some d ->
  exists tags, (exists s, get_events strtod (mk_store (Some d) true true) = SOk s (map meant (map snd tags))) /\
    (forall p r, In (p, r) tags -> exists x, f_procs w p = Some x /\ f_log x = Some f) /\
    (forall p x, f_procs w p = Some x -> f_log x = Some f ->
       exists rest, recs_of p ops = sent p tags ++ rest /\ (f_fate x = Exited -> rest = [])).
Proof. exact settled_file. Qed.
Print Assumptions C89_settled.

Example C89_settled_case :
  exists w, fruns (both whole settled) (f_start 1)
    [FRecord 1 host; FWrite 1 1000; FFork 1 2; FRecord 1 (got 0x300); FRecord 2 (got 0x400); FExit 2; FRecord 1 (got 0x500); FExit 1] w /\
    (reader w 1, reader w 2) = (Some (map meant [host; got 0x400; got 0x300; got 0x500]), None).
Proof. fork_case (both whole settled) (fun w o => wholeb w o && settledb w o) both_ok. Qed.

(** C89: a process that has exited or was killed does nothing more and stays as it is; a killed one passes nothing on. *)
Theorem C89_ended : forall o w w', fstep o w = Ok w' tt ->
  (forall q x, f_procs w q = Some x -> f_fate x <> Running -> f_actor o <> q /\ f_procs w' q = Some x) /\
  (forall p, o = FKill p -> f_files w' = f_files w /\ exists x, f_procs w' p = Some x /\ f_fate x = Killed) /\
  (forall p, o = FExit p -> exists x, f_procs w' p = Some x /\ f_fate x = Exited).
Proof. exact ended. Qed.
Print Assumptions C89_ended.

Example C89_ended_case :
  exists w w' x, fstep (FFork 1 2) (f_start 1) = Ok w tt /\ fstep (FKill 2) w = Ok w' tt /\ f_procs w' 2 = Some x /\ f_fate x = Killed /\
    fstep (FRecord 2 host) w' = UB /\ match fstep (FRecord 1 host) w' with Ok w'' _ => f_procs w'' 2 = Some x | _ => False end.
Proof.
  eexists _, _, _. split; [reflexivity|]. split; [vm_compute; reflexivity|]. split; [vm_compute; reflexivity|]. split; [reflexivity|]. split; [vm_compute; reflexivity|]. vm_compute. reflexivity.
Qed.

(** Refuted: an event that was recorded once is in the log once.  The child does nothing with the library, and exits; the events
    that the stream held at the fork are there twice, and the replay tool, which would take the parent's log, stops. *)
Theorem C89_twice_refuted :
  let ops := [FRecord 1 host; FRecord 1 (got 0x300); FFork 1 2; FExit 2; FExit 1] in
  (exists w d, fruns whole (f_start 1) ops w /\ f_files w 1 = Some d /\ reader w 1 = Some (map meant [host; got 0x300; host; got 0x300]) /\ tool no_real d = Abort) /\
  exists w d, fruns whole (f_start 1) [FRecord 1 host; FRecord 1 (got 0x300); FFork 1 2; FKill 2; FExit 1] w /\ f_files w 1 = Some d /\
    match tool no_real d with Ok _ _ => True | _ => False end.
Proof.
  cbv zeta. split.
  - assert (H : exists w, fruns whole (f_start 1) [FRecord 1 host; FRecord 1 (got 0x300); FFork 1 2; FExit 2; FExit 1] w /\
      (reader w 1, match f_files w 1 with Some d => match tool no_real d with Abort => true | _ => false end | None => false end) =
      (Some (map meant [host; got 0x300; host; got 0x300]), true)) by fork_case whole wholeb whole_ok.
    destruct H as (w & R & E). assert (E1 := f_equal fst E). assert (E2 := f_equal snd E). cbn [fst snd] in E1, E2. clear E.
    destruct (f_files w 1) as [d|] eqn:F; [|discriminate E2]. exists w, d. split; [exact R|]. split; [exact F|]. split; [exact E1|]. destruct (tool no_real d); first [reflexivity|discriminate E2].
  - assert (H : exists w, fruns whole (f_start 1) [FRecord 1 host; FRecord 1 (got 0x300); FFork 1 2; FKill 2; FExit 1] w /\
      match f_files w 1 with Some d => match tool no_real d with Ok _ _ => true | _ => false end | None => false end = true) by fork_case whole wholeb whole_ok.
    destruct H as (w & R & E). destruct (f_files w 1) as [d|] eqn:F; [|discriminate E]. exists w, d. split; [exact R|]. split; [exact F|]. destruct (tool no_real d); [exact I|discriminate E..].
Qed.
Print Assumptions C89_twice_refuted.

(** Refuted: the log can be read, if nothing is held back at the fork.  The C library passes on a part of a line, and the other
    process goes on there. *)
Theorem C89_torn_refuted :
  exists w d s, fruns settled (f_start 1) [FRecord 1 host; FWrite 1 1000; FFork 1 2; FRecord 1 (got 0x300); FRecord 2 (got 0x400); FWrite 1 20; FExit 2; FExit 1] w /\
    f_files w 1 = Some d /\ get_events no_real (mk_store (Some d) true true) = SThrow s.
Proof.
  assert (H : exists w, fruns settled (f_start 1) [FRecord 1 host; FWrite 1 1000; FFork 1 2; FRecord 1 (got 0x300); FRecord 2 (got 0x400); FWrite 1 20; FExit 2; FExit 1] w /\
    match f_files w 1 with Some d => match get_events no_real (mk_store (Some d) true true) with SThrow _ => true | _ => false end | None => false end = true)
    by fork_case settled settledb settled_ok.
  destruct H as (w & R & E). destruct (f_files w 1) as [d|] eqn:F; [|discriminate E]. destruct (get_events no_real (mk_store (Some d) true true)) as [|s| |] eqn:G; try discriminate E. exists w, d, s. auto.
Qed.
Print Assumptions C89_torn_refuted.

(** Refuted: the events of a process are in a log with its own number.  Those of a child are in its parent's. *)
Theorem C89_name_refuted :
  exists w, fruns (both whole settled) (f_start 1) [FRecord 1 host; FWrite 1 1000; FFork 1 2; FRecord 2 (got 0x400); FExit 2; FExit 1] w /\
    (recs_of 2 [FRecord 1 host; FWrite 1 1000; FFork 1 2; FRecord 2 (got 0x400); FExit 2; FExit 1], f_files w 2, reader w 1) =
    ([got 0x400], None, Some (map meant [host; got 0x400])).
Proof.
  fork_case (both whole settled) (fun w o => wholeb w o && settledb w o) both_ok.
Qed.
Print Assumptions C89_name_refuted.
