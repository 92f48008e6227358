(** Property C88: logs of several threads. *)
From Coq Require Import String.
From Verif Require Import Base BaseFacts ReplayModel ReplaySpec ReplayFacts ThreadLogModel ThreadLogSpec ThreadLogFacts.
Local Open Scope string_scope.
Local Open Scope Z_scope.

(** Whatever the threads do and however their steps interleave, the log is that of a program that one thread could
    have run: no allocation is recorded at an address at which, by the log, its allocator has one already.  It can be
    replayed (C57), and what is replayed repeats it.
    Missing: reallocations, see C57_other_thread_refuted. *)
Theorem C88_log_partial : forall s, treach s -> program (calls_of s).
Proof. exact log_program. Qed.
Print Assumptions C88_log_partial.

Theorem C88_replay_partial : forall s dump_s dump_n times, treach s ->
  exists cs, build (file_size dump_s dump_n (records (calls_of s)) times) (records (calls_of s)) = Ok cs tt /\
    forall W (lib : rcall -> W -> outcome W Z) ptrs w, orderly lib -> ptrs 0 = None ->
      (exists rs f, run_all lib cs ptrs w = Ok rs tt /\ mirrors (calls_of s) (r_log rs) f) \/
      (exists rs e H1 H0 f, run_all lib cs ptrs w = Throw rs e /\ calls_of s = (H1 ++ H0)%list /\ mirrors H0 (r_log rs) f).
Proof. exact log_replayed. Qed.
Print Assumptions C88_replay_partial.

(** What the strategies have given out is what is live by the log, and besides that what some thread is about to record as
    allocated or to give back.  When no thread is inside of a call they are the same. *)
Theorem C88_live : forall s r p, treach s ->
  (In (r, p) (t_heap s) <-> holds (calls_of s) r p = true \/ busy s r p) /\
  ~ (holds (calls_of s) r p = true /\ busy s r p).
Proof. exact log_live. Qed.
Print Assumptions C88_live.

(** What the program may deallocate is live by the log at any time. *)
Theorem C88_owned : forall s r p, treach s -> In (r, p) (t_owned s) -> holds (calls_of s) r p = true.
Proof. exact log_owned. Qed.
Print Assumptions C88_owned.

(** The calls of each thread are in the log in their order, with their arguments and results, each once; at most the last
    one is missing, as long as it has not returned. *)
Theorem C88_order : forall s t, treach s -> t_calls s t = (unlogged (t_phase s t) ++ part t (t_log s))%list.
Proof. exact log_part. Qed.
Print Assumptions C88_order.

(** Thread 2 gives memory back, thread 3 gets it and records it while thread 1 has not recorded its own. *)
Example C88_case : exists s, treach s /\ t_heap s = [(0x5000, 0x340); (0x5000, 0x300)] /\ t_phase s 1%nat = Got 0x5000 8 0x300 /\
  t_log s = [(3%nat, PAlloc 0x5000 32 0x340); (2%nat, PFree 0x5000 0x340); (1%nat, PFree 0x5000 0);
             (2%nat, PAlloc 0x5000 16 0x340); (0%nat, PMakeRes 0x5000 "HOST")].
Proof.
  pose proof tr_init as R.
  go R ltac:(apply (ts_other _ 0%nat (PMakeRes 0x5000 "HOST")); [reflexivity | exact I | vm_compute; repeat split; congruence]).
  go R ltac:(apply (ts_take _ 2%nat 0x5000 16 0x340); [reflexivity | vm_compute; discriminate | lia | vm_compute; intuition discriminate]).
  go R ltac:(apply (ts_log _ 2%nat 0x5000 16 0x340); reflexivity).
  go R ltac:(apply (ts_null _ 1%nat 0x5000); [reflexivity | vm_compute; discriminate]).
  go R ltac:(apply (ts_take _ 1%nat 0x5000 8 0x300); [reflexivity | vm_compute; discriminate | lia | vm_compute; intuition discriminate]).
  go R ltac:(apply (ts_say _ 2%nat 0x5000 0x340); [reflexivity | left; reflexivity]).
  go R ltac:(apply (ts_give _ 2%nat 0x5000 0x340); reflexivity).
  go R ltac:(apply (ts_take _ 3%nat 0x5000 32 0x340); [reflexivity | vm_compute; discriminate | lia | vm_compute; intuition discriminate]).
  go R ltac:(apply (ts_log _ 3%nat 0x5000 32 0x340); reflexivity).
  eexists. split; [exact R|]. vm_compute. repeat split; reflexivity.
Qed.

(** Refuted: at any time the log tells what is in use.  A deallocation is recorded before it happens. *)
Theorem C88_instant_refuted : exists s r p, treach s /\ In (r, p) (t_heap s) /\ holds (calls_of s) r p = false.
Proof. exact instant. Qed.
Print Assumptions C88_instant_refuted.
