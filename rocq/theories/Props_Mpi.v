(** C77: parallel programs. *)
From Verif Require Import Base MpiModel MpiSpec MpiFacts.

(** C77: in a program with MPI the first initialisation that finds MPI running decides for good: whatever is called later, rank and size
    are those of its communicator, and it is the one of every barrier. *)
Theorem C77_first :
  forall rank_of size_of l1 l2 c s1 s,
    m_run true rank_of size_of l1 m_start = s1 -> m_init s1 = false ->
    (m_run true rank_of size_of (l1 ++ MInitialize true c :: l2) m_start = s \/
     m_called s1 = false /\ m_run true rank_of size_of (l1 ++ UInitialize true c :: l2) m_start = s) ->
    m_init s = true /\ m_rank s = rank_of c /\ m_size s = size_of c /\ mpi_sync true s = Ok s (Some c).
Proof. exact first_wins. Qed.
Print Assumptions C77_first.

(** C77: without MPI the program counts as process 0 of 1 from the first initialisation to the first finalisation after it; afterwards both are -1 for
    good, though waiting goes on being allowed. *)
Theorem C77_alone :
  forall rank_of size_of l1 o l2 s, Forall (eq MFinalize) l1 -> o <> MFinalize -> m_run false rank_of size_of (l1 ++ o :: l2) m_start = s ->
    m_init s = true /\ (In MFinalize l2 -> m_rank s = -1 /\ m_size s = -1) /\ (~ In MFinalize l2 -> m_rank s = 0 /\ m_size s = 1) /\
    mpi_sync false s = Ok s None.
Proof. exact alone. Qed.
Print Assumptions C77_alone.

Example C77_alone_ex :
  let s := m_run false (fun _ => 7) (fun _ => 9) [MFinalize; UInitialize false 3; MInitialize true 4] m_start in m_rank s = 0 /\ m_size s = 1.
Proof. split; reflexivity. Qed.

(** C77: initialising twice, and finalising or waiting without having initialised, are errors that change nothing. *)
Theorem C77_errors :
  forall with_mpi rank_of size_of up c s,
    (m_init s = true -> mpi_initialize with_mpi rank_of size_of up c s = Throw s RuntimeError) /\
    (m_init s = false -> mpi_finalize with_mpi s = Throw s RuntimeError /\ mpi_sync with_mpi s = Throw s RuntimeError).
Proof. intros. unfold mpi_initialize, mpi_finalize, mpi_sync. split; intros ->; auto. Qed.
Print Assumptions C77_errors.

(** C77: whatever is asked of whichever allocators, all questions about one allocator get the answer of the first: a communicator split
    off the one given then if the scope of the allocator is the node, none otherwise. *)
Theorem C77_communicator :
  forall split node l i j id comm comm',
    nth_error l i = Some (id, comm) -> (forall k e, (k < i)%nat -> nth_error l k = Some (id, e) -> False) ->
    (i <= j)%nat -> nth_error l j = Some (id, comm') ->
    exists c, nth_error (ask_comms split node l (mkComms fempty 0)) j = Some c /\
      (node id = false -> c = COMM_NULL) /\ (node id = true -> exists k, (k <= i)%nat /\ c = split comm k).
Proof. exact comm_first. Qed.
Print Assumptions C77_communicator.

(** C77: when the directory of the log files was there, every process gets through the start by itself. *)
Theorem C77_there :
  forall n log fails l r, fair n 1 l -> 0 <= r < n -> through (t_at (t_run n log fails l (t_init true)) r).
Proof. intros n log fails l r F Hr. right. now apply there. Qed.
Print Assumptions C77_there.

(** C77: when nothing is logged, every process gets through, for any number of processes and any fair interleaving. *)
Theorem C77_quiet :
  forall n fails l0 l1 l2 r, schedule n l0 -> fair n 1 l0 -> fair n 1 l1 -> fair n 1 l2 -> 0 <= r < n ->
    through (t_at (t_run n false fails (l0 ++ l1 ++ l2) (t_init false)) r).
Proof. intros n fails l0 l1 l2 r S F0 F1 F2 Hr. left. now apply silent. Qed.
Print Assumptions C77_quiet.

(** C77: when the directory has to be made, every process gets through provided that, at some moment, all have looked for the directory and
    none has found it.  (Without that it is false: [C77_looks_refuted].) *)
Theorem C77_logging_partial :
  forall n l0 l1 l2 r, schedule n l0 ->
    (forall q, 0 <= q < n -> t_at (t_run n true false l0 (t_init false)) q <> Check /\ t_at (t_run n true false l0 (t_init false)) q <> Skipped) ->
    fair n 1 l1 -> fair n 1 l2 -> 0 <= r < n ->
    through (t_at (t_run n true false (l0 ++ l1 ++ l2) (t_init false)) r).
Proof. intros n l0 l1 l2 r S H F1 F2 Hr. left. now apply met. Qed.
Print Assumptions C77_logging_partial.

(** C77: a process that is through the start finds the directory if files are to be logged. *)
Theorem C77_directory :
  forall n fails l r, schedule n l -> 0 <= r < n ->
    through (t_at (t_run n true fails l (t_init false)) r) -> t_dir (t_run n true fails l (t_init false)) = true.
Proof.
  intros n fails l r S Hr T. destruct (run_sound n true fails l S) as (_ & B & C & D & _). destruct T as [T|T].
  - apply D; [|reflexivity]. apply (B r T). lia.
  - destruct (t_dir _) eqn:E; [reflexivity|]. now destruct (C eq_refl r).
Qed.
Print Assumptions C77_directory.

(** C77: if one process has found the directory, or has failed to make it, then whoever waits at the barrier by then, or is about to,
    never gets through: for any number of processes and whatever happens. *)
Theorem C77_missed :
  forall n log fails g q r, 0 <= r < n -> t_at g r = Skipped \/ t_at g r = Threw -> t_at g q = Make \/ t_at g q = Barrier ->
    never n log fails g q.
Proof. exact missed. Qed.
Print Assumptions C77_missed.

(** The second process of a communicator 7 of four; then other calls. *)
Definition ranks (c : Z) : Z := if c =? 7 then 1 else 0.
Definition sizes (c : Z) : Z := if c =? 7 then 4 else 9.
Example C77_first_ex :
  let s := m_run true ranks sizes ([MInitialize false 8; MFinalize] ++ UInitialize true 7 :: [UInitialize true 8; MInitialize true 9; MFinalize]) m_start in
  m_init (m_run true ranks sizes [MInitialize false 8; MFinalize] m_start) = false /\ m_called (m_run true ranks sizes [MInitialize false 8; MFinalize] m_start) = false /\
  (m_rank s, m_size s) = (1, 4).
Proof. vm_compute. auto. Qed.

Example C77_communicator_ex :
  ask_comms (fun c k => 100 * c + Z.of_nat k) (fun id => id <? 5) [(4, 1); (6, 1); (3, 2); (4, 2); (6, 2)] (mkComms fempty 0) = [100; COMM_NULL; 201; 100; COMM_NULL].
Proof. reflexivity. Qed.

(** Three processes; the hypotheses of [C77_logging_partial] and of [C77_quiet] are met. *)
Example C77_logging_ex :
  (forall q, 0 <= q < 3 -> t_at (t_run 3 true false [2; 0; 1] (t_init false)) q <> Check /\ t_at (t_run 3 true false [2; 0; 1] (t_init false)) q <> Skipped) /\
  fair 3 1 [0; 1; 2] /\ schedule 3 [2; 0; 1].
Proof.
  split; [|split].
  - intros q Hq. assert (q = 0 \/ q = 1 \/ q = 2) as [->|[->| ->]] by lia; split; vm_compute; discriminate.
  - intros q Hq. assert (q = 0 \/ q = 1 \/ q = 2) as [->|[->| ->]] by lia; vm_compute; lia.
  - intros q [<-|[<-|[<-|[]]]]; lia.
Qed.

(** The claim "a program whose processes all call initialize_io starts" is false: process 0 makes the directory before process 1 has looked;
    1 finds it and does not go to the barrier, where 0 waits for ever. *)
Theorem C77_looks_refuted :
  exists l, schedule 2 l /\ through (t_at (t_run 2 true false l (t_init false)) 1) /\ never 2 true false (t_run 2 true false l (t_init false)) 0.
Proof.
  exists [0; 0; 1]. split; [intros q [<-|[<-|[<-|[]]]]; lia|]. split; [right; reflexivity|].
  apply missed with 1; [lia|left; reflexivity|right; reflexivity].
Qed.
Print Assumptions C77_looks_refuted.

(** The claim "when the directory cannot be made all processes hear of it" is false: process 0 throws, 1 waits for ever. *)
Theorem C77_fails_refuted :
  exists l, schedule 2 l /\ t_at (t_run 2 true true l (t_init false)) 0 = Threw /\ never 2 true true (t_run 2 true true l (t_init false)) 1.
Proof.
  exists [1; 0; 0]. split; [intros q [<-|[<-|[<-|[]]]]; lia|]. split; [reflexivity|].
  apply missed with 0; [lia|right; reflexivity|right; reflexivity].
Qed.
Print Assumptions C77_fails_refuted.

(** The claim "umpire::initialize initialises once MPI is running" is false: a call that came before MPI_Init makes every later one do nothing. *)
Theorem C77_early_refuted :
  forall rank_of size_of c later, m_run true rank_of size_of (UInitialize false c :: map (fun c => UInitialize true c) later) m_start = mkMpi true false (-1) (-1) COMM_NULL.
Proof.
  intros rank_of size_of c later. cbn. unfold m_run. induction later as [|d later IH]; [reflexivity|]. cbn [map fold_left]. exact IH.
Qed.
Print Assumptions C77_early_refuted.

(** The claim "an initialised process has a rank" is false: without MPI, finalising takes it away, the process counts as initialised
    nevertheless and cannot be initialised again. *)
Theorem C77_finalized_refuted :
  exists s, m_run false ranks sizes [UInitialize true 0; MFinalize] m_start = s /\ m_init s = true /\ m_rank s = -1 /\ m_size s = -1 /\
    forall l, m_rank (m_run false ranks sizes l s) = -1.
Proof.
  eexists. split; [reflexivity|]. repeat split. intros l. unfold m_run.
  enough (G : forall s, m_init s = true -> m_rank s = -1 -> m_rank (fold_left (fun s o => m_after false ranks sizes o s) l s) = -1) by (now apply G).
  induction l as [|o l IH]; intros s A B; [exact B|]. cbn [fold_left]. apply IH; [now apply m_after_init|].
  destruct o as [up c|up c|]; unfold m_after, m_do, u_initialize, mpi_initialize, mpi_finalize; rewrite ?A; auto. destruct (m_called s); cbn [bind]; auto.
Qed.
Print Assumptions C77_finalized_refuted.

(** The claim "the communicator is split off the one given" is false for all but the first call. *)
Theorem C77_given_refuted :
  exists split node c, split 2 0%nat <> c /\ split 2 1%nat <> c /\ ask_comms split node [(4, 1); (4, 2)] (mkComms fempty 0) = [c; c].
Proof. exists (fun c k => 100 * c + Z.of_nat k), (fun _ => true), 100. repeat split; try discriminate. Qed.
Print Assumptions C77_given_refuted.
