(** Property C79: sessions of the replay tool over one log, with its options and the compiled file it keeps. *)
From Coq Require Import String.
From Verif Require Import Base ReplayModel ReplaySpec ReplayFacts ToolModel ToolSpec ToolFacts.
Local Open Scope string_scope.
Local Open Scope Z_scope.

(** Whatever sessions went before, a session makes the calls of the program, changed as its options want, or those up to one at
    which the library throws; only the statistics may be undefined, and only if a session was forced to compile or the file is of
    another version.  Missing: untracked pools with a heuristic, sessions that were both forced to compile and told to use a pool,
    sessions stopped while compiling, logs that changed (refuted below). *)
Theorem C79_sessions_partial : forall ds dn H times clean f, program H ->
  files (file_size ds dn (records H) times) (records H) clean f ->
  forall W (lib : rcall -> W -> outcome W Z) o w, orderly lib -> accepted o -> p_heur o = None \/ tracks_pools H ->
    (session lib o (file_size ds dn (records H) times) (records H) f w = Undefined /\ p_dump o = true /\ clean = false) \/
    exists r f', session lib o (file_size ds dn (records H) times) (records H) f w = Ran r f' /\
      ((exists s, r = Ok s tt /\ as_wanted o H (r_log (fst s))) \/
       (exists s e H1 H0, r = Throw s e /\ H = (H1 ++ H0)%list /\ as_wanted o H0 (r_log (fst s)))).
Proof.
  intros ds dn H times clean f P F W lib o w O A Fi.
  destruct (sessions H _ P (file_long ds dn (records H) times) W lib o clean f w F O A) as [(E & D & C)|(r & f' & E & C)].
  - left. auto.
  - right. exists r, f'. split; [exact E | exact (C Fi)].
Qed.
Print Assumptions C79_sessions_partial.

(** Forced to compile, or without a compiled file of its version, the tool makes these calls over any file. *)
Theorem C79_recompile : forall ds dn H times f, program H ->
  forall W (lib : rcall -> W -> outcome W Z) o w, orderly lib -> accepted o -> p_heur o = None \/ tracks_pools H ->
    p_dump o = false -> p_force o = true \/ (forall m, f <> Compiled m) ->
    exists r f', session lib o (file_size ds dn (records H) times) (records H) f w = Ran r f' /\
      ((exists s, r = Ok s tt /\ as_wanted o H (r_log (fst s))) \/
       (exists s e H1 H0, r = Throw s e /\ H = (H1 ++ H0)%list /\ as_wanted o H0 (r_log (fst s)))).
Proof.
  intros ds dn H times f P W lib o w O A Fi D N.
  destruct (forced_runs H _ P (file_long ds dn (records H) times) W lib o f w O A D) as (r & f' & E & C).
  - destruct N as [N|N]; [now left|right]. destruct f; cbn; auto. now apply (N m).
  - exists r, f'. split; [exact E | exact (C Fi)].
Qed.
Print Assumptions C79_recompile.

(** A resource, a pool and an allocation. *)
Definition prog : list pcall :=
  [PAlloc 0x7000 16 0x300; PMake 0x7000 "pool" "QuickPool" "HOST" true [AN 1024]; PMakeRes 0x5000 "HOST"].
Definition plain : list pcall :=
  [PAlloc 0x7000 16 0x300; PMake 0x7000 "pool" "QuickPool" "HOST" false [AN 1024]; PMakeRes 0x5000 "HOST"].
Definition counting : rcall -> Z -> outcome Z Z := fun _ w => Ok (w + 16) w.
Definition s79 (o : opts) (H : list pcall) (f : bfile) : ended Z := session counting o 100000 (records H) f 0x100.
Definition calls (e : ended Z) : option (list rcall) :=
  match e with Ran (Ok s _) _ => Some (map fst (r_log (fst s))) | _ => None end.
Definition left79 (e : ended Z) : bfile := match e with Ran _ f | Stopped f => f | Undefined => Absent end.

Example C79_case : program prog /\ tracks_pools prog /\ program plain.
Proof.
  assert (P : forall b, program [PAlloc 0x7000 16 0x300; PMake 0x7000 "pool" "QuickPool" "HOST" b [AN 1024]; PMakeRes 0x5000 "HOST"]).
  { intros b. cbn [program may_follow]. repeat match goal with |- _ /\ _ => split end; try exact I.
    all: try (vm_compute; first [reflexivity | discriminate | intros X; discriminate X]).
    exists [AN 1024]. apply pa_pool; [now left | cbn; lia | repeat constructor; cbn; lia | discriminate]. }
  split; [apply P|]. split; [|apply P]. intros r name cls base tr args [E|[E|[E|[]]]]; try discriminate E. injection E as <- <- <- <- <- <-. reflexivity.
Qed.

(** The first session compiles, the second uses the file with a heuristic and another pool, the third is without options. *)
Definition with_all : opts := mkOpts false true (Some "DynamicPoolList") (Some ("Block", 2)).
Example C79_ex_sessions :
  let e1 := s79 no_opts prog Absent in let e2 := s79 with_all prog (left79 e1) in let e3 := s79 no_opts prog (left79 e2) in
  calls e1 = Some [RAlloc 1 16; RCreate 1 "QuickPool" "pool" "HOST" true [AN 1024]; RCreate 0 "" "HOST" "" true []] /\
  calls e2 = Some [RAlloc 1 16; RCreate 1 "DynamicPoolList" "pool" "HOST" true [AN 1024; AN (2 ^ 20); AN 16; AS "Block"; AN 2];
                   RCreate 0 "" "HOST" "" true []] /\
  calls e3 = calls e1.
Proof. vm_compute. repeat split; reflexivity. Qed.

(** Files that meet the hypotheses of the theorem: of one session, and of one more that is forced to compile. *)
Lemma two_sessions fsize log :
  match session counting no_opts fsize log Absent 0x100 with
  | Ran _ (Compiled m) => match session counting (mkOpts true false None None) fsize log (Compiled m) 0x100 with
                          | Ran _ (Compiled _) => true | _ => false end
  | _ => false end = true ->
  exists m m', files fsize log true (Compiled m) /\ files fsize log false (Compiled m').
Proof.
  assert (O : orderly counting) by (intros c w; left; eexists; eexists; reflexivity).
  destruct (session counting no_opts fsize log Absent 0x100) as [|r [|objs|m]|] eqn:E1; try discriminate.
  destruct (session counting (mkOpts true false None None) fsize log (Compiled m) 0x100) as [|r' [|objs|m']|] eqn:E2; try discriminate.
  intros _. assert (F := fi_session _ _ true Absent no_opts Z counting 0x100 r (Compiled m) (fi_new _ _) O ltac:(discriminate) ltac:(discriminate) E1).
  exists m, m'. split; [exact F|].
  exact (fi_session _ _ _ (Compiled m) (mkOpts true false None None) Z counting 0x100 r' (Compiled m') F O ltac:(discriminate) (fun _ => eq_refl) E2).
Qed.
Example C79_ex_files : exists m m', files 100000 (records prog) true (Compiled m) /\ files 100000 (records prog) false (Compiled m').
Proof. apply two_sessions. vm_compute. reflexivity. Qed.

(** Refuted: a heuristic for a pool that is not tracked is dropped without a word (ReplayOperationManager.cpp:534-542, 666-669). *)
Theorem C79_heuristic_refuted : exists H o, program H /\ accepted o /\ p_heur o <> None /\
  (exists L, calls (s79 o H Absent) = Some L /\ forall k cls name base tr args, In (RCreate k cls name base tr args) L -> ~ In (AS "Block") args).
Proof.
  exists plain, (mkOpts false false None (Some ("Block", 2))). split; [apply C79_case|]. split; [discriminate|]. split; [discriminate|].
  eexists. split; [vm_compute; reflexivity|]. intros k cls name base tr args [E|[E|[E|[]]]]; inversion E; subst; cbn; intuition discriminate.
Qed.
Print Assumptions C79_heuristic_refuted.

Lemma stopped_then H L : match s79 no_opts H Absent with Stopped f => calls (s79 no_opts H f) | _ => None end = Some L ->
  exists f, s79 no_opts H Absent = Stopped f /\ calls (s79 no_opts H f) = Some L.
Proof. destruct (s79 no_opts H Absent) as [f|r f|]; try discriminate. intros E. exists f. auto. Qed.

(** Refuted: a session stopped by an event it does not know leaves a compiled file; the next session takes it for the whole log
    and ends well, without the allocation of 77 bytes (ReplayFile.cpp:54-55, 114-125). *)
Theorem C79_stopped_refuted : exists H L, In (PAlloc 0x7000 77 0x400) H /\
  (exists f, s79 no_opts H Absent = Stopped f /\ calls (s79 no_opts H f) = Some L) /\ ~ In (RAlloc 1 77) L.
Proof.
  exists (PAlloc 0x7000 77 0x400 :: PMemset :: prog). eexists. split; [now left|].
  split; [apply stopped_then; vm_compute; reflexivity|]. cbn; intuition discriminate.
Qed.
Print Assumptions C79_stopped_refuted.

(** Refuted: the compiled file of an older log is used for a newer one: nothing but magic number and version is compared. *)
Theorem C79_changed_refuted : exists H c f L, program (c :: H) /\ f = left79 (s79 no_opts H Absent) /\
  calls (s79 no_opts H Absent) = Some L /\ calls (s79 no_opts (c :: H) f) = Some L /\ calls (s79 no_opts (c :: H) Absent) <> Some L.
Proof.
  exists prog, (PAlloc 0x7000 77 0x400), (left79 (s79 no_opts prog Absent)). eexists. split.
  - split; [apply C79_case|]. cbn [may_follow]. repeat split; vm_compute; first [reflexivity | discriminate].
  - split; [reflexivity|]. split; [vm_compute; reflexivity|]. split; [vm_compute; reflexivity|]. vm_compute. discriminate.
Qed.
Print Assumptions C79_changed_refuted.

(** Refuted: a session forced to compile and told to use a pool writes the class of that pool into the file, from which later
    sessions without options create it (ReplayFile.cpp:37-50, ReplayOperationManager.cpp:324-333). *)
Theorem C79_pool_kept_refuted : exists H o L, program H /\ accepted o /\
  calls (s79 no_opts H (left79 (s79 o H Absent))) = Some L /\ calls (s79 no_opts H Absent) <> Some L.
Proof.
  exists prog, (mkOpts true false (Some "DynamicPoolList") None). eexists. split; [apply C79_case|].
  split; [intros p E; injection E as <-; now right|]. split; [vm_compute; reflexivity|]. vm_compute. discriminate.
Qed.
Print Assumptions C79_pool_kept_refuted.

(** Refuted: after a session forced to compile the statistics of the next go through pointers of the first, even if that one is
    itself forced to compile. *)
Theorem C79_statistics_refuted : exists H, program H /\
  s79 (mkOpts false true None None) H (left79 (s79 (mkOpts true false None None) H Absent)) = Undefined /\
  s79 (mkOpts true true None None) H (left79 (s79 (mkOpts true false None None) H Absent)) = Undefined.
Proof. exists prog. split; [apply C79_case|]. split; vm_compute; reflexivity. Qed.
Print Assumptions C79_statistics_refuted.

(** The statistics after an operation are undefined exactly if they are wanted and some entry of the table holds the pointer of an earlier session:
    one that this session has not replaced yet. *)
Theorem C79_statistics : forall W (o : opts) cs objs (s : @tstate W), 0 <= c_nalloc cs ->
  (opt_dump o cs objs s = UB <-> p_dump o = true /\ exists k, 0 <= k < c_nalloc cs /\ objs k = true /\ r_made (fst s) k = None) /\
  (opt_dump o cs objs s = UB \/ opt_dump o cs objs s = Ok s tt).
Proof. exact @dump_exact. Qed.
Print Assumptions C79_statistics.

(** With one allocator there is never such an entry: the first operation makes it. *)
Example C79_statistics_ex :
  let H := [PMakeRes 0x5000 "HOST"] in
  calls (s79 (mkOpts false true None None) H (left79 (s79 (mkOpts true false None None) H Absent))) = Some [RCreate 0 "" "HOST" "" true []].
Proof. vm_compute. reflexivity. Qed.
