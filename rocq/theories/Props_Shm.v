(** C75: opening, using and leaving a shared memory segment. *)
From Coq Require Import String.
From Verif Require Import Base SegModel SegSpec ShmModel ShmSpec ShmFacts.

(** C75: whatever fails, whoever is killed or leaves: a process whose constructor has returned has a segment that is
    completely set up, of the size its maker asked for, and whose contents are those of a segment set up once on which the
    operations of all processes were done one after the other. *)
Theorem C75_ready :
  forall req acts g p o sz, (forall q, 0 <= req q < M64) -> execs req acts s_init = Ok g tt -> ready g p o sz ->
    let x := s_obj g o in
    o_flag x = 2 /\ o_mutex x = true /\ o_size x = sz /\ sz = req (o_maker x) /\ 0 < sz < 2 ^ 63 /\
    exists st, o_seg x = Some st /\ seg_run (ops_of o (s_log g)) (seg_init sz) = Some st.
Proof. intros req acts g p o sz H. exact (ready_ok req H acts g p o sz). Qed.
Print Assumptions C75_ready.

(** C75: so the theorems of C38 hold of a segment shared by processes, if the processes together use it as C38 asks. *)
Theorem C75_history :
  forall req acts g p o sz, (forall q, 0 <= req q < M64) -> execs req acts s_init = Ok g tt -> ready g p o sz ->
    polite (ops_of o (s_log g)) (seg_init sz) [] -> exists st G, o_seg (s_obj g o) = Some st /\ seghist sz st G.
Proof.
  intros req acts g p o sz H E R P. destruct (ready_ok req H acts g p o sz E R) as (_ & _ & _ & _ & _ & st & Hs & Hr).
  destruct (polite_hist sz _ _ _ _ (gh_start sz) P Hr) as [G HG]. eauto.
Qed.
Print Assumptions C75_history.

(** C75: no process touches the mutex or the header before they are set up. *)
Theorem C75_defined :
  forall req acts g p op, (forall q, 0 <= req q < M64) -> execs req acts s_init = Ok g tt -> exec req (AOp p op) g = UB ->
    exists o sz st, ready g p o sz /\ o_seg (s_obj g o) = Some st /\ seg_do op st = UB.
Proof. intros req acts g p op H. exact (op_defined req H acts g p op). Qed.
Print Assumptions C75_defined.

(** C75: as long as nobody leaves, all processes have the same segment. *)
Theorem C75_together :
  forall req acts g p q o o' sz sz', (forall q, 0 <= req q < M64) -> Forall stays acts -> execs req acts s_init = Ok g tt ->
    ready g p o sz -> ready g q o' sz' -> o = o' /\ sz = sz'.
Proof. intros req acts g p q o o' sz sz' H. exact (together req H acts g p q o o' sz sz'). Qed.
Print Assumptions C75_together.

(** C75: if nothing fails, everybody gets in: seven steps of the process that came first and then five of any other, however
    mixed with those of others. *)
Theorem C75_opens :
  forall req c acts1 acts2 g p, (forall q, 0 <= req q < M64) -> 0 < req c < 2 ^ 63 -> Forall quiet acts1 -> Forall quiet acts2 ->
    (6 <= turns c acts1)%nat -> (5 <= turns p acts2)%nat -> execs req (AStep c :: acts1 ++ acts2) s_init = Ok g tt -> ready g p 0%nat (req c).
Proof. intros req c acts1 acts2 g p H. exact (opens req H c acts1 acts2 g p). Qed.
Print Assumptions C75_opens.

(** C75: if nothing fails and nobody is killed, the name is gone when the last one is. *)
Theorem C75_leaves :
  forall req acts g, (forall q, 0 < req q < 2 ^ 63) -> Forall orderly acts -> execs req acts s_init = Ok g tt ->
    (forall p, outside (s_pc g p)) -> s_name g = None.
Proof.
  intros req acts g H. apply leaves; [|exact H]. intros q. pose proof (H q). unfold M64. lia.
Qed.
Print Assumptions C75_leaves.

(** C75: when the maker of the segment fails or is killed before it has finished, nobody ever gets in: the others spin, and so
    do all who come later. *)
Theorem C75_abandoned :
  forall req acts g o, (forall q, 0 <= req q < M64) -> Forall stays acts -> execs req acts s_init = Ok g tt ->
    s_name g = Some o -> o_flag (s_obj g o) <> 2 -> over (s_pc g (o_maker (s_obj g o))) -> hopeless req g.
Proof. intros req acts g o H. exact (abandoned req H acts g o). Qed.
Print Assumptions C75_abandoned.

(** C75: so it is when the first process asks for no bytes or for 2^63 or more, though it is told so. *)
Theorem C75_size :
  forall req c, (forall q, 0 <= req q < M64) -> req c = 0 \/ 2 ^ 63 <= req c ->
    exists g, execs req [AStep c; AStep c; AStep c] s_init = Ok g tt /\ s_pc g c = Failed /\ hopeless req g.
Proof. intros req c H. exact (bad_size req H c). Qed.
Print Assumptions C75_size.

(** C75: when a process is killed inside an operation, no other operation is ever done on the segment. *)
Theorem C75_locked :
  forall req acts1 acts2 g g' p o sz q, (forall q, 0 <= req q < M64) -> execs req acts1 s_init = Ok g tt -> ready g p o sz ->
    o_lock (s_obj g o) = Some q -> execs req acts2 g = Ok g' tt ->
    ops_of o (s_log g') = ops_of o (s_log g) /\ o_seg (s_obj g' o) = o_seg (s_obj g o).
Proof. intros req acts1 acts2 g g' p o sz q H. exact (locked req H acts1 acts2 g g' p o sz q). Qed.
Print Assumptions C75_locked.

(** The steps of [p] from start to end. *)
Definition enter (p : Z) : list act := repeat (AStep p) 7.
Definition leave (p : Z) : list act := [AClose p; AStep p; AStep p].
Definition page : Z -> Z := fun _ => 4096.
(** What looking a name up in object [o] finds. *)
Definition finds (g : shm) (o : nat) (n : string) : option Z :=
  match o_seg (s_obj g o) with Some st => match find_pointer n st with Ok _ p => Some p | _ => None end | None => None end.
Lemma ends (P : shm -> Prop) req acts g0 : match execs req acts g0 with Ok g _ => P g | _ => False end -> exists g, execs req acts g0 = Ok g tt /\ P g.
Proof. destruct (execs req acts g0) as [g []| | | |]; try contradiction. eauto. Qed.
Lemma page_ok : forall q, 0 <= page q < M64.
Proof. intros q. vm_compute. split; [discriminate|reflexivity]. Qed.

(** Three processes open it together; 1 allocates, 2 looks the name up, 3 gives the memory back. *)
Definition three : list act :=
  [AStep 1; AStep 2; AStep 3; AStep 2; AStep 2; AStep 1; AStep 2; AStep 1; AStep 3; AStep 2; AStep 1; AStep 1; AStep 1; AStep 1; AStep 3; AStep 3; AStep 3; AStep 2;
   AOp 1 (SAllocate "a" 100); AStep 2; AOp 2 (SFind "a"); AOp 3 (SDeallocate 128); AOp 1 (SAllocate "b" 10)]%string.
Example C75_ready_ex :
  Forall stays three /\ Forall quiet three /\
  exists g, execs page three s_init = Ok g tt /\
    ready g 1 0 4096 /\ ready g 2 0 4096 /\ ready g 3 0 4096 /\
    ops_of 0 (s_log g) = [SAllocate "a" 100; SFind "a"; SDeallocate 128; SAllocate "b" 10]%string /\
    finds g 0 "a"%string = Some 0 /\ finds g 0 "b"%string = Some 128.
Proof.
  split; [repeat constructor|]. split; [repeat constructor|]. apply ends. vm_compute. repeat split; reflexivity.
Qed.

Example C75_history_ex : polite [SAllocate "a" 100; SFind "a"; SDeallocate 128; SAllocate "b" 10]%string (seg_init 4096) [].
Proof. apply politeb_ok. vm_compute. reflexivity. Qed.

(** 1 comes first, 2 while 1 sets the segment up, 3 later. *)
Definition early : list act := map AStep [2; 1; 1; 2; 1; 1; 1; 2; 1].
Definition late : list act := map AStep [2; 3; 2; 3; 2; 2; 3; 2; 3; 3].
Example C75_opens_ex :
  Forall quiet early /\ Forall quiet late /\ (6 <= turns 1 early)%nat /\ (5 <= turns 2 late)%nat /\ (5 <= turns 3 late)%nat /\
  exists g, execs page (AStep 1 :: early ++ late) s_init = Ok g tt.
Proof. repeat split; try (repeat constructor). eexists. reflexivity. Qed.

(** All in and all out again. *)
Example C75_leaves_ex :
  Forall orderly (enter 1 ++ enter 2 ++ leave 2 ++ leave 1) /\
  exists g, execs page (enter 1 ++ enter 2 ++ leave 2 ++ leave 1) s_init = Ok g tt /\ s_pc g 1 = Gone /\ s_pc g 2 = Gone /\ s_name g = None.
Proof. split; [repeat constructor|]. apply ends. vm_compute. repeat split; reflexivity. Qed.

(** The claim "if all sizes are sensible, a process that goes on gets in" is false: the maker is killed on the way. *)
Theorem C75_killed_refuted :
  exists acts g, execs page acts s_init = Ok g tt /\ s_pc g 2 = Start /\ hopeless page g.
Proof.
  exists (repeat (AStep 1) 4 ++ [AKill 1]).
  destruct (ends (fun g => s_pc g 2 = Start /\ s_name g = Some 0%nat /\ o_flag (s_obj g 0%nat) = 1 /\ s_pc g (o_maker (s_obj g 0%nat)) = Dead) page
    (repeat (AStep 1) 4 ++ [AKill 1]) s_init) as (g & E & H1 & H2 & H3 & H4); [vm_compute; repeat split; reflexivity|].
  exists g. split; [exact E|]. split; [exact H1|].
  apply (abandoned page page_ok (repeat (AStep 1) 4 ++ [AKill 1]) g 0%nat); [repeat constructor|exact E|exact H2|rewrite H3; discriminate|rewrite H4; exact I].
Qed.
Print Assumptions C75_killed_refuted.

(** The claim "processes that have the segment of one name at the same time share their memory" is false: 2 leaves, which takes
    the name away, so that 3 makes another segment while 1 still uses the first: 3 does not find what 1 has allocated.  And 1,
    as it leaves, takes the name of the segment of 3 away: 4 makes a third. *)
Theorem C75_leave_refuted :
  exists acts g, execs page acts s_init = Ok g tt /\ ready g 1 0%nat 4096 /\ ready g 3 1%nat 4096 /\
    s_log g = [(0%nat, SAllocate "a" 100)]%string /\ finds g 0 "a"%string = Some 128 /\ finds g 1 "a"%string = Some 0 /\
    exists g', execs page (leave 1 ++ enter 4) g = Ok g' tt /\ ready g' 3 1%nat 4096 /\ ready g' 4 2%nat 4096.
Proof.
  exists (enter 1 ++ enter 2 ++ [AOp 1 (SAllocate "a"%string 100)] ++ leave 2 ++ enter 3).
  destruct (ends (fun g => ready g 1 0%nat 4096 /\ ready g 3 1%nat 4096 /\
    s_log g = [(0%nat, SAllocate "a" 100)]%string /\ finds g 0 "a"%string = Some 128 /\ finds g 1 "a"%string = Some 0 /\
    match execs page (leave 1 ++ enter 4) g with Ok g' _ => ready g' 3 1%nat 4096 /\ ready g' 4 2%nat 4096 | _ => False end) page
    (enter 1 ++ enter 2 ++ [AOp 1 (SAllocate "a"%string 100)] ++ leave 2 ++ enter 3) s_init) as (g & E & H1 & H2 & H3 & H4 & H5 & H6);
    [vm_compute; repeat split; reflexivity|].
  exists g. repeat (split; [assumption|]). apply ends. exact H6.
Qed.
Print Assumptions C75_leave_refuted.

(** The claim "a segment has the size that was asked for" is false: who comes second gets that of the first, without being told. *)
Theorem C75_asked_refuted :
  exists req acts, (forall q, 0 < req q < 2 ^ 63) /\ 4096 < req 2 /\ exists g, execs req acts s_init = Ok g tt /\ ready g 2 0%nat 4096.
Proof.
  exists (fun q => if q =? 2 then 65536 else 4096), (enter 1 ++ enter 2). split; [intros q; destruct (q =? 2); vm_compute; split; reflexivity|].
  split; [reflexivity|]. apply ends. vm_compute. reflexivity.
Qed.
Print Assumptions C75_asked_refuted.

(** The claim "a process that has the segment can use it" is false: 1 is killed inside an operation, and no operation of 2
    is ever done. *)
Theorem C75_killed_inside_refuted :
  exists acts g, execs page acts s_init = Ok g tt /\ ready g 2 0%nat 4096 /\
    forall acts' g', execs page acts' g = Ok g' tt -> ops_of 0 (s_log g') = [].
Proof.
  exists (enter 1 ++ enter 2 ++ [ACrash 1]).
  destruct (ends (fun g => ready g 2 0%nat 4096 /\ o_lock (s_obj g 0%nat) = Some 1 /\ s_log g = []) page (enter 1 ++ enter 2 ++ [ACrash 1]) s_init)
    as (g & E & H1 & H2 & H3); [vm_compute; repeat split; reflexivity|].
  exists g. split; [exact E|]. split; [exact H1|]. intros acts' g' E'.
  destruct (locked page page_ok _ acts' g g' 2 0%nat 4096 1 E H1 H2 E') as [-> _]. now rewrite H3.
Qed.
Print Assumptions C75_killed_inside_refuted.

(** The claim "the name is gone when all processes are" is false if one was killed; the next one to come finds the segment as
    the dead left it. *)
Theorem C75_leftover_refuted :
  exists acts g, execs page acts s_init = Ok g tt /\ s_pc g 1 = Dead /\ ready g 2 0%nat 4096 /\ finds g 0 "a"%string = Some 128.
Proof.
  exists (enter 1 ++ [AOp 1 (SAllocate "a"%string 100); AKill 1] ++ enter 2). apply ends. vm_compute. repeat split; reflexivity.
Qed.
Print Assumptions C75_leftover_refuted.
