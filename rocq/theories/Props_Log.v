(** Theorems about the log and the errors. *)
From Coq Require Import String Ascii.
From Verif Require Import Base NamingModel LogModel LogSpec LogFacts.

(** C60: UMPIRE_LOG_LEVEL is one of four words, in any mixture of large and small letters; otherwise the level is Info. *)
Theorem C60_level :
  initial_level None = Ok tt 2 /\
  (forall v i x, documented_level i x -> same_word v x -> initial_level (Some v) = Ok tt i) /\
  (forall v, plain v -> (forall i x, documented_level i x -> ~ same_word v x) -> initial_level (Some v) = Ok tt 2).
Proof. exact log_initial. Qed.
Print Assumptions C60_level.

Example C60_level_case :
  same_word "wArning" "WARNING" /\ initial_level (Some "wArning"%string) = Ok tt 1 /\ initial_level (Some "4"%string) = Ok tt 2 /\
  plain "4".
Proof. cbn. unfold same_letter. cbn. repeat split; lia || reflexivity. Qed.

(** C60: whatever the program does, what it wrote to the log is, wherever the log goes, a beginning of the lines of the
    messages at least as urgent as the level in force, in order; it is all of them unless the stream is bad, which it
    never gets when all writes succeed.  Nothing is written elsewhere. *)
Theorem C60_written :
  forall takes syncs ops l w, separate (i_buf w) -> i_enabled w = set_level l -> exists t,
    log_of l ops t /\ i_buf (l_run takes syncs ops w) = i_buf w /\
    (i_bad (l_run takes syncs ops w) = false -> i_bad w = false /\ gained w (l_run takes syncs ops w) t) /\
    (forall s, (goes_to (i_buf w) s -> exists p, prefix p t /\ i_text (l_run takes syncs ops w) s = i_text w s ++ p) /\
               (~ goes_to (i_buf w) s -> i_text (l_run takes syncs ops w) s = i_text w s)) /\
    ((forall k, takes k = true) -> (forall k, syncs k = true) -> i_bad (l_run takes syncs ops w) = i_bad w).
Proof. exact log_written. Qed.
Print Assumptions C60_written.

Definition ex_io (b : buffer) : io := mkIo (fun _ => []) 0 0 false b (set_level 2).
Definition ex_ops : list lop :=
  [LMessage 3 "hidden" "a.cpp" 7; LMessage 0 " f bad" "a.cpp" 12; LLevel 0; LMessage 2 "x" "b.cpp" 1; LMessage 0 "" "b.cpp" 2].
Definition nl : string := String (ascii_of_nat 10) "".

Example C60_case :
  let w := l_run (fun _ => true) (fun _ => true) ex_ops (ex_io (Both (Some Stderr) (Some LogFile))) in
  string_of_list_ascii (i_text w LogFile) = ("[ERROR][a.cpp:12]: f bad" ++ nl ++ "[ERROR][b.cpp:2]:" ++ nl)%string /\
  i_text w Stderr = i_text w LogFile /\ i_text w Stdout = [] /\ separate (Both (Some Stderr) (Some LogFile)).
Proof. vm_compute. repeat split; try reflexivity. discriminate. Qed.

(** C60: the log ends early only if a character or a flush that it asked for failed, and does whenever one did. *)
Theorem C60_failures :
  forall takes syncs ops w, i_bad w = false ->
    (i_bad (l_run takes syncs ops w) = false <->
     all_fine takes (i_puts w) (i_puts (l_run takes syncs ops w)) /\ all_fine syncs (i_syncs w) (i_syncs (l_run takes syncs ops w))).
Proof. exact log_failures. Qed.
Print Assumptions C60_failures.

(** The flush of the file fails, that of the console does not: the second message is lost on both. *)
Example C60_failures_case :
  let w := l_run (fun _ => true) (fun k => negb (Nat.eqb k 1)) ex_ops (ex_io (Both (Some Stderr) (Some LogFile))) in
  i_bad w = true /\ i_syncs w = 2%nat /\
  string_of_list_ascii (i_text w Stderr) = ("[ERROR][a.cpp:12]: f bad" ++ nl)%string /\ i_text w LogFile = i_text w Stderr.
Proof. vm_compute. repeat split; reflexivity. Qed.

(** "A message is written unless writing it fails" is false: after one failure the rest of the log is lost. *)
Theorem C60_lost_refuted :
  exists takes, (forall k, k <> 3%nat -> takes k = true) /\
    let w := l_run takes (fun _ => true) ex_ops (ex_io (Both None (Some LogFile))) in
    string_of_list_ascii (i_text w LogFile) = "[ER"%string.
Proof. exists (fun k => negb (Nat.eqb k 3)). split; [intros k H; destruct (Nat.eqb_spec k 3); [contradiction|reflexivity]|]. vm_compute. reflexivity. Qed.
Print Assumptions C60_lost_refuted.

(** "Any text can be the level" is false: toupper of a negative char is undefined. *)
Theorem C60_locale_refuted : exists v, initial_level (Some v) = UB.
Proof. exists (String "e" (String "r" (String (ascii_of_nat 195) (String (ascii_of_nat 184) "r"))))%string. vm_compute. reflexivity. Qed.
Print Assumptions C60_locale_refuted.

(** C61: names of log files differ for different processes, numbers and kinds. *)
Theorem C61_distinct :
  forall dir base pid id ext pid' id' ext', 0 <= pid -> 0 <= id -> 0 <= pid' -> 0 <= id' ->
    file_name dir base pid id ext = file_name dir base pid' id' ext' -> pid = pid' /\ id = id' /\ ext = ext'.
Proof. exact log_names_distinct. Qed.
Print Assumptions C61_distinct.

(** C61: however many files there are, short of 2^31, a name is found. *)
Theorem C61_found :
  forall fs dir base pid ext l, 0 <= pid -> only fs l -> Z.of_nat (length l) < 2 ^ 31 - 1 ->
    exists f, make_unique_filename (S (length l)) fs dir base pid ext 0 = Ok tt f.
Proof. exact log_name_found. Qed.
Print Assumptions C61_found.

(** C61: starting the library changes no file that can be read, whether it succeeds or throws. *)
Theorem C61_keeps :
  forall filesystem mpi rank0 dir base pid fuel enable made y, y_opened y = None -> i_buf (y_io y) = Direct Stdout ->
    match initialize_io filesystem mpi rank0 dir base pid fuel enable made y with
    | Ok y' _ | Throw y' _ => forall x f, y_files y x = Some f -> f_readable f = true -> y_files y' x = Some f
    | _ => True
    end.
Proof. exact log_keeps. Qed.
Print Assumptions C61_keeps.

(** C61: the log is a file of its own, empty at first. *)
Theorem C61_file :
  forall filesystem mpi rank0 dir base pid fuel made y y', y_opened y = None -> i_buf (y_io y) = Direct Stdout ->
    initialize_io filesystem mpi rank0 dir base pid fuel true made y = Ok y' tt ->
    exists k f, 0 <= k /\ let name := file_name dir base pid k "log" in
      file_exists (y_files y) name = false /\ y_files y' name = Some f /\ f_content f = ""%string /\
      forall x, x <> name -> y_files y' x = y_files y x.
Proof. exact log_file. Qed.
Print Assumptions C61_file.

(** C61: from then on the log goes to that file and nowhere else; without UMPIRE_LOG_LEVEL it goes nowhere. *)
Theorem C61_complete :
  forall filesystem mpi rank0 dir base pid fuel enable made y y' l ops, y_opened y = None -> i_buf (y_io y) = Direct Stdout ->
    i_enabled (y_io y) = set_level l -> initialize_io filesystem mpi rank0 dir base pid fuel enable made y = Ok y' tt ->
    exists t, log_of l ops t /\ forall takes syncs, (forall k, takes k = true) -> (forall k, syncs k = true) ->
      let w' := l_run takes syncs ops (y_io y') in
      i_text w' LogFile = i_text (y_io y) LogFile ++ (if enable then t else []) /\
      i_text w' Stdout = i_text (y_io y) Stdout /\ i_text w' Stderr = i_text (y_io y) Stderr.
Proof. exact log_complete. Qed.
Print Assumptions C61_complete.

(** C61: it starts wherever the directory exists and all files can be read. *)
Theorem C61_starts :
  forall filesystem mpi rank0 dir base pid l enable made y, 0 <= pid -> only (y_files y) l -> Z.of_nat (length l) < 2 ^ 31 - 1 ->
    y_opened y = None -> i_buf (y_io y) = Direct Stdout -> y_dir y = There ->
    (forall x f, y_files y x = Some f -> f_readable f = true) ->
    exists y', initialize_io filesystem mpi rank0 dir base pid (S (length l)) enable made y = Ok y' tt.
Proof. exact log_starts. Qed.
Print Assumptions C61_starts.

(** A directory with the log of an earlier process of the same number. *)
Definition ex_old : string := "./umpire.77.0.log".
Definition ex_fs (r : bool) : files := fun x => if String.eqb x ex_old then Some (mkFile "old" r true) else None.
Definition ex_y (r : bool) (d : directory) : system := mkSystem (ex_fs r) d None (ex_io (Direct Stdout)).

Example C61_case :
  only (ex_fs true) [ex_old] /\
  match initialize_io true false false "." "umpire" 77 5 true true (ex_y true There) with
  | Ok y' _ => y_files y' ex_old = Some (mkFile "old" true true) /\ y_files y' "./umpire.77.1.log"%string = Some (mkFile "" true true) /\
               string_of_list_ascii (i_text (l_run (fun _ => true) (fun _ => true) ex_ops (y_io y')) LogFile) =
                 ("[ERROR][a.cpp:12]: f bad" ++ nl ++ "[ERROR][b.cpp:2]:" ++ nl)%string
  | _ => False
  end.
Proof.
  split; [intros x H; unfold ex_fs in H; destruct (String.eqb_spec x ex_old); [subst; left; reflexivity|contradiction]|].
  vm_compute. repeat split; reflexivity.
Qed.

(** "No existing file is overwritten" is false of files that can be written but not read. *)
Theorem C61_unreadable_refuted :
  match initialize_io true false false "." "umpire" 77 5 true true (ex_y false There) with
  | Ok y' _ => y_files (ex_y false There) ex_old = Some (mkFile "old" false true) /\ y_files y' ex_old = Some (mkFile "" false true)
  | _ => False
  end.
Proof. vm_compute. split; reflexivity. Qed.
Print Assumptions C61_unreadable_refuted.

(** "Two processes have different logs" is false of processes of one number on two hosts sharing the directory: both look
    before either creates the file. *)
Theorem C61_two_hosts_refuted :
  exists dir base pid f,
    make_unique_filename 5 (fun _ => None) dir base pid "log" 0 = Ok tt f /\
    forall fs', open_truncate f (fun _ => None) = Some fs' ->
      (exists g, fs' f = Some g) /\ open_truncate f fs' <> None.
Proof.
  exists "."%string, "umpire"%string, 77, "./umpire.77.0.log"%string. split; [reflexivity|]. intros fs' [= <-]. split; [eexists; reflexivity|discriminate].
Qed.
Print Assumptions C61_two_hosts_refuted.

(** "A program that asks for no log starts" is false when UMPIRE_OUTPUT_DIR does not exist. *)
Theorem C61_needless_refuted :
  exists y', initialize_io true false false "." "umpire" 77 5 false true (ex_y true Absent) = Throw y' RuntimeError.
Proof. eexists. reflexivity. Qed.
Print Assumptions C61_needless_refuted.

(** "It starts once the reason of a failure is gone" is false: the file is opened only once. *)
Theorem C61_retry_refuted :
  exists fs y1 y2, initialize_io true false false "." "umpire" 77 5 true true (mkSystem fs There None (ex_io (Direct Stdout))) = Throw y1 RuntimeError /\
    initialize_io true false false "." "umpire" 77 5 true true (mkSystem (fun _ => None) There (y_opened y1) (y_io y1)) = Throw y2 RuntimeError.
Proof.
  exists (fun x => if String.eqb x ex_old then Some (mkFile "" false false) else None). eexists. eexists. split; reflexivity.
Qed.
Print Assumptions C61_retry_refuted.

(** C61: the end of a program without a log is defined. *)
Theorem C61_end : forall debug, program_end debug false = Ok tt tt.
Proof. intros []; reflexivity. Qed.
Print Assumptions C61_end.

(** "The end of every program is defined" is false: the buffer of the log is destroyed after the file it flushes. *)
Theorem C61_end_refuted : forall debug, program_end debug true = UB.
Proof. intros []; reflexivity. Qed.
Print Assumptions C61_end_refuted.

(** C62: an out_of_memory_error of an allocator tells what was asked and of which allocator. *)
Theorem C62_out_of_memory :
  forall (W : Type) id strategy null bytes (w w' : W), bytes <> 0 -> strategy bytes w = (w', inr OutOfMemory) ->
    exists r, e_allocate id strategy null bytes w = (w', inr r) /\ x_kind r = OutOfMemory /\ x_requested r = bytes /\ x_allocator r = id.
Proof. intros W. exact log_out_of_memory. Qed.
Print Assumptions C62_out_of_memory.

Example C62_case :
  e_allocate 4 (fun n w => if n <=? w then (w - n, inl 4096) else (w, inr OutOfMemory)) (fun w => (w, inl 1)) 100 50
    = (50, inr (mkReport OutOfMemory 100 4 None)).
Proof. reflexivity. Qed.

(** The same of named allocations is false. *)
Theorem C62_named_refuted :
  exists (named : string -> Z -> unit -> unit * (Z + exn)) r,
    named "x"%string 100 tt = (tt, inr OutOfMemory) /\
    e_named_allocate named (fun w => (w, inl 1)) "x" 100 tt = (tt, inr r) /\ x_requested r = 0 /\ x_allocator r = -1.
Proof. exists (fun _ _ w => (w, inr OutOfMemory)). eexists. split; [reflexivity|]. split; [reflexivity|]. split; reflexivity. Qed.
Print Assumptions C62_named_refuted.

(** "unknown_pointer_error tells the pointer" is false: nobody sets it. *)
Theorem C62_pointer_refuted :
  forall known p, known p = false -> exists r, e_find known p = inr r /\ x_kind r = UnknownPointer /\ x_pointer r = None.
Proof. intros known p H. unfold e_find. rewrite H. eexists. split; [reflexivity|]. split; reflexivity. Qed.
Print Assumptions C62_pointer_refuted.
