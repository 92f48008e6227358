(** Property C57 from the program to the replay by way of the file. *)
From Coq Require Import String Ascii.
From Verif Require Import Base ReplayModel ReplaySpec ReplayFacts JsonModel StoreModel JsonSpec StoreFacts TornFacts TraceModel TraceFacts.

(** The records of a program, the first one not by way of the typed functions, go to a new store.  However
    the stream reaches the file, the tool gets operations from the file that repeat the calls of the program,
    or an initial part of them if the library throws.
    Missing: names that are not UTF-8 (see the refutation) and the programs that [program] leaves out. *)
Theorem C57_log_partial : forall strtod H e l disk,
  program H -> logs_all H (RGeneric e :: l) -> Forall writable (RGeneric e :: l) ->
  exists w file cs, record_all (RGeneric e :: l) (mk_store disk true false) = SOk w tt /\
    (forall m, finished (fold_right flush w m) = Some file) /\ tool strtod file = Ok cs tt /\
    forall W (lib : rcall -> W -> outcome W Z) ptrs w, orderly lib -> ptrs 0 = None ->
      (exists rs f, run_all lib cs ptrs w = Ok rs tt /\ mirrors H (r_log rs) f) \/
      (exists rs e H1 H0 f, run_all lib cs ptrs w = Throw rs e /\ H = (H1 ++ H0)%list /\ mirrors H0 (r_log rs) f).
Proof. exact log_mirrors. Qed.
Print Assumptions C57_log_partial.

(** Every line of a file is as long as an operation: the tool, which takes the size of the file for its
    table, has the room. *)
Theorem C57_file_room : forall l ts, Forall writable l -> Forall2 (fun r t => text r = DOk t) l ts ->
  OPSIZE * Z.of_nat (List.length l) <= Z.of_nat (List.length (concat ts)).
Proof. exact texts_long. Qed.
Print Assumptions C57_file_room.

(** A session with a pool whose name has a quote, a backslash and a newline, and a reallocation. *)
Definition odd_name : string := String "a" (String """" (String "\" (String "010" EmptyString))).
Definition calls : list pcall :=
  [PFree 0x7000 0x340; PRealloc 0x7000 0x300 64 [PFree 0x7000 0x300; PCopy; PAlloc 0x7000 64 0x340] (Some 0x340);
   PAlloc 0x7000 16 0x300; PMake 0x7000 odd_name "QuickPool" "HOST" true [AN 1024; AN 512; AN 16; AS "heuristic"];
   PMakeRes 0x5000 "HOST"; PMeta "version"]%string.
Definition version : ev :=
  StoreModel.build 1 [BName (bs "version"); BCat Metadata; BStr (bs "major") (bs "2024"); BNum (bs "minor") 7].
Definition session : list rec :=
  [oper_event 2 "make_memory_resource" [BPtr (bs "allocator_ref") 0x5000; BNum (bs "introspection") 1; ntag (bs "HOST"); rtag];
   oper_event 3 "make_allocator"
     ([BPtr (bs "allocator_ref") 0x7000; BStr (bs "type") (bs "QuickPool"); BNum (bs "introspection") 1;
       BStr (bs "arg0") (bs "HOST")] ++ bargs 1 [AN 1024; AN 512; AN 16; AS "heuristic"%string] ++ [ntag (bs odd_name); rtag]);
   RAllocate 16 0x7000 0x300 4;
   oper_event 5 "reallocate" [BPtr (bs "current_ptr") 0x300; BNum (bs "size") 64; BPtr (bs "allocator_ref") 0x7000; ntag (bs odd_name); rtag];
   RAllocate 64 0x7000 0x340 6;
   oper_event 7 "copy" [BPtr (bs "src") 0x300; BPtr (bs "dst") 0x340; BNum (bs "size") 16];
   RDeallocate 0x7000 0x300 8;
   oper_event 9 "reallocate" [BPtr (bs "allocator_ref") 0x7000; ntag (bs odd_name); BPtr (bs "new_ptr") 0x340];
   RDeallocate 0x7000 0x340 10].

Example C57_log_case : program calls /\ logs_all calls (RGeneric version :: session) /\ Forall writable (RGeneric version :: session).
Proof.
  split; [|split].
  - unfold calls. cbn [program may_follow]. repeat match goal with |- _ /\ _ => split end; try exact I.
    all: try (vm_compute; first [reflexivity | discriminate | intros X; discriminate X]).
    + exists [AN 1024; AN 512; AN 16]. apply (pa_pool_h "QuickPool" [AN 1024; AN 512; AN 16]).
      * left. reflexivity.
      * reflexivity.
      * repeat constructor; cbn; lia.
      * intros a E. injection E as <-. cbn. lia.
    + right. split; [lia | reflexivity].
    + right. reflexivity.
    + repeat constructor.
  - unfold calls, session. cbn [app].
    apply (la_cons _ _ [_; _; _; _; _; _; _; _; _] [_]); [|apply l_free].
    apply (la_cons _ _ [_; _; _; _] [_; _; _; _; _]).
    + apply (la_cons _ _ [_; _; _] [_]); [|apply l_alloc].
      apply (la_cons _ _ [_; _] [_]); [|apply (l_make 3 0x7000 odd_name "QuickPool" "HOST" true [AN 1024; AN 512; AN 16; AS "heuristic"%string])].
      apply (la_cons _ _ [_] [_]); [|apply (l_res 2 0x5000 "HOST" true)].
      apply (la_cons _ _ [] [_]); [apply la_nil|]. apply (l_meta 1 "version" [BStr _ _; BNum _ _]). repeat constructor.
    + apply (l_realloc 5 9 _ _ 0x7000 0x300 64 _ (Some 0x340) [_; _; _]); [lia|].
      apply (la_cons _ _ [_; _] [_]); [|apply l_free]. apply (la_cons _ _ [_] [_]); [|apply l_copy; repeat constructor].
      apply (la_cons _ _ [] [_]); [apply la_nil | apply l_alloc].
  - unfold session, oper_event. repeat apply Forall_cons; try apply Forall_nil; cbn [writable]; unfold word, long; try lia.
    all: split; [apply build_fits; unfold long; lia|].
    all: split; [apply ascii_b; reflexivity|]; repeat split; vm_compute v_str; vm_compute v_num; vm_compute v_tag;
      repeat apply Forall_cons; try apply Forall_nil; cbn [fst snd]; repeat split; apply ascii_b; reflexivity.
Qed.

Definition counting : rcall -> Z -> outcome Z Z := fun _ w => Ok (w + 16) w.
Definition strtod0 : bytes -> option Z := fun _ => Some 0.
Definition by_file (l : list rec) : outcome cstate unit :=
  match record_all l (mk_store None true false) with
  | SOk w _ => match finished w with Some f => tool strtod0 f | None => UB end
  | _ => UB
  end.
Definition replayed (l : list rec) : option (list (rcall * Z)) :=
  match by_file l with
  | Ok cs _ => match run_all counting cs fempty 0x100 with Ok rs _ => Some (r_log rs) | _ => None end
  | _ => None
  end.
Example C57_log_case_replayed : replayed (RGeneric version :: session) = Some
  [(RFree 1 0x130, 0x140); (RRealloc 1 0x120 64, 0x130); (RAlloc 1 16, 0x120);
   (RCreate 1 "QuickPool" odd_name "HOST" true [AN 1024; AN 512; AN 16], 0x110); (RCreate 0 "" "HOST" "" true [], 0x100)].
Proof. vm_compute. reflexivity. Qed.

(** Refuted: an allocator whose name is not UTF-8 is not recorded.  The program goes on; its log is that of
    a program the tool would repeat, but the tool stops at the first use of the allocator. *)
Theorem C57_log_utf8_refuted : exists H l, program H /\ logs_all H l /\ Forall (fun r => match r with RGeneric e => fits e | _ => writable r end) l /\
  by_file l = Abort.
Proof.
  set (name := String "200" "A"%string).
  exists [PAlloc 0x7000 16 0x300; PMake 0x7000 name "SlotPool" "HOST" true [AN 8]; PMakeRes 0x5000 "HOST"]%string,
    [oper_event 2 "make_memory_resource" [BPtr (bs "allocator_ref") 0x5000; BNum (bs "introspection") 1; ntag (bs "HOST"); rtag];
     oper_event 3 "make_allocator"
       ([BPtr (bs "allocator_ref") 0x7000; BStr (bs "type") (bs "SlotPool"); BNum (bs "introspection") 1;
         BStr (bs "arg0") (bs "HOST")] ++ bargs 1 [AN 8] ++ [ntag (bs name); rtag]);
     RAllocate 16 0x7000 0x300 4].
  split; [|split; [|split]].
  - cbn [program may_follow]. repeat match goal with |- _ /\ _ => split end; try exact I.
    all: try (vm_compute; first [reflexivity | discriminate | intros X; discriminate X]).
    exists [AN 8]. apply pa_one; [cbn; tauto | cbn; lia].
  - apply (la_cons _ _ [_; _] [_]); [|apply l_alloc].
    apply (la_cons _ _ [_] [_]); [|apply (l_make 3 0x7000 name "SlotPool" "HOST" true [AN 8])].
    apply (la_cons _ _ [] [_]); [apply la_nil | apply (l_res 2 0x5000 "HOST" true)].
  - repeat apply Forall_cons; try apply Forall_nil; try (apply build_fits; unfold long; lia). cbn [writable]. unfold word, long. lia.
  - vm_compute. reflexivity.
Qed.
Print Assumptions C57_log_utf8_refuted.
