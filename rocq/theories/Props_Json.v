(** Property C70: what is recorded in a JSON file is what is read from it. *)
From Coq Require Import String.
From Verif Require Import Base ReplayModel JsonModel StoreModel JsonSpec Utf8Facts JsonFacts ParseFacts StoreFacts TornFacts.

(** A byte string is printed if and only if it is UTF-8; if not, nlohmann throws.  The buffer of 512 bytes
    does not overflow and the decoder stays in its table. *)
Theorem C70_string : forall s, is_bytes s ->
  (utf8 s /\ exists t, dump_str s = DOk t) \/ (~ utf8 s /\ dump_str s = DThrow).
Proof. exact dump_str_cases. Qed.
Print Assumptions C70_string.

(** The text of a value is one line without control characters; parsed, it gives an equal value. *)
Theorem C70_value : forall strtod j, good_json j ->
  exists t j', dump j = DOk t /\ Forall (fun b => 32 <= b) t /\ parse strtod t = POk j' /\ same j j'.
Proof. exact value_back. Qed.
Print Assumptions C70_value.

(** An event gives back itself. *)
Theorem C70_event : forall strtod e, fits e -> utf8_ev e ->
  exists t j, dump (to_json e) = DOk t /\ parse strtod t = POk j /\ from_json j = COk e.
Proof. exact event_back. Qed.
Print Assumptions C70_event.

(** The builders make such events, whatever they are given. *)
Theorem C70_build : forall now l, long now -> fits (build now l).
Proof. exact build_fits. Qed.
Print Assumptions C70_build.

(** Records that go to a new store, the first one not by way of the typed functions: the program gets an
    exception for each event that is not UTF-8; all others are in the file, in order, however the stream
    reached it ([m]), and a reader gets the events that were meant.
    Missing: names of allocations that are not plain (see the refutations). *)
Theorem C70_file_partial : forall strtod e l l' disk, kept (RGeneric e :: l) l' ->
  exists w, record_all (RGeneric e :: l) (mk_store disk true false) = SOk w tt /\
  forall m, exists r, get_events strtod (mk_store (finished (fold_right flush w m)) true true) =
                      SOk r (map meant l') /\ s_disk r = finished w.
Proof. exact kept_back. Qed.
Print Assumptions C70_file_partial.

(** An event that is not UTF-8 leaves nothing in the store. *)
Theorem C70_invalid : forall e w, fits e -> bytes_ev e -> ~ utf8_ev e -> s_open w = true ->
  insert (RGeneric e) w = SJson w.
Proof. exact invalid_nothing. Qed.
Print Assumptions C70_invalid.

(** While the program runs, or after it was killed, a reader gets an initial part of the events or an
    exception, never another event. *)
Theorem C70_prefix_partial : forall strtod e l l' disk w n, kept (RGeneric e :: l) l' ->
  record_all (RGeneric e :: l) (mk_store disk true false) = SOk w tt ->
  exists d, s_disk (flush n w) = Some d /\
  ((exists l1 l2 r, l' = l1 ++ l2 /\ get_events strtod (mk_store (Some d) true true) = SOk r (map meant l1)) \/
   (exists r, get_events strtod (mk_store (Some d) true true) = SThrow r)).
Proof. exact kept_prefix. Qed.
Print Assumptions C70_prefix_partial.

(** It is an exception, and all is lost, if a line was cut by more than its newline. *)
Theorem C70_torn : forall strtod l ts r p s, Forall writable (l ++ [r]) ->
  Forall2 (fun r t => text r = DOk t) l ts -> text r = DOk (p ++ s) -> p <> [] -> (1 < length s)%nat ->
  exists w, get_events strtod (mk_store (Some (concat ts ++ p)) true true) = SThrow w.
Proof. exact torn_texts. Qed.
Print Assumptions C70_torn.

(** A session: the name of an allocator has a quote, a backslash, a newline and a letter of two bytes; one
    has a byte that is not UTF-8; sizes with and without the high bit. *)
Definition nasty : bytes := bs "a""b\" ++ [10; 195; 164].
Definition strtod0 : bytes -> option Z := fun _ => Some 0.
Definition first : ev := build 5 [BName (bs "make_memory_resource"); BCat Operation; BTag (bs "allocator_name") nasty;
                                  BPtr (bs "allocator_ref") 0x5000; BNum (bs "introspection") 1].
Definition broken : ev := build 6 [BName (bs "make_allocator"); BCat Operation; BTag (bs "allocator_name") [200; 65]].
Definition session : list rec :=
  [RGeneric first; RAllocate 16 0x5000 0x300 7; RGeneric broken; RNamed (2 ^ 64 - 1) 0x5000 0x340 (bs "field a") 8;
   RDeallocate 0x5000 0x300 (-9)].
Definition session_kept : list rec :=
  [RGeneric first; RAllocate 16 0x5000 0x300 7; RNamed (2 ^ 64 - 1) 0x5000 0x340 (bs "field a") 8;
   RDeallocate 0x5000 0x300 (-9)].

Example C70_case : kept session session_kept.
Proof.
  unfold session, session_kept.
  assert (U : utf8_ev first).
  { assert (N : utf8 nasty).
    { change nasty with [97; 34; 98; 92; 10; 195; 164]. repeat (apply u_1; [lia|]). apply u_2; [lia | unfold tail; lia | constructor]. }
    split; [apply ascii_b; reflexivity|]. repeat split; repeat apply Forall_cons; try apply Forall_nil; cbn [fst snd];
      repeat split; first [exact N | apply ascii_b; reflexivity]. }
  apply k_keep; [split; [apply build_fits; unfold long; lia | exact U]|].
  apply k_keep; [cbn [writable]; unfold word, long; lia|].
  apply k_drop.
  - apply build_fits. unfold long. lia.
  - split; [apply ascii_bytes; reflexivity|]. repeat split; repeat apply Forall_cons; try apply Forall_nil; cbn [fst snd];
      repeat split; apply ascii_bytes; reflexivity.
  - intros (_ & _ & _ & T). apply Forall_inv in T. destruct T as (_ & T). cbn in T. inversion T; subst; unfold tail in *; try lia.
  - apply k_keep; [cbn [writable]; unfold word, long; split; [lia|]; split; [lia|]; split; [lia|]; split; [|lia];
                   apply plainb_plain; reflexivity|].
    apply k_keep; [cbn [writable]; unfold long; lia|]. constructor.
Qed.

Definition read_back (l : list rec) : option (list ev) :=
  match record_all l (mk_store (Some (bs "old")) true false) with
  | SOk w _ => match get_events strtod0 (mk_store (finished w) true true) with SOk _ es => Some es | _ => None end
  | _ => None
  end.
Example C70_case_read : read_back session = Some (map meant session_kept).
Proof. vm_compute. reflexivity. Qed.
Example C70_case_torn : exists p s, text (RAllocate 16 0x5000 0x300 7) = DOk (p ++ s) /\ p <> [] /\ (1 < length s)%nat.
Proof.
  exists (bs "{""category"""). eexists. split; [cbn [text]; f_equal; vm_compute; reflexivity|]. split; [discriminate | cbn; lia].
Qed.
Example C70_case_invalid : let w := {| s_disk := Some []; s_writable := true; s_ro := false; s_open := true; s_pend := bs "x";
                                       s_pos := O; s_eof := false |} in insert (RGeneric broken) w = SJson w.
Proof. vm_compute. reflexivity. Qed.

(** Refuted: the name of an allocation is printed without escapes (json_file_store.cpp:53-65).  One with a
    quote, or one that is not UTF-8, makes the whole file unreadable. *)
Theorem C70_quote_refuted : exists s s', utf8 s /\ is_bytes s' /\
  read_back [RGeneric first; RNamed 8 0x5000 0x340 s 8] = None /\
  read_back [RGeneric first; RNamed 8 0x5000 0x340 s' 8] = None /\
  match record_all [RGeneric first; RNamed 8 0x5000 0x340 s 8] (mk_store None true false) with SOk _ _ => True | _ => False end.
Proof.
  exists (bs "5"" gap"), [65; 200]. split; [apply ascii_b; reflexivity|]. split; [apply ascii_bytes; reflexivity|].
  split; [vm_compute; reflexivity|]. split; [vm_compute; reflexivity|]. vm_compute. exact I.
Qed.
Print Assumptions C70_quote_refuted.

(** Refuted: such a name can change the other fields of the event. *)
Theorem C70_forge_refuted : exists s, utf8 s /\
  read_back [RGeneric first; RNamed 8 0x5000 0x340 s 8] =
  Some [first; op "named_allocate" [(bs "size", 8)]
          [(bs "allocation_name", bs "x"); (bs "allocator_ref", bs "0x5000"); (bs "pointer", bs "0x1")] 8].
Proof. exists (bs "x"",""pointer"":""0x1"). split; [apply ascii_b; reflexivity | vm_compute; reflexivity]. Qed.
Print Assumptions C70_forge_refuted.

(** Refuted: such a name can add events. *)
Theorem C70_inject_refuted : exists s, utf8 s /\
  option_map (map v_name) (read_back [RGeneric first; RNamed 8 0x5000 0x340 s 8]) =
  Some [bs "make_memory_resource"; bs "named_allocate"; bs "release"].
Proof.
  exists (bs "x""},""tags"":{},""timestamp"":0}" ++ [10] ++
     bs "{""category"":""operation"",""name"":""release"",""string_args"":{""allocator_ref"":""0x5000").
  split; [apply ascii_b; reflexivity | vm_compute; reflexivity].
Qed.
Print Assumptions C70_inject_refuted.

(** Refuted: a name ends at its first null byte. *)
Theorem C70_null_refuted : exists s s', utf8 s /\ s <> s' /\
  read_back [RGeneric first; RNamed 8 0x5000 0x340 s 8] = Some (map meant [RGeneric first; RNamed 8 0x5000 0x340 s' 8]).
Proof.
  exists (bs "a" ++ [0] ++ bs "b"), (bs "a"). split; [apply ascii_b; reflexivity|]. split; [discriminate | vm_compute; reflexivity].
Qed.
Print Assumptions C70_null_refuted.

(** Refuted: the typed functions use a stream that only the other one opens. *)
Theorem C70_unopened_refuted : forall n ref p t disk, insert (RAllocate n ref p t) (mk_store disk true false) = SUB.
Proof. reflexivity. Qed.
Print Assumptions C70_unopened_refuted.

(** Refuted: the events are there once.  Asked again, a reader has none. *)
Theorem C70_again_refuted : exists w, match get_events strtod0 w with
  | SOk w1 es => es = [first] /\ match get_events strtod0 w1 with SOk _ es => es = [] | _ => False end
  | _ => False
  end.
Proof.
  exists (mk_store (match text (RGeneric first) with DOk t => Some t | _ => None end) true true).
  vm_compute. split; reflexivity.
Qed.
Print Assumptions C70_again_refuted.

(** A store that is open for writing gives no events, whatever it has written, and stays as it is. *)
Theorem C70_writer : forall strtod w, s_open w = true -> s_ro w = false -> get_events strtod w = SOk w [].
Proof. exact writer_get. Qed.
Print Assumptions C70_writer.

(** Refuted: a reader follows the file.  Once it has seen the end it has no events, although there are more by now. *)
Theorem C70_growing_refuted : exists t w1, text (RGeneric first) = DOk t /\
  get_events strtod0 (mk_store (Some t) true true) = SOk w1 [first] /\
  get_events strtod0 (with_disk (Some (t ++ t)) w1) = SOk (with_disk (Some (t ++ t)) w1) [] /\
  match get_events strtod0 (mk_store (Some (t ++ t)) true true) with SOk _ es => es = [first; first] | _ => False end.
Proof.
  destruct (text (RGeneric first)) as [t| | |] eqn:E; try (vm_compute in E; discriminate E). vm_compute in E. injection E as <-.
  eexists _, _. split; [reflexivity|]. split; [vm_compute; reflexivity|]. split; vm_compute; reflexivity.
Qed.
Print Assumptions C70_growing_refuted.

(** Refuted: after an exception the events are still there.  A reader that asks again gets those after the bad line; those before it
    are lost. *)
Theorem C70_resume_refuted : exists t, text (RGeneric first) = DOk t /\
  match get_events strtod0 (mk_store (Some (t ++ t ++ bs "x" ++ [10] ++ t)) true true) with
  | SThrow w1 => match get_events strtod0 w1 with SOk _ es => es = [first] | _ => False end
  | _ => False
  end.
Proof.
  destruct (text (RGeneric first)) as [t| | |] eqn:E; try (vm_compute in E; discriminate E). vm_compute in E. injection E as <-.
  eexists. split; [reflexivity|]. vm_compute. reflexivity.
Qed.
Print Assumptions C70_resume_refuted.

(** Refuted: asking a store that is for writing empties its file and says that there are no events. *)
Theorem C70_ask_refuted : forall d, exists w, get_events strtod0 (mk_store (Some d) true false) = SOk w [] /\ finished w = Some [].
Proof. intros d. eexists. split; reflexivity. Qed.
Print Assumptions C70_ask_refuted.

(** Refuted: an event put into a store that is for reading is lost without an error. *)
Theorem C70_reader_refuted : forall r d, writable r -> generic r = true ->
  exists w, insert r (mk_store (Some d) true true) = SOk w tt /\ finished w = Some d.
Proof. exact reader_insert. Qed.
Print Assumptions C70_reader_refuted.
