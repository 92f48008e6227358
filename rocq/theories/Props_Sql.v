(** C72: event stores in a database (sqlite_database.cpp, quest_database.cpp). *)
From Coq Require Import String.
From Verif Require Import Base ReplayModel JsonModel StoreModel JsonSpec StoreFacts TornFacts SqlModel SqlSpec SqlFacts.

(** The records of a program are in the database, in order, after those that were there; for an event that
    is not UTF-8 the program gets an exception.  The events read are those that were meant.
    Missing: quotes in names and names of more than 200 bytes (see the refutations). *)
Theorem C72_stored_partial : forall strtod sj other l l' old es, faithful strtod sj -> stored l l' ->
  select strtod old = Some es ->
  exists d, sql_run sj other true old l = IOk d tt /\ sql_events strtod d = IOk d (es ++ map meant l').
Proof. intros strtod sj other l l' old es SJ. exact (stored_run strtod sj other SJ l l' old es). Qed.
Print Assumptions C72_stored_partial.

(** The database and the file of json_file_store.cpp give the same events. *)
Theorem C72_same_partial : forall strtod sj other e l l' disk, faithful strtod sj -> stored (RGeneric e :: l) l' ->
  exists w d r, record_all (RGeneric e :: l) (mk_store disk true false) = SOk w tt /\
  sql_run sj other true [] (RGeneric e :: l) = IOk d tt /\
  get_events strtod (mk_store (finished w) true true) = SOk r (map meant l') /\
  sql_events strtod d = IOk d (map meant l').
Proof. exact same_events. Qed.
Print Assumptions C72_same_partial.

(** An event that is not UTF-8 leaves nothing in the database. *)
Theorem C72_invalid : forall sj other e d, fits e -> bytes_ev e -> ~ utf8_ev e ->
  sql_insert sj other (RGeneric e) d = IThrow d.
Proof. exact sql_invalid. Qed.
Print Assumptions C72_invalid.

(** The buffer of 512 bytes is large enough for names of up to 200 bytes, whatever these are. *)
Theorem C72_buffer_partial : forall sj other r d, generic r = false -> small r -> sql_insert sj other r d <> IUB.
Proof. exact no_overflow. Qed.
Print Assumptions C72_buffer_partial.

(** Line protocol: what is sent for events made of words with one number that fits in an [int] tells their
    names, strings, numbers and times apart.
    Missing: all other events, categories, which strings are tags (see the refutations). *)
Theorem C72_lines_partial : forall l l', Forall lean l -> Forall lean l' ->
  quest_all (map RGeneric l) = quest_all (map RGeneric l') -> Forall2 alike l l'.
Proof. exact quest_alike. Qed.
Print Assumptions C72_lines_partial.

(** A session over a database with an event of an earlier run. *)
Definition strtod0 : bytes -> option Z := fun _ => Some 0.
Definition sj0 (t : bytes) : option bytes := match parse strtod0 t with POk _ => Some t | _ => None end.
Definition other0 (_ : bytes) (d : rows) : xres := XErr d.
Definition nasty : bytes := bs "a""b\" ++ [10; 195; 164].
Definition first : ev := build 5 [BName (bs "make_memory_resource"); BCat Operation; BTag (bs "allocator_name") nasty;
                                  BPtr (bs "allocator_ref") 0x5000; BNum (bs "introspection") 1].
Definition broken : ev := build 6 [BName (bs "make_allocator"); BCat Operation; BTag (bs "allocator_name") [200; 65]].
Definition session : list rec :=
  [RAllocate 16 0x5000 0x300 7; RGeneric first; RGeneric broken; RNamed (2 ^ 64 - 1) 0x5000 0x340 (bs "field a") 8;
   RDeallocate 0x5000 0x300 (-9)].
Definition session_kept : list rec :=
  [RAllocate 16 0x5000 0x300 7; RGeneric first; RNamed (2 ^ 64 - 1) 0x5000 0x340 (bs "field a") 8;
   RDeallocate 0x5000 0x300 (-9)].
Definition earlier : ev := build 1 [BName (bs "version"); BNum (bs "major") 6].
Definition old : rows := match dump (to_json earlier) with DOk t => [t] | _ => [] end.

Lemma first_utf8 : utf8_ev first.
Proof.
  assert (N : utf8 nasty).
  { change nasty with [97; 34; 98; 92; 10; 195; 164]. repeat (apply u_1; [lia|]). apply u_2; [lia | unfold tail; lia | constructor]. }
  split; [apply ascii_b; reflexivity|]. repeat split; repeat apply Forall_cons; try apply Forall_nil; cbn [fst snd];
    repeat split; first [exact N | apply ascii_b; reflexivity].
Qed.
Lemma broken_invalid : fits broken /\ bytes_ev broken /\ ~ utf8_ev broken.
Proof.
  split; [apply build_fits; unfold long; lia|]. split.
  - split; [apply ascii_bytes; reflexivity|]. repeat split; repeat apply Forall_cons; try apply Forall_nil; cbn [fst snd];
      repeat split; apply ascii_bytes; reflexivity.
  - intros (_ & _ & _ & T). apply Forall_inv in T. destruct T as (_ & T). cbn in T. inversion T; subst; unfold tail in *; try lia.
Qed.
Example C72_case : stored session session_kept /\ faithful strtod0 sj0 /\ select strtod0 old = Some [earlier].
Proof.
  split; [|split; [apply self_faithful | vm_compute; reflexivity]].
  unfold session, session_kept. apply st_keep; [split; [cbn [writable]; unfold word, long; lia | unfold word; lia]|].
  apply st_keep.
  { split; [split; [apply build_fits; unfold long; lia | exact first_utf8]|].
    split; [apply nq_in, nq_b; reflexivity|]. unfold quiet.
    repeat split; repeat apply Forall_cons; try apply Forall_nil; cbn [fst snd]; repeat split; apply nq_in, nq_b; reflexivity. }
  destruct broken_invalid as (F & B & U). apply st_drop; [exact F | exact B | exact U|].
  apply st_keep.
  { split; [cbn [writable]; unfold word, long; split; [lia|]; split; [lia|]; split; [lia|]; split; [|lia];
            apply plainb_plain; reflexivity|].
    split; [unfold word; lia|]. split; [unfold word; lia|]. split; [apply nq_in, nq_b; reflexivity | cbn; lia]. }
  apply st_keep; [split; [cbn [writable]; unfold long; lia | unfold word; lia]|]. constructor.
Qed.
Definition read_back (old : rows) (l : list rec) : option (list ev) :=
  match sql_run sj0 other0 true old l with
  | IOk d _ => match sql_events strtod0 d with IOk _ es => Some es | _ => None end
  | _ => None
  end.
Example C72_case_read : read_back old session = Some (earlier :: map meant session_kept).
Proof. vm_compute. reflexivity. Qed.
Example C72_case_buffer : small (RNamed (2 ^ 64 - 1) (2 ^ 64 - 1) (2 ^ 64 - 1) (repeat 39 200) (- 2 ^ 63)).
Proof. cbn [small]. unfold word. rewrite repeat_length. lia. Qed.
Definition use : ev := build 9 [BName (bs "usage"); BTag (bs "pool") (bs "p1"); BNum (bs "size") 4096].
Example C72_case_lines : lean use /\ packet use = bs "usage,pool=p1 size=4096 9" ++ [10].
Proof.
  split; [|vm_compute; reflexivity]. unfold lean, use, token, long.
  split; [repeat constructor; cbn; lia|]. split; [repeat constructor; cbn; lia|].
  split; [|cbn; lia]. exists (bs "size"), 4096. split; [reflexivity|]. split; [repeat constructor; cbn; lia | lia].
Qed.

(** Refuted: a program keeps running.  A quote in the name of an allocator ends the literal, what follows
    is no SQL (error near "s"), and the program is stopped by exit(1) (sqlite_database.cpp:39, 61). *)
Definition named (n : bytes) : ev := build 5 [BName (bs "make_allocator"); BTag (bs "allocator_name") n].
Theorem C72_quote_refuted : exists e s t, fits e /\ utf8_ev e /\ sql_text (RGeneric e) = DOk s /\
  literal (skipn (length insert_text) s) = Some (t, bs "s""},""timestamp"":5}'));") /\
  forall sj other d, other s d = XErr d -> sql_insert sj other (RGeneric e) d = IExit d.
Proof.
  exists (named (bs "it's")).
  set (s := bs "INSERT INTO EVENTS VALUES(json('{""category"":""statistic"",""name"":""make_allocator"",""numeric_args"":{},""string_args"":{},""tags"":{""allocator_name"":""it's""},""timestamp"":5}'));").
  exists s. eexists. split; [apply build_fits; unfold long; lia|]. split.
  { split; [apply ascii_b; reflexivity|]. repeat split; repeat apply Forall_cons; try apply Forall_nil; cbn [fst snd];
      repeat split; apply ascii_b; reflexivity. }
  assert (E : sql_text (RGeneric (named (bs "it's"))) = DOk s) by (vm_compute; reflexivity).
  split; [exact E|]. split; [vm_compute; reflexivity|].
  intros sj other d O. unfold sql_insert. rewrite E.
  assert (X : exec sj other s d = other s d) by reflexivity. rewrite X, O. reflexivity.
Qed.
Print Assumptions C72_quote_refuted.

(** Refuted: two quotes come back as one. *)
Theorem C72_double_refuted : exists e e', fits e /\ utf8_ev e /\ e <> e' /\ read_back [] [RGeneric e] = Some [e'].
Proof.
  exists (named (bs "a''b")), (named (bs "a'b")). split; [apply build_fits; unfold long; lia|]. split.
  { split; [apply ascii_b; reflexivity|]. repeat split; repeat apply Forall_cons; try apply Forall_nil; cbn [fst snd];
      repeat split; apply ascii_b; reflexivity. }
  split; [discriminate | vm_compute; reflexivity].
Qed.
Print Assumptions C72_double_refuted.

(** Refuted: the name of an allocation is data.  One can carry any statement of up to 100 bytes: after a
    valid row SQLite is given the rest of the name. *)
Theorem C72_inject_refuted : exists x, forall strtod sj other n ref p s t d, faithful strtod sj ->
  word n -> word ref -> word p -> Forall (fun c => c <> 0) s -> (length s <= 100)%nat -> s <> [] ->
  exists v post j, parse strtod v = POk j /\ from_json j = COk (meant (RNamed n ref p (bs "x") 0)) /\
  sql_insert sj other (RNamed n ref p (x ++ s) t) d =
  match other (s ++ post) (d ++ [v]) with XOk d => IOk d tt | XErr d => IExit d end.
Proof. exists escape_text. exact inject. Qed.
Print Assumptions C72_inject_refuted.

(** Refuted: names have any length.  With 288 bytes or more the buffer overflows. *)
Theorem C72_overflow_refuted : forall sj other n ref p s t d, word ref -> word p -> Forall (fun c => c <> 0) s ->
  (288 <= length s)%nat -> sql_insert sj other (RNamed n ref p s t) d = IUB.
Proof. exact overflow. Qed.
Print Assumptions C72_overflow_refuted.
Example C72_case_overflow : word 0x5000 /\ word 0x340 /\ Forall (fun c => c <> 0) (repeat 97 300) /\ (288 <= length (repeat 97 300))%nat.
Proof.
  unfold word. split; [lia|]. split; [lia|]. split; [|rewrite repeat_length; lia].
  apply Forall_forall. intros x Hx. apply repeat_spec in Hx. lia.
Qed.

(** Refuted: what was stored can be read.  A name can make a row that is JSON but no event; the exception
    passes through SQLite (sqlite_database.cpp:127-128). *)
Theorem C72_read_refuted : exists s d, no_quote s /\
  sql_run sj0 other0 true [] [RNamed 8 0x5000 0x340 s 8] = IOk d tt /\ sql_events strtod0 d = IUB.
Proof.
  exists (bs "x"",""k"":5,""y"":""z"). eexists. split; [apply nq_in, nq_b; reflexivity|].
  split; [vm_compute; reflexivity | vm_compute; reflexivity].
Qed.
Print Assumptions C72_read_refuted.

(** Refuted: numbers are sent.  They are cut to an [int] (quest_database.cpp:56). *)
Definition counted (n : Z) : ev := build 5 [BName (bs "usage"); BNum (bs "size") n].
Theorem C72_int_refuted : packet (counted 4294967296) = packet (counted 0) /\ counted 4294967296 <> counted 0 /\
  packet (counted 2147483648) = bs "usage size=-2147483648 5" ++ [10].
Proof. split; [vm_compute; reflexivity|]. split; [discriminate | vm_compute; reflexivity]. Qed.
Print Assumptions C72_int_refuted.

(** Refuted: lines are well formed.  After the last of several numbers there is a comma
    (quest_database.cpp:53-58), without numbers there is no field. *)
Theorem C72_comma_refuted :
  packet (build 5 [BName (bs "usage"); BNum (bs "a") 1; BNum (bs "b") 2]) = bs "usage a=1,b=2, 5" ++ [10] /\
  packet (build 5 [BName (bs "usage")]) = bs "usage  5" ++ [10].
Proof. split; vm_compute; reflexivity. Qed.
Print Assumptions C72_comma_refuted.

(** Refuted: lines tell strings from tags and categories apart, and names with a comma or a newline are one
    name: one event makes the lines of two. *)
Theorem C72_kinds_refuted :
  packet (build 5 [BName (bs "n"); BStr (bs "k") (bs "v"); BNum (bs "a") 1]) =
  packet (build 5 [BName (bs "n"); BTag (bs "k") (bs "v"); BCat Operation; BNum (bs "a") 1]) /\
  packet (build 5 [BName (bs "n,k=v"); BNum (bs "a") 1]) = packet (build 5 [BName (bs "n"); BTag (bs "k") (bs "v"); BNum (bs "a") 1]) /\
  exists e e1 e2, quest_all [RGeneric e] = quest_all [RGeneric e1; RGeneric e2].
Proof.
  split; [vm_compute; reflexivity|]. split; [vm_compute; reflexivity|].
  exists (build 5 [BName (bs "n a=1 5" ++ [10] ++ bs "m"); BNum (bs "a") 1]),
         (build 5 [BName (bs "n"); BNum (bs "a") 1]), (build 5 [BName (bs "m"); BNum (bs "a") 1]).
  vm_compute. reflexivity.
Qed.
Print Assumptions C72_kinds_refuted.

(** Refuted: allocations are sent (quest_database.cpp:75-85). *)
Theorem C72_typed_refuted : forall l, Forall (fun r => generic r = false) l -> quest_all l = [].
Proof. induction 1 as [|r l H Hl IH]; [reflexivity|]. destruct r; [discriminate H | exact IH..]. Qed.
Print Assumptions C72_typed_refuted.
