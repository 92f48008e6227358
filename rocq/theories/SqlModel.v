(** Model of src/umpire/event/sqlite_database.cpp and src/umpire/event/quest_database.cpp.

    SQLite is modelled as far as the statements of this file need it: a string literal ends at a quote
    that is not doubled, a statement [INSERT INTO EVENTS VALUES(json('...'));] appends what [json]
    makes of the literal or is an error.  [sj]: the function [json] of SQLite ([None]: malformed);
    [other]: what SQLite does with any other text.  Simplified: the disk does not fail while rows are
    added; rows are selected in the order in which they were added. *)
From Coq Require Import String.
From Verif Require Import Base ReplayModel JsonModel StoreModel.

(** ** Statements *)

(** sqlite_database.cpp:61, 69, 88, 107. *)
Definition insert_text : bytes := bs "INSERT INTO EVENTS VALUES(json('".
(** sqlite_database.cpp:61, 75, 94, 112. *)
Definition end_text : bytes := bs "'));".

(** sqlite_database.cpp:61, 70-74, 89-93, 108-111: the text between them. *)
Definition value_text (r : rec) : dres :=
  match r with
  | RGeneric e => dump (to_json e)
  | RAllocate size ref ptr time =>
      DOk (bs "{""category"":""operation"",""name"":""allocate"",""numeric_args"":{""size"":" ++ show_d (s64 size) ++
           bs "},""string_args"":{""allocator_ref"":""" ++ bs (show_p ref) ++ bs """,""pointer"":""" ++ bs (show_p ptr) ++
           bs """},""tags"":{""replay"":""true""},""timestamp"":" ++ show_d time ++ bs "}")
  | RNamed size ref ptr name time =>
      DOk (bs "{""category"":""operation"",""name"":""named_allocate"",""numeric_args"":{""size"":" ++ show_d (s64 size) ++
           bs "},""string_args"":{""allocator_ref"":""" ++ bs (show_p ref) ++ bs """,""pointer"":""" ++ bs (show_p ptr) ++
           bs """,""allocation_name"":""" ++ cstr name ++
           bs """},""tags"":{""replay"":""true""},""timestamp"":" ++ show_d time ++ bs "}")
  | RDeallocate ref ptr time =>
      DOk (bs "{""category"":""operation"",""name"":""deallocate"",""string_args"":{""allocator_ref"":""" ++
           bs (show_p ref) ++ bs """,""pointer"":""" ++ bs (show_p ptr) ++
           bs """},""tags"":{""replay"":""true""},""timestamp"":" ++ show_d time ++ bs "}")
  end.

(** [char buffer[512]] (67, 85, 104): [sprintf] writes a null byte after the text. *)
Definition buffer_size : nat := 512.

(** The statement as a C string. *)
Definition sql_text (r : rec) : dres :=
  dbind (value_text r) (fun t =>
  let s := insert_text ++ t ++ end_text in
  if generic r then DOk (cstr s) else if (length s <? buffer_size)%nat then DOk s else DUB).

(** ** SQLite *)

(** What follows the opening quote: the value of the literal and the rest; a doubled quote is one. *)
Fixpoint literal (s : bytes) : option (bytes * bytes) :=
  match s with
  | [] => None
  | c :: s =>
      if c =? 39 then
        match s with
        | [] => Some ([], [])
        | d :: s' => if d =? 39 then match literal s' with Some (a, r) => Some (39 :: a, r) | None => None end
                     else Some ([], s)
        end
      else match literal s with Some (a, r) => Some (c :: a, r) | None => None end
  end.

(** The rest of a text after the given beginning. *)
Fixpoint strip (p s : bytes) : option bytes :=
  match p, s with
  | [], _ => Some s
  | a :: p, b :: s => if a =? b then strip p s else None
  | _ :: _, [] => None
  end.

(** The rows of EVENTS. *)
Definition rows := list bytes.

(** [XErr]: [sqlite3_exec] reports an error; what the statements before it did stays. *)
Inductive xres := XOk (d : rows) | XErr (d : rows).

(** [IThrow]: an exception of nlohmann; [IExit]: exit(1) (39). *)
Inductive ires (A : Type) := IOk (d : rows) (a : A) | IThrow (d : rows) | IExit (d : rows) | IUB.
Arguments IOk {A} d a.
Arguments IThrow {A} d.
Arguments IExit {A} d.
Arguments IUB {A}.

Section Sqlite.
  Variable strtod : bytes -> option Z.
  Variable sj : bytes -> option bytes.
  Variable other : bytes -> rows -> xres.

  (** [sqlite3_exec]: one statement of the known form, then the rest of the text. *)
  Definition exec (sql : bytes) (d : rows) : xres :=
    match strip insert_text sql with
    | None => other sql d
    | Some s =>
        match literal s with
        | None => other sql d
        | Some (t, r) =>
            match strip (bs "));") r with
            | None => other sql d
            | Some r => match sj t with
                        | None => XErr d
                        | Some v => match r with [] => XOk (d ++ [v]) | _ => other r (d ++ [v]) end
                        end
            end
        end
    end.

  (** sqlite_database.cpp:43-56.  [ok]: the file can be opened and is a database; otherwise the failure
      of [sqlite3_open] is printed and the statement fails.  A table that is there stays. *)
  Definition connect (ok : bool) (old : rows) : ires unit := if ok then IOk old tt else IExit old.

  (** sqlite_database.cpp:58-118, with 32-41. *)
  Definition sql_insert (r : rec) (d : rows) : ires unit :=
    match sql_text r with
    | DOk s => match exec s d with XOk d => IOk d tt | XErr d => IExit d end
    | DThrow => IThrow d
    | DUB | DFloat => IUB
    end.

  (** sqlite_database.cpp:124-132 for each row.  An exception would pass through the frames of SQLite,
      which are C: undefined. *)
  Fixpoint select (d : rows) : option (list ev) :=
    match d with
    | [] => Some []
    | v :: d =>
        match parse strtod v with
        | POk j => match from_json j with
                   | COk e => option_map (cons e) (select d)
                   | _ => None
                   end
        | _ => None
        end
    end.

  (** sqlite_database.cpp:120-138. *)
  Definition sql_events (d : rows) : ires (list ev) :=
    match select d with Some l => IOk d l | None => IUB end.

  (** event_store_recorder.cpp:21-39: an exception goes to the program, which is taken to go on. *)
  Fixpoint sql_all (l : list rec) (d : rows) : ires unit :=
    match l with
    | [] => IOk d tt
    | r :: l => match sql_insert r d with
                | IOk d _ | IThrow d => sql_all l d
                | IExit d => IExit d
                | IUB => IUB
                end
    end.

  (** A recorder (recorder_factory.cpp:35-50) that opens the database and is given records. *)
  Definition sql_run (ok : bool) (old : rows) (l : list rec) : ires unit :=
    match connect ok old with IOk d _ => sql_all l d | r => r end.
End Sqlite.

(** ** quest_database.cpp *)

(** Conversion to [int] (56-57). *)
Definition s32 (x : Z) : Z := let y := w32 x in if y <? 2 ^ 31 then y else y - 2 ^ 32.

(** quest_database.cpp:37-42, 44-49. *)
Definition tag_text (kv : bytes * bytes) : bytes := 44 :: fst kv ++ 61 :: snd kv.
(** quest_database.cpp:53-59. *)
Definition num_text (sep : bytes) (kv : bytes * Z) : bytes := fst kv ++ 61 :: show_d (s32 (snd kv)) ++ sep.

(** quest_database.cpp:33-64. *)
Definition packet (e : ev) : bytes :=
  let sep := if (1 <? length (v_num e))%nat then [44] else [] in
  v_name e ++ concat (map tag_text (v_str e)) ++ concat (map tag_text (v_tag e)) ++ [32] ++
  concat (map (num_text sep) (v_num e)) ++ [32] ++ show_d (v_time e) ++ [10].

(** quest_database.cpp:31-85: what is given to [send] (70), which gets the text as a C string.  The typed
    events are dropped.  Simplified: the connection is there and takes all bytes. *)
Definition quest_send (r : rec) : bytes := match r with RGeneric e => cstr (packet e) | _ => [] end.
Definition quest_all (l : list rec) : bytes := concat (map quest_send l).
(** quest_database.cpp:87-91. *)
Definition quest_events : list ev := [].
