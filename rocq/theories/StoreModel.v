(** Model of src/umpire/event/json_file_store.cpp, of the builders of event.hpp and of the recorder
    (event_store_recorder.cpp, recorder_factory.cpp:35-50 without sqlite).

    The file is a list of bytes.  What a stream has been given reaches the file later, in order
    ([flush]); the C library writes the rest at [exit].  Simplified: there is one file; a writer and a
    reader do not use it at the same time; writing to the disk does not fail; lines fit in memory. *)
From Coq Require Import String.
From Verif Require Import Base ReplayModel JsonModel.

(** event.hpp:43-62. *)
Inductive rec :=
| RGeneric (e : ev)
| RAllocate (size ref ptr time : Z)
| RNamed (size ref ptr : Z) (name : bytes) (time : Z)
| RDeallocate (ref ptr time : Z).

(** ** Builders *)
Inductive barg := BName (n : bytes) | BCat (c : cat) | BStr (k v : bytes) | BPtr (k : bytes) (p : Z)
                | BNum (k : bytes) (v : Z) | BTag (k v : bytes).

(** event.hpp:34-41: a fresh event; [now]: the time of its construction. *)
Definition ev0 (now : Z) : ev :=
  {| v_name := bs "anon"; v_cat := Statistic; v_str := []; v_num := []; v_tag := []; v_time := now |}.

(** event.hpp:67-171: a number is cast to [uintmax_t] (129). *)
Definition bstep (e : ev) (a : barg) : ev :=
  match a with
  | BName n => {| v_name := n; v_cat := v_cat e; v_str := v_str e; v_num := v_num e; v_tag := v_tag e; v_time := v_time e |}
  | BCat c => {| v_name := v_name e; v_cat := c; v_str := v_str e; v_num := v_num e; v_tag := v_tag e; v_time := v_time e |}
  | BStr k v => {| v_name := v_name e; v_cat := v_cat e; v_str := mset k v (v_str e); v_num := v_num e; v_tag := v_tag e; v_time := v_time e |}
  | BPtr k p => {| v_name := v_name e; v_cat := v_cat e; v_str := mset k (bs (show_s p)) (v_str e); v_num := v_num e; v_tag := v_tag e; v_time := v_time e |}
  | BNum k v => {| v_name := v_name e; v_cat := v_cat e; v_str := v_str e; v_num := mset k (w64 v) (v_num e); v_tag := v_tag e; v_time := v_time e |}
  | BTag k v => {| v_name := v_name e; v_cat := v_cat e; v_str := v_str e; v_num := v_num e; v_tag := mset k v (v_tag e); v_time := v_time e |}
  end.
Definition build (now : Z) (l : list barg) : ev := fold_left bstep l (ev0 now).

(** ** The text of an event *)

(** A C string ends at its first null byte. *)
Fixpoint cstr (s : bytes) : bytes :=
  match s with [] => [] | c :: s => if c =? 0 then [] else c :: cstr s end.

(** [%ld] and [%lld]. *)
Fixpoint digits (fuel : nat) (n : Z) (acc : bytes) : bytes :=
  match fuel with
  | O => acc
  | S fuel => if n <? 10 then 48 + n :: acc else digits fuel (n / 10) (48 + n mod 10 :: acc)
  end.
Definition show_d (n : Z) : bytes := if n <? 0 then 45 :: digits 20 (- n) [] else digits 20 n [].

(** json_file_store.cpp:30-37 (the text without the final newline; the stream is printed as a C string),
    39-51, 53-65, 67-78. *)
Definition text (r : rec) : dres :=
  match r with
  | RGeneric e => dbind (dump (to_json e)) (fun t => DOk (cstr t ++ [10]))
  | RAllocate size ref ptr time =>
      DOk (bs "{""category"":""operation"",""name"":""allocate"",""numeric_args"":{""size"":" ++ show_d (s64 size) ++
           bs "},""string_args"":{""allocator_ref"":""" ++ bs (show_p ref) ++ bs """,""pointer"":""" ++ bs (show_p ptr) ++
           bs """},""tags"":{""replay"":""true""},""timestamp"":" ++ show_d time ++ bs "}" ++ [10])
  | RNamed size ref ptr name time =>
      DOk (bs "{""category"":""operation"",""name"":""named_allocate"",""numeric_args"":{""size"":" ++ show_d (s64 size) ++
           bs "},""string_args"":{""allocator_ref"":""" ++ bs (show_p ref) ++ bs """,""pointer"":""" ++ bs (show_p ptr) ++
           bs """,""allocation_name"":""" ++ cstr name ++
           bs """},""tags"":{""replay"":""true""},""timestamp"":" ++ show_d time ++ bs "}" ++ [10])
  | RDeallocate ref ptr time =>
      DOk (bs "{""category"":""operation"",""name"":""deallocate"",""string_args"":{""allocator_ref"":""" ++
           bs (show_p ref) ++ bs """,""pointer"":""" ++ bs (show_p ptr) ++
           bs """},""tags"":{""replay"":""true""},""timestamp"":" ++ show_d time ++ bs "}" ++ [10])
  end.

Definition generic (r : rec) : bool := match r with RGeneric _ => true | _ => false end.

(** ** The store *)

(** The file and whether it can be opened for writing; json_file_store.hpp:38-40 with the state of the
    stream: what it holds for the file, the position of the reader, whether it has seen the end. *)
Record store := { s_disk : option bytes; s_writable : bool; s_ro : bool; s_open : bool;
                  s_pend : bytes; s_pos : nat; s_eof : bool }.

(** [SThrow]: umpire::runtime_error; [SJson]: an exception of nlohmann. *)
Inductive sres (A : Type) := SOk (w : store) (a : A) | SThrow (w : store) | SJson (w : store) | SUB.
Arguments SOk {A} w a.
Arguments SThrow {A} w.
Arguments SJson {A} w.
Arguments SUB {A}.
Definition sbind {A B} (r : sres A) (f : store -> A -> sres B) : sres B :=
  match r with SOk w a => f w a | SThrow w => SThrow w | SJson w => SJson w | SUB => SUB end.

(** json_file_store.cpp:25-28 over a file. *)
Definition mk_store (disk : option bytes) (writable ro : bool) : store :=
  {| s_disk := disk; s_writable := writable; s_ro := ro; s_open := false; s_pend := []; s_pos := O; s_eof := false |}.

(** json_file_store.cpp:143-152: "w" makes the file empty. *)
Definition open_store (w : store) : sres unit :=
  if s_open w then SOk w tt
  else if s_ro w then
    match s_disk w with
    | Some _ => SOk {| s_disk := s_disk w; s_writable := s_writable w; s_ro := true; s_open := true;
                       s_pend := []; s_pos := O; s_eof := false |} tt
    | None => SThrow w
    end
  else if s_writable w then
    SOk {| s_disk := Some []; s_writable := true; s_ro := false; s_open := true;
           s_pend := []; s_pos := O; s_eof := false |} tt
  else SThrow w.

(** [fprintf(m_fstream, ...)]: no stream is undefined; on a stream that was opened for reading it fails,
    which is not noticed. *)
Definition put (t : bytes) (w : store) : sres unit :=
  if s_open w then
    SOk {| s_disk := s_disk w; s_writable := s_writable w; s_ro := s_ro w; s_open := true;
           s_pend := if s_ro w then s_pend w else s_pend w ++ t; s_pos := s_pos w; s_eof := s_eof w |} tt
  else SUB.

(** json_file_store.cpp:30-78.  Only the first kind opens the file. *)
Definition insert (r : rec) (w : store) : sres unit :=
  sbind (if generic r then open_store w else SOk w tt) (fun w _ =>
  match text r with
  | DOk t => put t w
  | DThrow => SJson w
  | DUB | DFloat => SUB
  end).

(** The stream passes [n] bytes on to the file. *)
Definition flush (n : nat) (w : store) : store :=
  {| s_disk := match s_disk w with Some d => Some (d ++ firstn n (s_pend w)) | None => None end;
     s_writable := s_writable w; s_ro := s_ro w; s_open := s_open w; s_pend := skipn n (s_pend w);
     s_pos := s_pos w; s_eof := s_eof w |}.

(** [getline]: up to and with the newline; [None]: the end. *)
Fixpoint getline (l : bytes) : option (bytes * bytes) :=
  match l with
  | [] => None
  | c :: t => if c =? 10 then Some ([10], t)
              else match getline t with
                   | Some (a, r) => Some (c :: a, r)
                   | None => Some ([c], [])
                   end
  end.

Section Read.
  Variable strtod : bytes -> option Z.

  (** json_file_store.cpp:89-104 from what is left of the file: the events, or how much was read when a
      line was refused. *)
  Inductive gres := GOk (l : list ev) | GThrow (read : nat) | GUB.
  Fixpoint read_events (fuel : nat) (l : bytes) : gres :=
    match fuel with
    | O => GUB
    | S fuel =>
        match getline l with
        | None => GOk []
        | Some (line, r) =>
            match parse strtod (cstr line) with
            | PFuel => GUB
            | PThrow => GThrow (length line)
            | POk j => match from_json j with
                       | CThrow => GThrow (length line)
                       | CUB => GUB
                       | COk e => match read_events fuel r with
                                  | GOk t => GOk (e :: t)
                                  | GThrow n => GThrow (length line + n)
                                  | GUB => GUB
                                  end
                       end
            end
        end
    end.

  (** json_file_store.cpp:80-108.  Reading a stream that was opened for writing fails at once; a stream
      that has seen the end of the file reports it again. *)
  Definition get_events (w : store) : sres (list ev) :=
    sbind (open_store w) (fun w _ =>
    if negb (s_ro w) || s_eof w then SOk w []
    else let l := skipn (s_pos w) (match s_disk w with Some d => d | None => [] end) in
         let at_ (n : nat) (eof : bool) :=
           {| s_disk := s_disk w; s_writable := s_writable w; s_ro := s_ro w; s_open := s_open w;
              s_pend := s_pend w; s_pos := (s_pos w + n)%nat; s_eof := eof |} in
         match read_events (S (length l)) l with
         | GOk es => SOk (at_ (length l) true) es
         | GThrow n => SThrow (at_ n false)
         | GUB => SUB
         end).
End Read.

(** ** Recording *)

(** event.hpp:276-294, event_store_recorder.cpp:21-39: the events of a program go to the store one after
    the other; an exception goes to the program, which is taken to go on. *)
Fixpoint record_all (l : list rec) (w : store) : sres unit :=
  match l with
  | [] => SOk w tt
  | r :: l => match insert r w with
              | SOk w _ | SThrow w | SJson w => record_all l w
              | SUB => SUB
              end
  end.

(** What is in the file after [exit]. *)
Definition finished (w : store) : option bytes := s_disk (flush (length (s_pend w)) w).
