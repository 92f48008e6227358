(** Model of the log: the levels of src/umpire/util/Logger.cpp, the stream of src/umpire/util/OutputBuffer.cpp, the
    files of src/umpire/util/io.cpp, the end of the program for the objects they consist of, and the data carried by
    exceptions (src/umpire/util/error.hpp, src/umpire/Allocator.inl).

    A character written to a file or to the console arrives at once (the buffer of std::ofstream is left out); the
    operating system may refuse any of them, and any flush.  Left out: SLIC, other threads writing to the log. *)
From Coq Require Import String Ascii.
From Verif Require Import Base NamingModel.

(** ** Levels *)

(** Logger.hpp:15-24, Logger.cpp:22 *)
Definition levels : list string := ["ERROR"; "WARNING"; "INFO"; "DEBUG"]%string.
Definition level_name (l : Z) : string := nth (Z.to_nat l) levels ""%string.

(** std::toupper(int) in the "C" locale, given a [char]: undefined for the negative ones. *)
Definition upper (c : ascii) : option ascii :=
  let n := Z.of_nat (nat_of_ascii c) in
  if 128 <=? n then None
  else if (97 <=? n) && (n <=? 122) then Some (ascii_of_nat (Z.to_nat (n - 32)))
  else Some c.

(** Logger.cpp:24-29, std::equal on two strings of one length *)
Fixpoint equal_upper (s t : string) : outcome unit bool :=
  match s, t with
  | String a s', String b t' =>
      match upper a, upper b with
      | Some x, Some y => if Ascii.eqb x y then equal_upper s' t' else Ok tt false
      | _, _ => UB
      end
  | _, _ => Ok tt true
  end.
Definition case_insensitive_match (s t : string) : outcome unit bool :=
  if Nat.eqb (String.length s) (String.length t) then equal_upper s t else Ok tt false.

(** Logger.cpp:31-48: the first level whose name matches, Info (2) if none does. *)
Fixpoint matching (v : string) (i : Z) (l : list string) : outcome unit Z :=
  match l with
  | [] => Ok tt 2
  | x :: l' => match case_insensitive_match v x with
               | Ok _ true => Ok tt i
               | Ok _ false => matching v (i + 1) l'
               | Throw w e => Throw w e
               | UB => UB | Abort => Abort | NoFuel => NoFuel
               end
  end.
Definition initial_level (env : option string) : outcome unit Z :=
  match env with None => Ok tt 2 | Some v => matching v 0 levels end.

(** Logger.cpp:50-54 *)
Definition set_level (level : Z) : list bool := map (fun i => i <=? level) [0; 1; 2; 3].

(** Logger.hpp:38-44 *)
Definition level_enabled (l : Z) (en : list bool) : bool :=
  negb ((l <? 0) || (4 <=? l) || negb (nth (Z.to_nat l) en false)).

(** ** Streams *)

Inductive sink : Type := Stdout | Stderr | LogFile.
Definition sink_eqb (a b : sink) : bool :=
  match a, b with Stdout, Stdout | Stderr, Stderr | LogFile, LogFile => true | _, _ => false end.

(** What the stream of umpire::log() writes to: standard output (io.cpp:41-45), or an OutputBuffer. *)
Inductive buffer : Type :=
| Direct (s : sink)
| Both (console file : option sink).

Record io : Type := mkIo {
  i_text : sink -> list ascii;    (** what arrived, oldest first *)
  i_puts : nat;                   (** characters offered so far, to anything *)
  i_syncs : nat;                  (** flushes so far *)
  i_bad : bool;                   (** badbit of umpire::log() *)
  i_buf : buffer;
  i_enabled : list bool           (** Logger::m_is_enabled *)
}.

Section Streams.
  Context (takes : nat -> bool).     (** the [k]-th character is accepted *)
  Context (syncs : nat -> bool).     (** the [k]-th flush succeeds *)

  Definition put_sink (s : sink) (c : ascii) (w : io) : io * bool :=
    let ok := takes (i_puts w) in
    (mkIo (fun t => if ok && sink_eqb t s then i_text w t ++ [c] else i_text w t)
          (S (i_puts w)) (i_syncs w) (i_bad w) (i_buf w) (i_enabled w), ok).

  Definition put_opt (s : option sink) (c : ascii) (w : io) : io * bool :=
    match s with Some s => put_sink s c w | None => (w, true) end.

  (** OutputBuffer.cpp:33-51: sputc on the console, then on the file; failure of either is reported. *)
  Definition overflow (console file : option sink) (c : ascii) (w : io) : io * bool :=
    let (w1, a) := put_opt console c w in
    let (w2, b) := put_opt file c w1 in
    (w2, a && b).

  Definition put_buf (c : ascii) (w : io) : io * bool :=
    match i_buf w with Direct s => put_sink s c w | Both co fi => overflow co fi c w end.

  (** std::streambuf::xsputn without a put area: overflow() for each character, up to the first failure. *)
  Fixpoint put_all (t : list ascii) (w : io) : io * bool :=
    match t with
    | [] => (w, true)
    | c :: t' => let (w1, ok) := put_buf c w in if ok then put_all t' w1 else (w1, false)
    end.

  Definition set_bad (b : bool) (w : io) : io :=
    mkIo (i_text w) (i_puts w) (i_syncs w) (i_bad w || b) (i_buf w) (i_enabled w).

  (** operator<< of std::ostream: nothing when the stream is bad, which it is after a failure. *)
  Definition insert (t : list ascii) (w : io) : io :=
    if i_bad w then w else let (w1, ok) := put_all t w in set_bad (negb ok) w1.

  (** OutputBuffer.cpp:53-66 *)
  Definition sync_opt (s : option sink) (w : io) : io * bool :=
    match s with
    | None => (w, true)
    | Some _ => (mkIo (i_text w) (i_puts w) (S (i_syncs w)) (i_bad w) (i_buf w) (i_enabled w), syncs (i_syncs w))
    end.
  Definition sync_buf (w : io) : io * bool :=
    match i_buf w with
    | Direct s => sync_opt (Some s) w
    | Both co fi => let (w1, a) := sync_opt co w in let (w2, b) := sync_opt fi w1 in (w2, a && b)
    end.
  Definition flush (w : io) : io :=
    if i_bad w then w else let (w1, ok) := sync_buf w in set_bad (negb ok) w1.

  Definition newline : ascii := ascii_of_nat 10.

  (** Logger.cpp:56-64; std::endl is a newline and a flush. *)
  Definition log_message (l : Z) (message file : string) (line : Z) (w : io) : io :=
    if negb (level_enabled l (i_enabled w)) then w
    else
      let w1 := fold_left (fun w t => insert (list_ascii_of_string t) w)
                  ["["; level_name l; "]"; "["; file; ":"; dec line; "]:"; message]%string w in
      flush (insert [newline] w1).

  (** What a program does: setLoggingMsgLevel, and UMPIRE_LOG (Macros.hpp:62-70). *)
  Inductive lop : Type :=
  | LLevel (l : Z)
  | LMessage (l : Z) (message file : string) (line : Z).

  Definition l_do (o : lop) (w : io) : io :=
    match o with
    | LLevel l => mkIo (i_text w) (i_puts w) (i_syncs w) (i_bad w) (i_buf w) (set_level l)
    | LMessage l m f n => if level_enabled l (i_enabled w) then log_message l m f n w else w
    end.
  Definition l_run (ops : list lop) (w : io) : io := fold_left (fun w o => l_do o w) ops w.
End Streams.

(** ** Files *)

Record file : Type := mkFile { f_content : string; f_readable : bool; f_writable : bool }.
Definition files : Type := string -> option file.

(** io.cpp:169-173: a file that can be opened for reading *)
Definition file_exists (fs : files) (path : string) : bool :=
  match fs path with Some f => f_readable f | None => false end.

(** io.cpp:163 *)
Definition file_name (dir base : string) (pid id : Z) (ext : string) : string :=
  (dir ++ "/" ++ base ++ "." ++ dec pid ++ "." ++ dec id ++ "." ++ ext)%string.

Definition INT_MAX31 : Z := 2 ^ 31 - 1.

(** io.cpp:156-167: the int counter is advanced before the file is looked for *)
Fixpoint make_unique_filename (fuel : nat) (fs : files) (dir base : string) (pid : Z) (ext : string) (id : Z)
  : outcome unit string :=
  match fuel with
  | O => NoFuel
  | S fuel =>
      if INT_MAX31 <=? id then UB
      else
        let name := file_name dir base pid id ext in
        if file_exists fs name then make_unique_filename fuel fs dir base pid ext (id + 1) else Ok tt name
  end.

(** std::ofstream: creates or truncates the file *)
Definition open_truncate (name : string) (fs : files) : option files :=
  match fs name with
  | Some f => if f_writable f
              then Some (fun x => if String.eqb x name then Some (mkFile "" (f_readable f) true) else fs x) else None
  | None => Some (fun x => if String.eqb x name then Some (mkFile "" true true) else fs x)
  end.

(** ** initialize_io *)

Inductive directory : Type := Absent | There | NotADirectory.

Record system : Type := mkSystem {
  y_files : files;
  y_dir : directory;            (** what UMPIRE_OUTPUT_DIR names *)
  y_opened : option bool;       (** the function-local static s_log_ofstream: constructed, and good *)
  y_io : io
}.

Section Initialize.
  Context (filesystem : bool).      (** UMPIRE_ENABLE_FILESYSTEM *)
  Context (mpi rank0 : bool).       (** MPI::isInitialized(), MPI::getRank() == 0 *)
  Context (dir base : string) (pid : Z).

  (** io.cpp:175-188 *)
  Definition directory_exists (d : directory) : bool :=
    match d with There => true | NotADirectory => filesystem | Absent => false end.

  (** io.cpp:71-138, Logger messages of MPI::logMpiInfo left out; [made]: creating the directory succeeds (a failure of
      create_directories is an exception of the standard library, taken for RuntimeError).  [rdbuf] clears the state of
      the stream. *)
  Definition initialize_io (fuel : nat) (enable_log made : bool) (y : system) : outcome system unit :=
    let w := y_io y in
    let w1 := mkIo (i_text w) (i_puts w) (i_syncs w) false (match i_buf w with Both _ f => Both None f | Direct _ => Both None None end) (i_enabled w) in
    let y1 := mkSystem (y_files y) (y_dir y) (y_opened y) w1 in
    match make_unique_filename fuel (y_files y) dir base pid "log" 0 with
    | Ok _ log_name =>
        match make_unique_filename fuel (y_files y) dir base pid "error" 0 with
        | Ok _ _ =>
            let* (y2, u) :=
              (if directory_exists (y_dir y) then Ok y1 tt
               else if negb mpi then Throw y1 RuntimeError
               else if negb rank0 then Ok y1 tt
               else match y_dir y with
                    | NotADirectory => if filesystem then Ok y1 tt else Throw y1 RuntimeError
                    | Absent => if enable_log
                                then if made then Ok (mkSystem (y_files y) There (y_opened y) w1) tt
                                     else Throw y1 RuntimeError
                                else Ok y1 tt
                    | There => Ok y1 tt
                    end) in
            if negb enable_log then Ok y2 tt
            else
              let y3 := match y_opened y2 with
                        | Some _ => y2
                        | None =>
                            match y_dir y2, open_truncate log_name (y_files y2) with
                            | There, Some fs => mkSystem fs (y_dir y2) (Some true) (y_io y2)
                            | _, _ => mkSystem (y_files y2) (y_dir y2) (Some false) (y_io y2)
                            end
                        end in
              match y_opened y3 with
              | Some true =>
                  let w := y_io y3 in
                  Ok (mkSystem (y_files y3) (y_dir y3) (y_opened y3)
                        (mkIo (i_text w) (i_puts w) (i_syncs w) (i_bad w) (Both None (Some LogFile)) (i_enabled w))) tt
              | _ => Throw y3 RuntimeError
              end
        | UB => UB | Throw _ e => Throw y1 e | Abort => Abort | NoFuel => NoFuel
        end
    | UB => UB | Throw _ e => Throw y1 e | Abort => Abort | NoFuel => NoFuel
    end.
End Initialize.

(** ** The end of the program *)

(** Objects of static storage duration, in the order their constructors return: the stream of umpire::log()
    (io.cpp:41-45), the two buffers (io.cpp:57-67), the stream of umpire::error(), the file (io.cpp:128), the
    ResourceManager (ResourceManager.cpp:48-54).  The Logger has a trivial destructor. *)
Inductive static : Type := SLogStream | SErrorStream | SLogBuffer | SErrorBuffer | SFile | SManager.
Definition static_eqb (a b : static) : bool :=
  match a, b with
  | SLogStream, SLogStream | SErrorStream, SErrorStream | SLogBuffer, SLogBuffer | SErrorBuffer, SErrorBuffer
  | SFile, SFile | SManager, SManager => true
  | _, _ => false
  end.

(** getInstance(): with the level Debug, the message of ResourceManager.cpp:65 makes the stream first. *)
Definition started (debug enable_log : bool) : list static :=
  (if debug then [SLogStream; SLogBuffer; SErrorBuffer] else [SLogBuffer; SErrorBuffer; SLogStream])
  ++ [SErrorStream] ++ (if enable_log then [SFile] else []) ++ [SManager].

(** Objects a destructor uses: ~ResourceManager (ResourceManager.cpp:77-92) may log; ~OutputBuffer
    (OutputBuffer.cpp:68-77) flushes its file; the error buffer has the console only. *)
Definition dtor_uses (enable_log : bool) (x : static) : list static :=
  match x with
  | SManager => SLogStream :: SLogBuffer :: (if enable_log then [SFile] else [])
  | SLogBuffer => if enable_log then [SFile] else []
  | _ => []
  end.

(** Destruction in reverse order of construction. *)
Fixpoint exit_run (enable_log : bool) (alive : list static) : outcome unit unit :=
  match alive with
  | [] => Ok tt tt
  | x :: rest =>
      if forallb (fun u => existsb (static_eqb u) rest) (dtor_uses enable_log x) then exit_run enable_log rest else UB
  end.
Definition program_end (debug enable_log : bool) : outcome unit unit :=
  exit_run enable_log (rev (started debug enable_log)).

(** ** Exceptions *)

(** error.hpp:14-106; [None] is an indeterminate value *)
Record report : Type := mkReport { x_kind : exn; x_requested : Z; x_allocator : Z; x_pointer : option Z }.
Definition fresh_report (k : exn) : report := mkReport k 0 (-1) None.

Section Errors.
  Context {W : Type}.
  Context (id : Z).                                              (** of the Allocator *)
  Context (strategy : Z -> W -> W * (Z + exn)).                  (** AllocationStrategy::allocate *)
  Context (named : string -> Z -> W -> W * (Z + exn)).           (** AllocationStrategy::allocate_named *)
  Context (null : W -> W * (Z + exn)).                           (** Allocator::allocateNull *)

  Definition throwing (r : W * (Z + exn)) : W * (Z + report) :=
    match r with (w, inl p) => (w, inl p) | (w, inr e) => (w, inr (fresh_report e)) end.

  (** Allocator.inl:20-50 without registering and recording *)
  Definition e_allocate (bytes : Z) (w : W) : W * (Z + report) :=
    if 0 =? bytes then throwing (null w)
    else match throwing (strategy bytes w) with
         | (w', inr (mkReport OutOfMemory r i p)) => (w', inr (mkReport OutOfMemory bytes id p))
         | r => r
         end.

  (** Allocator.inl:68-89 *)
  Definition e_named_allocate (name : string) (bytes : Z) (w : W) : W * (Z + report) :=
    if 0 =? bytes then throwing (null w) else throwing (named name bytes w).
End Errors.

(** AllocationMap.cpp:176-193 and its callers: unknown_pointer_error is thrown as constructed; nobody calls
    set_pointer. *)
Definition e_find (known : Z -> bool) (p : Z) : Z + report :=
  if known p then inl p else inr (fresh_report UnknownPointer).
