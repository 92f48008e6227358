(** Model of the sessions of the replay tool over one log: its options and the compiled file it keeps beside the log
    (tools/replay/replay.cpp, ReplayOptions.hpp, ReplayFile.cpp, ReplayInterpreter.cpp:32-50, 52-175,
    ReplayOperationManager.cpp:41-54, 145-338, 491-707).  Compiling and running are those of ReplayModel.v.

    Simplified: the fields of the table of allocators other than the pointers to them are as the compiler wrote them; what the
    tool prints is left out; [exit(-1)] (ReplayMacros.hpp) ends the session; --skip-operations changes nothing because copies
    are not compiled (ReplayInterpreter.cpp:134-139). *)
From Coq Require Import String.
From Verif Require Import Base ReplayModel.
Local Open Scope string_scope.
Local Open Scope Z_scope.

(** ReplayOptions.hpp:37-51; only the values the validators accept (13-37).  [p_pool]: the class asked for. *)
Record opts := mkOpts { p_force : bool; p_dump : bool; p_pool : option string; p_heur : option (string * Z) }.
Definition no_opts : opts := mkOpts false false None None.

Definition poolish (cls : string) : bool := String.eqb cls "DynamicPoolList" || String.eqb cls "QuickPool".

Definition with_cls (cls : string) (en : entry) : entry :=
  {| en_cls := cls; en_name := en_name en; en_base := en_base en; en_tracked := en_tracked en; en_args := en_args en |}.

(** ReplayOperationManager.cpp:324-333: the class in the table is overwritten. *)
Definition retype (o : opts) (en : entry) : entry :=
  match p_pool o with
  | None => en
  | Some cls => if poolish (en_cls en) then with_cls cls en else en
  end.

(** QuickPool.hpp:42-44, DynamicPoolList.hpp:47-49. *)
Definition first_default : Z := 512 * 1024 * 1024.
Definition next_default : Z := 1024 * 1024.
Definition align_default : Z := 16.

(** ReplayOperationManager.cpp:493-509, 632-648. *)
Definition filled (l : list arg) : list arg :=
  match l with
  | [] => [AN first_default; AN next_default; AN align_default]
  | [a] => [a; AN next_default; AN align_default]
  | [a; b] => [a; b; AN align_default]
  | _ => l
  end.

(** ReplayOperationManager.cpp:335-1060.  A heuristic is an argument with its parameter (511-522, 650-661); it is passed if the
    pool is tracked (524-533, 663-665) and not otherwise (534-542, 666-669). *)
Definition creation (o : opts) (k : Z) (en : entry) : rcall :=
  let args :=
    match p_heur o with
    | Some (h, parm) =>
        if poolish (en_cls en) then
          if en_tracked en then (filled (en_args en) ++ [AS h; AN parm])%list else filled (en_args en)
        else en_args en
    | None => en_args en
    end in
  RCreate k (en_cls en) (en_name en) (en_base en) (en_tracked en) args.

Definition with_entries (ents : fmap entry) (cs : cstate) : cstate :=
  {| c_nalloc := c_nalloc cs; c_entries := ents; c_nops := c_nops cs; c_tab := c_tab cs; c_refs := c_refs cs;
     c_index := c_index cs; c_ids := c_ids cs; c_re := c_re cs |}.

Section Run.
  Context {W : Type} (lib : rcall -> W -> outcome W Z) (o : opts).

  (** The tool while it runs: as in ReplayModel.v, and the table of allocators. *)
  Definition tstate : Type := @rstate W * fmap entry.

  (** ReplayOperationManager.cpp:167-216: operation [i]. *)
  Definition opt_op (cs : cstate) (i : Z) (s : tstate) : outcome tstate unit :=
    let '(st, ents) := s in
    let p := match c_tab cs i with Some p => p | None => ozero end in
    match o_type p with
    | TCreate =>
        let k := o_allocator p in
        let en := match ents k with Some en => en
                  | None => {| en_cls := "INIT"; en_name := EmptyString; en_base := EmptyString; en_tracked := false; en_args := [] |} end in
        let en := retype o en in
        let ents := fset ents k en in
        match call lib (creation o k en) st with
        | Ok st _ => Ok ({| r_lib := r_lib st; r_made := fset (r_made st) k tt; r_ptrs := r_ptrs st; r_log := r_log st |}, ents) tt
        | Throw st e => Throw (st, ents) e
        | UB => UB | Abort => Abort | NoFuel => NoFuel
        end
    | _ => omap (fun st => (st, ents)) (fun u => u) (run_op lib (with_entries ents cs) i st)
    end.

  (** ReplayOperationManager.cpp:225-283: the statistics of all allocators whose pointer is not null.  [objs k]: there is a
      pointer from an earlier session in entry [k]. *)
  Definition opt_dump (cs : cstate) (objs : Z -> bool) (s : tstate) : outcome tstate unit :=
    if p_dump o && existsb (fun k => negb (is_made (Z.of_nat k) (fst s)) && objs (Z.of_nat k)) (seq 0 (Z.to_nat (c_nalloc cs)))
    then UB else Ok s tt.

  (** ReplayOperationManager.cpp:163-285: operations [i], [i + 1], ..., [n] of them. *)
  Fixpoint opt_run (cs : cstate) (objs : Z -> bool) (i : Z) (n : nat) (s : tstate) : outcome tstate unit :=
    match n with
    | O => Ok s tt
    | S n => let* (s, _) := opt_op cs i s in
             let* (s, _) := opt_dump cs objs s in
             opt_run cs objs (i + 1) n s
    end.
End Run.

(** ** The compiled file *)

(** The contents of the file: table, pointers of allocations, which pointers to allocators are set. *)
Record image := mkImage { m_cs : cstate; m_ptrs : fmap Z; m_objs : Z -> bool }.

(** [Foreign]: without the magic number and the version (ReplayFile.cpp:114-117), as that of another version of the tool; its
    bytes may be anything where the pointers to allocators go. *)
Inductive bfile := Absent | Foreign (objs : Z -> bool) | Compiled (m : image).

(** ReplayFile.cpp:109-137: checkHeader. *)
Definition compile_needed (o : opts) (f : bfile) : bool :=
  p_force o || match f with Compiled _ => false | _ => true end.

(** The bytes of a file that is compiled again stay where the compiler does not write (ReplayFile.cpp:30-45 opens without
    truncating; ReplayInterpreter.cpp:375-404, 406-660 do not write the pointer). *)
Definition old_objs (f : bfile) : Z -> bool :=
  match f with Absent => fun _ => false | Foreign objs => objs | Compiled m => m_objs m end.

(** The compiler, with what is in the table when it stops: magic number and version are written before it starts
    (ReplayFile.cpp:54-55), the table is mapped from the file (37-50).  Simplified: nothing of the event it stops at. *)
Fixpoint compile_keep (fsize : Z) (l : list event) (st : cstate) : cstate * outcome cstate unit :=
  match l with
  | nil => (st, Ok st tt)
  | e :: t => match compile_event fsize e st with
              | Ok st' _ => compile_keep fsize t st'
              | Throw st' x => (st, Throw st' x)
              | UB => (st, UB) | Abort => (st, Abort) | NoFuel => (st, NoFuel)
              end
  end.

(** How a session ends: the tool stops while compiling, runs to an end, or is undefined (or meets an operation it does not know
    while running); and what is then in the file. *)
Inductive ended (W : Type) := Stopped (f : bfile) | Ran (r : outcome (@tstate W) unit) (f : bfile) | Undefined.
Arguments Stopped {W} f. Arguments Ran {W} r f. Arguments Undefined {W}.

Section Session.
  Context {W : Type} (lib : rcall -> W -> outcome W Z) (o : opts).

  Definition run_image (m : image) (w : W) : outcome tstate unit :=
    opt_run lib o (m_cs m) (m_objs m) 1 (Z.to_nat (c_nops (m_cs m) - 1))
      ({| r_lib := w; r_made := fempty; r_ptrs := m_ptrs m; r_log := [] |}, c_entries (m_cs m)).

  (** What the run leaves in the table; ~ReplayOperationManager (47-54) does not clear the pointers it deletes. *)
  Definition left_image (m : image) (s : @tstate W) : image :=
    mkImage (with_entries (snd s) (m_cs m)) (r_ptrs (fst s)) (fun k => m_objs m k || is_made k (fst s)).

  (** The table is mapped privately, or shared if compiling is forced (ReplayFile.cpp:37-50). *)
  Definition run_mapped (m : image) (w : W) : ended W :=
    let r := run_image m w in
    if p_force o then
      match r with
      | Ok s _ | Throw s _ => Ran r (Compiled (left_image m s))
      | _ => Undefined
      end
    else match r with Ok _ _ | Throw _ _ => Ran r (Compiled m) | _ => Undefined end.

  (** replay.cpp:50-68 with ReplayInterpreter.cpp:52-175: [log] are the events in the file of [fsize] bytes, [f] is the
      compiled file.  After compiling it is opened again (174-175): with --recompile it counts as not compiled once more, and
      is mapped shared. *)
  Definition session (fsize : Z) (log : list event) (f : bfile) (w : W) : ended W :=
    if compile_needed o f then
      match compile_keep fsize log c_init with
      | (_, Ok cs _) => run_mapped (mkImage cs fempty (old_objs f)) w
      | (cs, Abort) => Stopped (Compiled (mkImage cs fempty (old_objs f)))
      | _ => Undefined
      end
    else match f with Compiled m => run_mapped m w | _ => Undefined end.
End Session.
