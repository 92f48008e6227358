(** What the process and the devices use (src/umpire/Umpire.cpp), finding a pointer by its name, and what an error says of the allocation
    that failed (src/umpire/Allocator.inl, src/umpire/util/error.hpp). *)
From Coq Require Import String Ascii.
From Verif Require Import Base CatalogModel.

(** ** Reading numbers from a stream: [operator>>(std::size_t&)] of libstdc++ in the "C" locale, decimal.  A stream is good or not; what is
    left of it. *)
Definition stream : Type := bool * string.

Fixpoint drop_digits (s : string) : string :=
  match s with String c t => if is_digit c then drop_digits t else s | EmptyString => EmptyString end.
Definition sign (s : string) : bool * string :=
  match s with
  | String c t => if Ascii.eqb c "-" then (true, t) else if Ascii.eqb c "+" then (false, t) else (false, s)
  | EmptyString => (false, s)
  end.
Definition empty (s : string) : bool := match s with EmptyString => true | _ => false end.

(** [None]: the variable keeps what it had.  A stream that is not good, or ends before anything but spaces, leaves the variable alone; no
    digits make it 0; a number too large makes it 2^64 - 1; a minus sign negates. *)
Definition read_u (st : stream) : stream * option Z :=
  let (good, s) := st in
  if negb good then (st, None)
  else
    let s := skip_space s in
    if empty s then ((false, s), None)
    else
      let (neg, s) := sign s in
      let rest := drop_digits s in
      match s with
      | String c _ =>
          if is_digit c then
            let v := dec_val 0 s in
            if v <? M64 then ((negb (empty rest), rest), Some (if neg then w64 (- v) else v))
            else ((false, rest), Some (M64 - 1))
          else ((false, s), Some 0)
      | EmptyString => ((false, s), Some 0)
      end.

(** Umpire.cpp:154-167.  [statm]: the text of /proc/self/statm, [None] if it cannot be opened; [page]: what sysconf answers. *)
Definition process_usage (statm : option string) (page : Z) : outcome unit Z :=
  let st := match statm with None => (false, EmptyString) | Some t => (true, t) end in
  let (st, _) := read_u st in
  let (st, resident) := read_u st in
  match resident with None => UB | Some v => Ok tt (w64 (v * page)) end.

(** std::getline *)
Definition NL : ascii := ascii_of_nat 10.
Fixpoint lines_of (s : string) : list string :=
  match s with
  | EmptyString => []
  | String c t =>
      if Ascii.eqb c NL then EmptyString :: lines_of t
      else match lines_of t with
           | [] => [String c EmptyString]
           | l :: r => String c l :: r
           end
  end.

(** [operator>>(std::string&)]: the first word and what follows. *)
Fixpoint till_space (s : string) : string * string :=
  match s with
  | String c t => if is_space c then (EmptyString, s) else let (w, r) := till_space t in (String c w, r)
  | EmptyString => (EmptyString, EmptyString)
  end.

(** Umpire.cpp:125-152. *)
Fixpoint hwm_lines (l : list string) : outcome unit Z :=
  match l with
  | [] => Ok tt 0
  | s :: l =>
      let (key, rest) := till_space (skip_space s) in
      if String.eqb key "VmHWM:" then
        match snd (read_u (negb (empty rest), rest)) with None => UB | Some v => Ok tt (w64 (v * 1024)) end
      else hwm_lines l
  end.
Definition process_hwm (status : option string) : outcome unit Z :=
  match status with None => Ok tt 0 | Some t => hwm_lines (lines_of t) end.

(** ** Umpire.cpp:175-195 with CUDA.  The current device, and of each device whether it exists, free and total memory; no call's
    error is looked at, and one for a device that does not exist does nothing. *)
Record devices : Type := mkDevices { v_cur : Z; v_exists : Z -> bool; v_free : Z -> Z; v_total : Z -> Z }.
Definition set_device (id : Z) (d : devices) : devices := if v_exists d id then mkDevices id (v_exists d) (v_free d) (v_total d) else d.
Definition device_usage (id : Z) (d : devices) : devices * Z :=
  let cur := v_cur d in
  let d := set_device id d in
  let used := w64 (v_total d (v_cur d) - v_free d (v_cur d)) in
  (set_device cur d, used).

(** ** Umpire.cpp:209-236.  [ipc]: UMPIRE_ENABLE_IPC_SHARED_MEMORY; [shared]: what is behind the allocator is a HostSharedMemoryResource;
    [find]: its table, 0 for a name it does not have.  The cast is not checked: with anything else behind the allocator the behaviour is
    undefined. *)
Definition find_pointer (ipc shared : bool) (find : string -> Z) (name : string) : outcome unit Z :=
  if ipc then if shared then Ok tt (find name) else UB else Throw tt RuntimeError.

(** ** What an out_of_memory_error carries (error.hpp:80-81) and who fills it in (Allocator.inl:20-48, 68-89). *)
Record oom : Type := mkOom { o_size : Z; o_id : Z }.
Inductive made : Type := Made (p : Z) | Fails (e : oom) | Other.
(** As thrown: HostSharedMemoryResourceImpl.hpp:233 and the others. *)
Definition fresh_oom : oom := mkOom 0 (-1).
(** [ask]: what the strategy does with so many bytes; [null]: what the pool of zero-byte allocations does. *)
Definition do_allocate (id : Z) (ask : Z -> made) (null : made) (bytes : Z) : made :=
  if bytes =? 0 then null else match ask bytes with Fails _ => Fails (mkOom bytes id) | r => r end.
Definition do_named_allocate (id : Z) (ask : Z -> made) (null : made) (bytes : Z) : made :=
  if bytes =? 0 then null else ask bytes.

(** error.hpp:86-106: nobody calls set_pointer, the member has no initialiser. *)
Record unknown : Type := mkUnknown { u_pointer : option Z }.
Definition raise_unknown (ptr : Z) : unknown := mkUnknown None.       (* AllocationMap.cpp:191 *)
Definition get_pointer (e : unknown) : outcome unit Z := match u_pointer e with Some p => Ok tt p | None => UB end.
