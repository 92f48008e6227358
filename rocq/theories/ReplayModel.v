(** Model of the recording of events and of the replay tool:
    src/umpire/event/json_file_store.cpp, the calls of [event::record] in Allocator.inl, Allocator.cpp,
    ResourceManager.cpp, ResourceManager.inl and the pools, and tools/replay/ReplayInterpreter.cpp,
    ReplayFile.cpp, ReplayOperationManager.cpp.

    Simplified: events go to the tool as they are (for the file between them see TraceModel.v); options of the tool are the
    defaults, and it is built with NUMA; line numbers, messages and the demangling of class names are
    left out; [exit(-1)] is [Abort]. *)
From Coq Require Import String Ascii HexString.
From Verif Require Import Base NamingModel.

(** ** Events *)

(** event.hpp:34-41 without the time.  [e_oper]: the category is [operation]. *)
Record event := { e_name : string; e_oper : bool; e_str : list (string * string);
                  e_num : list (string * Z); e_tag : list (string * string) }.

(** [map.find]. *)
Fixpoint afind {A} (k : string) (l : list (string * A)) : option A :=
  match l with
  | nil => None
  | (k', v) :: t => if String.eqb k k' then Some v else afind k t
  end.

(** [map[k]] of a map of strings, of a map of numbers. *)
Definition sget (k : string) (l : list (string * string)) : string :=
  match afind k l with Some v => v | None => EmptyString end.
Definition nget (k : string) (l : list (string * Z)) : Z :=
  match afind k l with Some v => v | None => 0 end.

(** A pointer printed by [%p] of glibc (json_file_store.cpp:44, 58, 71). *)
Definition show_p (p : Z) : string := if p =? 0 then "(nil)"%string else HexString.of_Z p.
(** A pointer printed by [operator<<] of libstdc++ (event.hpp:86-93). *)
Definition show_s (p : Z) : string := if p =? 0 then "0"%string else HexString.of_Z p.

(** ReplayInterpreter.cpp:677, 688: [std::stoul(s, nullptr, 0)]; it throws on anything but a
    number.  Simplified: on the strings the library prints. *)
Definition stoul (s : string) : option Z :=
  if String.eqb s "0" then Some 0
  else if prefix "0x" s then Some (HexString.to_Z s) else None.

(** Arguments of allocators: names (of advice, allocators, heuristics) and numbers. *)
Inductive arg := AS (s : string) | AN (z : Z).

(** What a program did, newest call first.  Allocators are the addresses of their strategies. *)
Inductive pcall :=
| PMakeRes (r : Z) (name : string)                    (** ResourceManager::makeResource *)
| PMake (r : Z) (name cls base : string) (tracked : bool) (args : list arg)
                                                      (** ResourceManager::makeAllocator *)
| PAlloc (r n q : Z)                                  (** Allocator::allocate returned q *)
| PNamed (r : Z) (name : string) (n q : Z)            (** Allocator::allocate(name, n) returned q *)
| PFree (r p : Z)                                     (** Allocator::deallocate, whatever came of it *)
| PRealloc (r p n : Z) (inner : list pcall) (q : option Z)
   (** ResourceManager::reallocate; calls recorded meanwhile, newest first; [None]: it threw *)
| PDefault (r : Z)                                    (** setDefaultAllocator *)
| PRelease (r : Z)                                    (** Allocator::release *)
| PCoalesce (name : string)                           (** coalesce of the pool so named *)
| PCopy | PMove | PMemset | PRegister | PDeregister   (** their last event *)
| PMeta (name : string).                              (** events that are no operations *)

Definition mk_event (n : string) (s : list (string * string)) (m : list (string * Z)) (t : list (string * string)) :=
  {| e_name := n; e_oper := true; e_str := s; e_num := m; e_tag := t |}.

Local Open Scope string_scope.
Local Open Scope Z_scope.

(** event.hpp:147-158: the arguments from number [i] on; numbers are cast to 64 bits (120-125). *)
Definition argk (i : nat) : string := "arg" ++ dec (Z.of_nat i).
Fixpoint arg_strs (i : nat) (l : list arg) : list (string * string) :=
  match l with
  | nil => nil
  | AS s :: l => (argk i, s) :: arg_strs (S i) l
  | AN _ :: l => arg_strs (S i) l
  end.
Fixpoint arg_nums (i : nat) (l : list arg) : list (string * Z) :=
  match l with
  | nil => nil
  | AS _ :: l => arg_nums (S i) l
  | AN z :: l => (argk i, w64 z) :: arg_nums (S i) l
  end.

(** The events of a call, oldest first. *)
Fixpoint record (c : pcall) : list event :=
  match c with
  | PMakeRes r name =>                                 (* ResourceManager.cpp:161-168 *)
      [mk_event "make_memory_resource" [("allocator_ref", show_s r)] [("introspection", 1)] [("allocator_name", name)]]
  | PMake r name cls base tracked args =>              (* ResourceManager.inl:39-48 *)
      [mk_event "make_allocator"
         (("allocator_ref", show_s r) :: ("type", cls) :: ("arg0", base) :: arg_strs 1 args)%list
         (("introspection", if tracked then 1 else 0) :: arg_nums 1 args)%list [("allocator_name", name)]]
  | PAlloc r n q =>                                    (* Allocator.inl:44-45, json_file_store.cpp:39-51 *)
      [mk_event "allocate" [("allocator_ref", show_p r); ("pointer", show_p q)] [("size", n)] [("replay", "true")]]
  | PNamed r name n q =>                               (* Allocator.inl:86-87, json_file_store.cpp:53-65 *)
      [mk_event "named_allocate" [("allocator_ref", show_p r); ("pointer", show_p q); ("allocation_name", name)]
                [("size", n)] [("replay", "true")]]
  | PFree r p =>                                       (* Allocator.inl:97, json_file_store.cpp:67-78 *)
      [mk_event "deallocate" [("allocator_ref", show_p r); ("pointer", show_p p)] [] [("replay", "true")]]
  | PRealloc r p n inner q =>                          (* ResourceManager.cpp:547-567, 607-628 *)
      let fix records (l : list pcall) : list event :=
        match l with nil => nil | c :: t => (records t ++ record c)%list end in
      (mk_event "reallocate" [("current_ptr", show_s p); ("allocator_ref", show_s r)] [("size", n)] []
       :: records inner ++
      match q with
      | Some q => [mk_event "reallocate" [("new_ptr", show_s q); ("allocator_ref", show_s r)] [] []]
      | None => []
      end)%list
  | PDefault r =>                                      (* ResourceManager.cpp:275-281 *)
      [mk_event "set_default_allocator" [("allocator_ref", show_s r)] [] []]
  | PRelease r =>                                      (* Allocator.cpp:30-36 *)
      [mk_event "release" [("allocator_ref", show_s r)] [] []]
  | PCoalesce name =>                                  (* QuickPool.cpp:320-322, DynamicPoolList.cpp:128-130 *)
      [mk_event "coalesce" [] [] [("allocator_name", name)]]
  | PCopy => [mk_event "copy" [] [] []]                (* ResourceManager.cpp:393-405; arguments left out *)
  | PMove => [mk_event "move" [] [] []]                (* ResourceManager.cpp:766-773, 821-829 *)
  | PMemset => [mk_event "memset" [] [] []]            (* ResourceManager.cpp:478-487 *)
  | PRegister => [mk_event "register_external_allocation" [] [] []]       (* Umpire.cpp:265-273 *)
  | PDeregister => [mk_event "deregister_external_allocation" [] [] []]   (* Umpire.cpp:281-283 *)
  | PMeta name => [{| e_name := name; e_oper := false; e_str := []; e_num := []; e_tag := [] |}]
  end.

(** The events of a program. *)
Fixpoint records (l : list pcall) : list event :=
  match l with nil => nil | c :: t => (records t ++ record c)%list end.

(** ** The text of an event: its length decides how much room the tool has *)
Section Line.
  (** [nlohmann]'s text of the two kinds of maps and of the time. *)
  Variables (dump_s : list (string * string) -> string) (dump_n : list (string * Z) -> string).

  (** json_file_store.cpp:30-37 (event_json.hpp:22-33; nlohmann sorts the keys) and 39-82.  [ts]: the
      time.  The decimal of a size is that of a [long]; its sign is left out. *)
  Definition line (e : event) (ts : string) : string :=
    if String.eqb (e_name e) "allocate" then
      "{""category"":""operation"",""name"":""allocate"",""numeric_args"":{""size"":" ++ dec (nget "size" (e_num e)) ++
      "},""string_args"":{""allocator_ref"":""" ++ sget "allocator_ref" (e_str e) ++ """,""pointer"":""" ++
      sget "pointer" (e_str e) ++ """},""tags"":{""replay"":""true""},""timestamp"":" ++ ts ++ "}" ++ String "010" EmptyString
    else if String.eqb (e_name e) "named_allocate" then
      "{""category"":""operation"",""name"":""named_allocate"",""numeric_args"":{""size"":" ++ dec (nget "size" (e_num e)) ++
      "},""string_args"":{""allocator_ref"":""" ++ sget "allocator_ref" (e_str e) ++ """,""pointer"":""" ++
      sget "pointer" (e_str e) ++ """,""allocation_name"":""" ++ sget "allocation_name" (e_str e) ++
      """},""tags"":{""replay"":""true""},""timestamp"":" ++ ts ++ "}" ++ String "010" EmptyString
    else if String.eqb (e_name e) "deallocate" then
      "{""category"":""operation"",""name"":""deallocate"",""string_args"":{""allocator_ref"":""" ++
      sget "allocator_ref" (e_str e) ++ """,""pointer"":""" ++
      sget "pointer" (e_str e) ++ """},""tags"":{""replay"":""true""},""timestamp"":" ++ ts ++ "}" ++ String "010" EmptyString
    else
      "{""category"":" ++ (if e_oper e then """operation""" else """metadata""") ++ ",""name"":""" ++ e_name e ++
      """,""numeric_args"":" ++ dump_n (e_num e) ++ ",""string_args"":" ++ dump_s (e_str e) ++ ",""tags"":" ++
      dump_s (e_tag e) ++ ",""timestamp"":" ++ ts ++ "}" ++ String "010" EmptyString.

  (** The size of the file; [tss]: the times of the events. *)
  Fixpoint file_size (l : list event) (tss : nat -> string) : Z :=
    match l with
    | nil => 0
    | e :: t => Z.of_nat (String.length (line e (tss O))) + file_size t (fun n => tss (S n))
    end.
End Line.

(** ** Compiling *)

(** ReplayFile.hpp:85-96; [TNone]: the value 0. *)
Inductive otype := TNone | TCreate | TAllocate | TCoalesce | TDeallocate | TReallocateEx | TRelease | TDefault.

(** ReplayFile.hpp:98-106: type, allocator, size, [op_alloc_ops]. *)
Record oper := { o_type : otype; o_allocator : Z; o_size : Z; o_src : Z; o_prev : Z }.
(** [memset(op, 0, sizeof( *op))]; also the contents of a fresh part of the file. *)
Definition ozero := {| o_type := TNone; o_allocator := 0; o_size := 0; o_src := 0; o_prev := 0 |}.

(** ReplayFile.hpp:38-83: class (empty for a memory resource), name, base, introspection and the
    arguments that makeAllocator will pass ([argc], [argv]). *)
Record entry := { en_cls : string; en_name : string; en_base : string; en_tracked : bool; en_args : list arg }.

(** [sizeof(Operation)] and ReplayFile.hpp:35-36. *)
Definition OPSIZE : Z := 72.
Definition max_allocators : Z := 256 * 1024.
Definition max_name_length : Z := 512.

Record cstate := {
  c_nalloc : Z;                     (** num_allocators *)
  c_entries : fmap entry;           (** allocators *)
  c_nops : Z;                       (** num_operations *)
  c_tab : fmap oper;                (** ops; [None]: zero bytes *)
  c_refs : fmap Z;                  (** m_allocator_indices *)
  c_index : list (string * Z);      (** m_allocator_index *)
  c_ids : list (string * Z);        (** m_allocation_id *)
  c_re : bool }.                    (** m_replaying_reallocate *)

(** ReplayInterpreter.cpp:60-66. *)
Definition c_init : cstate :=
  {| c_nalloc := 0; c_entries := fempty; c_nops := 1;
     c_tab := fset fempty 0 {| o_type := TAllocate; o_allocator := 0; o_size := 0; o_src := 0; o_prev := 0 |};
     c_refs := fempty; c_index := []; c_ids := []; c_re := false |}.

Definition arem (k : string) (l : list (string * Z)) : list (string * Z) :=
  filter (fun kv => negb (String.eqb k (fst kv))) l.

Section Compile.
  (** Size of the input file: the table of operations has [sizeof(Header) + fsize] bytes, of which one
      operation is part of the header (ReplayFile.cpp:135, 50; ReplayFile.hpp:128).  Writing behind it is [UB]; the rest of
      the last page is not counted on. *)
  Variable fsize : Z.

  (** A write of [ops[num_operations]] without advancing. *)
  Definition put (o : oper) (st : cstate) : outcome cstate unit :=
    if c_nops st * OPSIZE <=? fsize then
      Ok {| c_nalloc := c_nalloc st; c_entries := c_entries st; c_nops := c_nops st;
            c_tab := fset (c_tab st) (c_nops st) o; c_refs := c_refs st; c_index := c_index st;
            c_ids := c_ids st; c_re := c_re st |} tt
    else UB.

  (** [hdr->num_operations++]. *)
  Definition next (st : cstate) : cstate :=
    {| c_nalloc := c_nalloc st; c_entries := c_entries st; c_nops := c_nops st + 1; c_tab := c_tab st;
       c_refs := c_refs st; c_index := c_index st; c_ids := c_ids st; c_re := c_re st |}.

  Definition with_ids (ids : list (string * Z)) (st : cstate) : cstate :=
    {| c_nalloc := c_nalloc st; c_entries := c_entries st; c_nops := c_nops st; c_tab := c_tab st;
       c_refs := c_refs st; c_index := c_index st; c_ids := ids; c_re := c_re st |}.

  Definition with_re (b : bool) (st : cstate) : cstate :=
    {| c_nalloc := c_nalloc st; c_entries := c_entries st; c_nops := c_nops st; c_tab := c_tab st;
       c_refs := c_refs st; c_index := c_index st; c_ids := c_ids st; c_re := b |}.

  (** ReplayInterpreter.cpp:675-684: getAllocatorIndex. *)
  Definition allocator_index (ref : string) (st : cstate) : outcome cstate Z :=
    match stoul ref with
    | Some p => match c_refs st p with Some i => Ok st i | None => Abort end
    | None => Abort
    end.

  (** ReplayFile.cpp:100-107: copyString stops at names that do not fit. *)
  Definition fits (s : string) : bool := Z.of_nat (String.length s) <? max_name_length.

  (** The end of compile_make_memory_resource (378-403) and of compile_make_allocator (641-659). *)
  Definition add_allocator (ref : string) (en : entry) (st : cstate) : outcome cstate unit :=
    match stoul ref with
    | None => Abort
    | Some p =>
        let n := c_nalloc st in
        let* (st, _) := put {| o_type := TCreate; o_allocator := n; o_size := 0; o_src := 0; o_prev := 0 |} st in
        if n + 1 >=? max_allocators then Abort
        else Ok {| c_nalloc := n + 1; c_entries := fset (c_entries st) n en; c_nops := c_nops st + 1;
                   c_tab := c_tab st; c_refs := fset (c_refs st) p n;
                   c_index := (en_name en, n) :: c_index st; c_ids := c_ids st; c_re := c_re st |} tt
    end.

  (** ReplayInterpreter.cpp:375-404. *)
  Definition compile_make_memory_resource (e : event) (st : cstate) : outcome cstate unit :=
    let name := sget "allocator_name" (e_tag e) in
    if fits name then
      add_allocator (sget "allocator_ref" (e_str e)) {| en_cls := EmptyString; en_name := name; en_base := EmptyString; en_tracked := true; en_args := [] |} st
    else Abort.

  (** A conversion to [int]. *)
  Definition s32 (z : Z) : Z := (z + 2 ^ 31) mod 2 ^ 32 - 2 ^ 31.

  (** "Now grab the optional fields": arguments 1 to the last of at most [n] that is there
      (ReplayInterpreter.cpp:511-525, 532-546, 569-573, 580-634). *)
  Fixpoint grab (e : event) (n : nat) : list arg :=
    match n with
    | O => []
    | S n' => match afind (argk n) (e_num e) with
              | Some _ => map (fun i => AN (nget (argk i) (e_num e))) (seq 1 n)
              | None => grab e n'
              end
    end.

  (** The third argument of a pool is an [int] that makeAllocator passes on as a [std::size_t]. *)
  Definition pool_args (l : list arg) : list arg :=
    match l with [a; b; AN c] => [a; b; AN (w64 (s32 c))] | _ => l end.

  (** ReplayInterpreter.cpp:439-490 and ReplayOperationManager.cpp:340-438. *)
  Definition advisor_args (e : event) : option (list arg) :=
    let advice := sget "arg1" (e_str e) in
    let acc := afind "arg2" (e_str e) in
    let dev := match acc with Some _ => afind "arg3" (e_num e) | None => afind "arg2" (e_num e) end in
    let device_id := match dev with Some d => s32 d | None => -1 end in
    let argc := 2 + (match acc with Some _ => 1 | None => 0 end) + (match dev with Some _ => 1 | None => 0 end) in
    let name := match acc with Some a => a | None => EmptyString end in
    if negb (fits advice) then None
    else if device_id >=? 0 then
      if argc =? 3 then Some [AS advice; AN device_id]
      else if argc =? 4 then if fits name then Some [AS advice; AS name; AN device_id] else None
      else None
    else
      if argc =? 2 then Some [AS advice]
      else if argc =? 3 then if fits name then Some [AS advice; AS name] else None
      else None.

  (** The arguments of each class; [None]: stop. *)
  Definition args_of (cls : string) (e : event) : option (list arg) :=
    if String.eqb cls "AllocationAdvisor" then advisor_args e
    else if String.eqb cls "AllocationPrefetcher" then Some []                  (* 490-493 *)
    else if String.eqb cls "NumaPolicy" then Some [AN (s32 (nget "arg1" (e_num e)))]   (* 494-500 *)
    else if String.eqb cls "NamedAllocationStrategy" then Some []               (* 501-504 *)
    else if String.eqb cls "QuickPool" then Some (pool_args (grab e 3))         (* 505-526 *)
    else if String.eqb cls "DynamicPoolList" then Some (pool_args (grab e 3))   (* 527-547 *)
    else if String.eqb cls "MonotonicAllocationStrategy" then Some [AN (nget "arg1" (e_num e))]  (* 548-553 *)
    else if String.eqb cls "SlotPool" then Some [AN (nget "arg1" (e_num e))]    (* 554-559 *)
    else if String.eqb cls "SizeLimiter" then Some [AN (nget "arg1" (e_num e))] (* 560-565 *)
    else if String.eqb cls "ThreadSafeAllocator" then Some []                   (* 566-569 *)
    else if String.eqb cls "FixedPool" then                                     (* 570-581 *)
      Some (AN (nget "arg1" (e_num e)) ::
            match afind "arg2" (e_num e) with Some v => [AN v] | None => [] end)%list
    else if String.eqb cls "MixedPool" then Some (grab e 7)                     (* 582-635 *)
    else None.                                                                  (* 636-638 *)

  (** ReplayInterpreter.cpp:406-660. *)
  Definition compile_make_allocator (e : event) (st : cstate) : outcome cstate unit :=
    let name := sget "allocator_name" (e_tag e) in
    let cls := sget "type" (e_str e) in
    let base := sget "arg0" (e_str e) in
    match args_of cls e with
    | Some args =>
        if fits name && fits base then
          add_allocator (sget "allocator_ref" (e_str e))
            {| en_cls := cls; en_name := name; en_base := base;
               en_tracked := nget "introspection" (e_num e) =? 1; en_args := args |} st
        else Abort
    | None => Abort
    end.

  (** ReplayInterpreter.cpp:662-673 and 819-829. *)
  Definition compile_simple (t : otype) (e : event) (st : cstate) : outcome cstate unit :=
    let* (st, i) := allocator_index (sget "allocator_ref" (e_str e)) st in
    let* (st, _) := put {| o_type := t; o_allocator := i; o_size := 0; o_src := 0; o_prev := 0 |} st in
    Ok (next st) tt.

  (** ReplayInterpreter.cpp:693-719. *)
  Definition compile_allocate (e : event) (st : cstate) : outcome cstate unit :=
    if c_re st then Ok st tt else
    let ref := sget "allocator_ref" (e_str e) in
    let key := ref ++ sget "pointer" (e_str e) in
    let* (st, i) := allocator_index ref st in
    let* (st, _) := put {| o_type := TAllocate; o_allocator := i; o_size := nget "size" (e_num e);
                           o_src := 0; o_prev := 0 |} st in
    match afind key (c_ids st) with
    | Some _ => Abort
    | None => Ok (next (with_ids ((key, c_nops st) :: c_ids st) st)) tt
    end.

  (** ReplayInterpreter.cpp:721-763. *)
  Definition compile_reallocate (e : event) (st : cstate) : outcome cstate unit :=
    let ref := sget "allocator_ref" (e_str e) in
    match afind "new_ptr" (e_str e) with
    | None =>
        let cur := sget "current_ptr" (e_str e) in
        let key := ref ++ cur in
        match stoul cur with
        | None => Abort
        | Some p =>
            let st := with_re true st in
            let prev := if p =? 0 then Some 0 else afind key (c_ids st) in
            match prev with
            | None => Abort
            | Some prev =>
                let* (st, i) := allocator_index ref st in
                let* (st, _) := put {| o_type := TReallocateEx; o_allocator := i; o_size := nget "size" (e_num e);
                                       o_src := 0; o_prev := prev |} st in
                Ok (if p =? 0 then st else with_ids (arem key (c_ids st)) st) tt
            end
        end
    | Some new =>
        let key := ref ++ new in
        match afind key (c_ids st) with
        | Some _ => Abort
        | None => Ok (with_re false (next (with_ids ((key, c_nops st) :: c_ids st) st))) tt
        end
    end.

  (** ReplayInterpreter.cpp:765-802. *)
  Definition compile_deallocate (e : event) (st : cstate) : outcome cstate unit :=
    let ref := sget "allocator_ref" (e_str e) in
    let key := ref ++ sget "pointer" (e_str e) in
    if c_re st then Ok st tt else
    let* (st, i) := allocator_index ref st in
    match afind key (c_ids st) with
    | None => Ok st tt
    | Some j =>
        let* (st, _) := put {| o_type := TDeallocate; o_allocator := i; o_size := 0; o_src := j; o_prev := 0 |} st in
        Ok (next (with_ids (arem key (c_ids st)) st)) tt
    end.

  (** ReplayInterpreter.cpp:364-373. *)
  Definition strip_off_base (s : string) : string :=
    if (Nat.ltb 5 (String.length s)) && String.eqb (substring (String.length s - 5) 5 s) "_base"
    then substring 0 (String.length s - 5) s else s.

  (** ReplayInterpreter.cpp:804-817; [m_allocator_index[name]] is 0 for an unknown name. *)
  Definition compile_coalesce (e : event) (st : cstate) : outcome cstate unit :=
    let name := strip_off_base (sget "allocator_name" (e_tag e)) in
    let i := nget name (c_index st) in
    let* (st, _) := put {| o_type := TCoalesce; o_allocator := i; o_size := 0; o_src := 0; o_prev := 0 |} st in
    Ok (next st) tt.

  (** ReplayInterpreter.cpp:76-168, one event. *)
  Definition compile_event (e : event) (st : cstate) : outcome cstate unit :=
    if negb (e_oper e) then Ok st tt
    else if String.eqb (e_name e) "allocate" then compile_allocate e st
    else if String.eqb (e_name e) "deallocate" then compile_deallocate e st
    else if String.eqb (e_name e) "make_allocator" then compile_make_allocator e st
    else if String.eqb (e_name e) "make_memory_resource" then compile_make_memory_resource e st
    else if String.eqb (e_name e) "copy" then Ok st tt
    else if String.eqb (e_name e) "move" then Ok st tt
    else if String.eqb (e_name e) "reallocate" then compile_reallocate e st
    else if String.eqb (e_name e) "set_default_allocator" then compile_simple TDefault e st
    else if String.eqb (e_name e) "coalesce" then compile_coalesce e st
    else if String.eqb (e_name e) "release" then compile_simple TRelease e st
    else if String.eqb (e_name e) "register_external_allocation" then Ok st tt
    else if String.eqb (e_name e) "deregister_external_allocation" then Ok st tt
    else Abort.

  (** The loop. *)
  Fixpoint compile (l : list event) (st : cstate) : outcome cstate unit :=
    match l with
    | nil => Ok st tt
    | e :: t => let* (st, _) := compile_event e st in compile t st
    end.
End Compile.

(** ReplayInterpreter.cpp:52-168: buildOperations. *)
Definition build (fsize : Z) (l : list event) : outcome cstate unit := compile fsize l c_init.

(** ** Running *)

(** A call of the library by the tool; allocators by their number. *)
Inductive rcall :=
| RCreate (k : Z) (cls name base : string) (tracked : bool) (args : list arg)
| RAlloc (k n : Z)
| RFree (k p : Z)
| RRealloc (k p n : Z)
| RDefault (k : Z)
| RRelease (k : Z)
| RCoalesce (k : Z).

Section Run.
  (** The library while the tool runs: it answers each call (with a pointer where there is one) or
      throws. *)
  Context {W : Type} (lib : rcall -> W -> outcome W Z).

  Record rstate := { r_lib : W; r_made : fmap unit; r_ptrs : fmap Z; r_log : list (rcall * Z) }.

  (** [op_allocated_ptr] of an operation; 0 before it ran. *)
  Definition ptr_of (i : Z) (st : rstate) : Z := match r_ptrs st i with Some p => p | None => 0 end.

  (** One call of the library, logged. *)
  Definition call (c : rcall) (st : rstate) : outcome rstate Z :=
    match lib c (r_lib st) with
    | Ok w a => Ok {| r_lib := w; r_made := r_made st; r_ptrs := r_ptrs st; r_log := (c, a) :: r_log st |} a
    | Throw w e => Throw {| r_lib := w; r_made := r_made st; r_ptrs := r_ptrs st; r_log := r_log st |} e
    | UB => UB | Abort => Abort | NoFuel => NoFuel
    end.

  Definition is_made (k : Z) (st : rstate) : bool := match r_made st k with Some _ => true | None => false end.

  (** [alloc->allocator->...] of an allocator that is not made dereferences null. *)
  Definition call_on (k : Z) (c : rcall) (st : rstate) : outcome rstate Z :=
    if is_made k st then call c st else UB.

  Definition set_ptr (i : Z) (st : rstate) (p : Z) : rstate :=
    {| r_lib := r_lib st; r_made := r_made st; r_ptrs := fset (r_ptrs st) i p; r_log := r_log st |}.

  (** ReplayOperationManager.cpp:168-215 with makeAllocator (316-1061), makeAllocate (1063-1068),
      makeSetDefaultAllocator (1070-1075), makeReallocate_ex (1084-1090), makeDeallocate (1104-1122),
      makeCoalesce (1124-1146) and makeRelease (1148-1152): operation number [i]. *)
  Definition run_op (cs : cstate) (i : Z) (st : rstate) : outcome rstate unit :=
    let o := match c_tab cs i with Some o => o | None => ozero end in
    let k := o_allocator o in
    let en := match c_entries cs k with Some en => en
              | None => {| en_cls := "INIT"; en_name := EmptyString; en_base := EmptyString; en_tracked := false; en_args := [] |} end in
    match o_type o with
    | TCreate =>
        let* (st, _) := call (RCreate k (en_cls en) (en_name en) (en_base en) (en_tracked en) (en_args en)) st in
        Ok {| r_lib := r_lib st; r_made := fset (r_made st) k tt; r_ptrs := r_ptrs st; r_log := r_log st |} tt
    | TDefault => let* (st, _) := call_on k (RDefault k) st in Ok st tt
    | TReallocateEx =>
        let* (st, q) := call_on k (RRealloc k (ptr_of (o_prev o) st) (o_size o)) st in Ok (set_ptr i st q) tt
    | TAllocate => let* (st, q) := call_on k (RAlloc k (o_size o)) st in Ok (set_ptr i st q) tt
    | TDeallocate => let* (st, _) := call_on k (RFree k (ptr_of (o_src o) st)) st in Ok st tt
    | TCoalesce =>
        if String.eqb (en_cls en) "QuickPool" || String.eqb (en_cls en) "DynamicPoolList"
        then let* (st, _) := call_on k (RCoalesce k) st in Ok st tt
        else Ok st tt
    | TRelease => let* (st, _) := call_on k (RRelease k) st in Ok st tt
    | TNone => Abort
    end.

  (** ReplayOperationManager.cpp:163-224: operations [i], [i + 1], ..., [n] of them. *)
  Fixpoint run (cs : cstate) (i : Z) (n : nat) (st : rstate) : outcome rstate unit :=
    match n with
    | O => Ok st tt
    | S n => let* (st, _) := run_op cs i st in run cs (i + 1) n st
    end.

  (** [ptrs]: the pointers in the file; none after compiling, those of the last run when the compiled
      file is used again (ReplayFile.cpp:37-50). *)
  Definition run_all (cs : cstate) (ptrs : fmap Z) (w : W) : outcome rstate unit :=
    run cs 1 (Z.to_nat (c_nops cs - 1)) {| r_lib := w; r_made := fempty; r_ptrs := ptrs; r_log := [] |}.

  (** ReplayOperationManager.cpp:225-287: the statistics after an operation are asked of all allocators
      whose pointer in the file is not null.  [stale]: the file was run before; ~ReplayOperationManager
      (47-54) deleted the allocators and left the pointers. *)
  Definition dump (cs : cstate) (stale : bool) (st : rstate) : outcome rstate unit :=
    if existsb (fun k => negb (is_made (Z.of_nat k) st) && stale) (seq 0 (Z.to_nat (c_nalloc cs))) then UB else Ok st tt.

  Fixpoint run_stats (cs : cstate) (stale : bool) (i : Z) (n : nat) (st : rstate) : outcome rstate unit :=
    match n with
    | O => Ok st tt
    | S n => let* (st, _) := run_op cs i st in
             let* (st, _) := dump cs stale st in
             run_stats cs stale (i + 1) n st
    end.
End Run.

(** ** The histogram of sizes *)

(** ReplayOperationManager.cpp:75-83. *)
Definition tab64 : list Z :=
  [63;  0; 58;  1; 59; 47; 53;  2;
   60; 39; 48; 27; 54; 33; 42;  3;
   61; 51; 37; 40; 49; 18; 28; 20;
   55; 30; 34; 11; 43; 14; 22;  4;
   62; 57; 46; 52; 38; 26; 32; 41;
   50; 36; 17; 19; 29; 10; 13; 21;
   56; 45; 25; 31; 35; 16;  9; 12;
   44; 24; 15;  8; 23;  7;  6;  5].

(** ReplayOperationManager.cpp:85-99. *)
Definition log2_64 (size : Z) : Z :=
  let value := size in
  let value := Z.lor value (Z.shiftr value 1) in
  let value := Z.lor value (Z.shiftr value 2) in
  let value := Z.lor value (Z.shiftr value 4) in
  let value := Z.lor value (Z.shiftr value 8) in
  let value := Z.lor value (Z.shiftr value 16) in
  let value := Z.lor value (Z.shiftr value 32) in
  let multiplier := 0x07EDD5E59A4E28C2 in
  let value := w64 (value - Z.shiftr value 1) in
  let index := Z.shiftr (w64 (value * multiplier)) 58 in
  nth (Z.to_nat index) tab64 0.

(** ReplayOperationManager.cpp:57-70: TrackedCounter. *)
Record tcounter := { t_cur : Z; t_hwm : Z }.
Definition t_zero : tcounter := {| t_cur := 0; t_hwm := 0 |}.
Definition t_increment (c : tcounter) : tcounter :=
  let n := w64 (t_cur c + 1) in {| t_cur := n; t_hwm := if n >? t_hwm c then n else t_hwm c |}.
Definition t_decrement (c : tcounter) : tcounter := {| t_cur := w64 (t_cur c - 1); t_hwm := t_hwm c |}.

(** ReplayOperationManager.cpp:101-142: TrackedHistogram (the fields it prints). *)
Record thisto := { h_buckets : fmap tcounter; h_largest : Z; h_allocs : Z; h_frees : Z; h_count : Z }.
Definition h_zero : thisto := {| h_buckets := fempty; h_largest := 0; h_allocs := 0; h_frees := 0; h_count := 0 |}.
Definition bucket (h : thisto) (i : Z) : tcounter := match h_buckets h i with Some c => c | None => t_zero end.

Definition h_increment (size : Z) (h : thisto) : thisto :=
  let i := log2_64 size in
  {| h_buckets := fset (h_buckets h) i (t_increment (bucket h i));
     h_largest := if size >? h_largest h then size else h_largest h;
     h_allocs := w64 (h_allocs h + 1); h_frees := h_frees h; h_count := w64 (h_count h + 1) |}.
Definition h_decrement (size : Z) (h : thisto) : thisto :=
  let i := log2_64 size in
  {| h_buckets := fset (h_buckets h) i (t_decrement (bucket h i)); h_largest := h_largest h;
     h_allocs := h_allocs h; h_frees := w64 (h_frees h + 1); h_count := w64 (h_count h - 1) |}.
