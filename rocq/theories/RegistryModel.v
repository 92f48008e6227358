(** Model of the registry of allocators in the resource manager: names, ids, aliases, lazily created memory
    resources (src/umpire/ResourceManager.cpp:94-333, 892-916, ResourceManager.inl:20-55) and of the resource
    names (src/umpire/resource/MemoryResourceTypes.hpp).  The mutex, events and log messages are left out;
    what the allocators do is in the other models, here only their names and ids matter. *)
From Coq Require Import String.
From Verif Require Import Base.

(** ** MemoryResourceTypes.hpp *)

(** 37 *)
Inductive rtype : Type := Host | Device | Unified | Pinned | Constant | File | NoOp | Shared | Unknown.

(** 39-72; [None]: throws. *)
Definition resource_to_string (ty : rtype) : option string :=
  match ty with
  | Host => Some "HOST" | Device => Some "DEVICE" | Unified => Some "UM" | Pinned => Some "PINNED"
  | Constant => Some "DEVICE_CONST" | File => Some "FILE" | NoOp => Some "NO_OP" | Shared => Some "SHARED"
  | Unknown => None
  end%string.

(** 74-106; [None]: throws. *)
Definition string_to_resource (s : string) : option rtype :=
  if (s =? "HOST")%string then Some Host
  else if (s =? "DEVICE")%string then Some Device
  else if (s =? "UM")%string then Some Unified
  else if (s =? "PINNED")%string then Some Pinned
  else if (s =? "DEVICE_CONST")%string then Some Constant
  else if (s =? "FILE")%string then Some File
  else if (s =? "NO_OP")%string then Some NoOp
  else if (s =? "SHARED")%string then Some Shared
  else None.

Definition rtype_eqb (a b : rtype) : bool :=
  match a, b with
  | Host, Host | Device, Device | Unified, Unified | Pinned, Pinned | Constant, Constant | File, File
  | NoOp, NoOp | Shared, Shared | Unknown, Unknown => true
  | _, _ => false
  end.

(** std::string::find *)
Definition contains (s sub : string) : bool := match index 0 sub s with Some _ => true | None => false end.

(** ** The registry *)

(** An allocation strategy object as the registry sees it; [o_live]: not destroyed. *)
Record obj : Type := mkObj { o_name : string; o_id : Z; o_live : bool }.

(** std::unordered_map, by a list of pairs. *)
Section Assoc.
  Context {K V : Type} (eqb : K -> K -> bool).
  Definition alook (k : K) (l : list (K * V)) : option V := option_map snd (find (fun e => eqb (fst e) k) l).
  Definition adrop (k : K) (l : list (K * V)) : list (K * V) := filter (fun e => negb (eqb (fst e) k)) l.
  Definition aput (k : K) (v : V) (l : list (K * V)) : list (K * V) := (k, v) :: adrop k l.
End Assoc.

(** ResourceManager.hpp:329-341.  Objects are referred to by their index in [rg_objs]. *)
Record registry : Type := mkReg {
  rg_objs : list obj;                  (** oldest first *)
  rg_names : list (string * nat);      (** m_allocators_by_name *)
  rg_ids : list (Z * nat);             (** m_allocators_by_id *)
  rg_types : list (rtype * nat);       (** m_memory_resources *)
  rg_dflt : option nat;                (** m_default_allocator *)
  rg_next : Z                          (** m_id, an int *)
}.

(** src/umpire/config.hpp.in:63, 0xDEADBEE. *)
Definition invalid_allocator_id : Z := 233495534.
Definition INT_MAX : Z := 2^31 - 1.

Definition by_name (x : string) (st : registry) : option nat := alook String.eqb x (rg_names st).
Definition by_id (i : Z) (st : registry) : option nat := alook Z.eqb i (rg_ids st).

Definition live_obj (h : nat) (st : registry) : option obj :=
  match nth_error (rg_objs st) h with Some o => if o_live o then Some o else None | None => None end.

(** The factories accept a name that contains the name of their resource; those present without a GPU
    (HostResourceFactory.cpp, NoOpResourceFactory.cpp, FileMemoryResourceFactory.cpp,
    HostSharedMemoryResourceFactory.cpp: isValidMemoryResourceFor). *)
Definition host_valid (x : string) : bool := contains x "HOST".

Section Registry.
  (** Names of the resources that can be created on demand (MemoryResourceRegistry::getResourceNames), the
      names the factories accept (isValidMemoryResourceFor), and failures of the computation of the traits
      of a resource (resource_to_device_id can throw). *)
  Context (R : list string) (valid : string -> bool) (prep : string -> option exn).

  Definition set_names (l : list (string * nat)) (st : registry) : registry :=
    mkReg (rg_objs st) l (rg_ids st) (rg_types st) (rg_dflt st) (rg_next st).

  (** ResourceManager.cpp:913-916; signed overflow is undefined. *)
  Definition next_id (st : registry) : outcome registry Z :=
    if rg_next st =? INT_MAX then UB
    else Ok (mkReg (rg_objs st) (rg_names st) (rg_ids st) (rg_types st) (rg_dflt st) (rg_next st + 1)) (rg_next st).

  (** The constructor of a strategy, which throws if [fl] says so. *)
  Definition construct (fl : option exn) (x : string) (i : Z) (st : registry) : outcome registry nat :=
    match fl with
    | Some e => Throw st e
    | None => Ok (mkReg (rg_objs st ++ [mkObj x i true]) (rg_names st) (rg_ids st) (rg_types st) (rg_dflt st) (rg_next st)) (length (rg_objs st))
    end.

  (** The object is destroyed. *)
  Definition destroy (h : nat) (st : registry) : registry :=
    mkReg (map (fun p => let '(k, o) := p in if Nat.eqb k h then mkObj (o_name o) (o_id o) false else o)
               (combine (seq 0 (length (rg_objs st))) (rg_objs st)))
          (rg_names st) (rg_ids st) (rg_types st) (rg_dflt st) (rg_next st).

  (** ResourceManager.cpp:94-130. *)
  Definition reg_start : registry :=
    mkReg [mkObj "__umpire_internal_null" 0 true; mkObj "__umpire_internal_0_byte_pool" 1 true] [] [] [] None 2.

  (** 321-328 *)
  Definition is_allocator (x : string) (st : registry) : bool :=
    match by_name x st with Some _ => true | None => existsb (fun r => String.eqb r x) R end.

  (** 330-333 *)
  Definition is_allocator_id (i : Z) (st : registry) : bool :=
    match by_id i st with Some _ => true | None => false end.

  (** Construction of a handle (Allocator.cpp:17-26) reads the object. *)
  Definition handle (h : nat) (st : registry) : outcome registry nat :=
    match live_obj h st with Some _ => Ok st h | None => UB end.

  (** getAllocatorInformation, 918-927, which reads all objects that have a name; part of error messages. *)
  Definition throw_listing (st : registry) : outcome registry nat :=
    if forallb (fun e => match live_obj (snd e) st with Some _ => true | None => false end) (rg_names st)
    then Throw st RuntimeError else UB.

  (** 174: [name.substr(0, name.find("::") - 1)], an unsigned subtraction. *)
  Definition base_name (x : string) : string :=
    match index 0 "::" x with
    | Some (S k) => substring 0 k x
    | _ => x
    end.

  (** 138-186.  In order: duplicate check, traits, id, factory (which also throws if no factory accepts the
      name), then the entries; string_to_resource comes after the name has been entered, and if it throws the
      new object is destroyed. *)
  Definition make_resource_with (fl : option exn) (x : string) (st : registry) : outcome registry nat :=
    match by_name x st with
    | Some _ => Throw st RuntimeError
    | None =>
      match prep x with
      | Some e => Throw st e
      | None =>
        let* (st1, i) := next_id st in
        let* (st2, h) := construct (if valid x then fl else Some RuntimeError) x i st1 in
        let st3 := set_names (aput String.eqb x h (rg_names st2)) st2 in
        let st4 := if String.eqb x "DEVICE" then set_names (aput String.eqb "DEVICE::0"%string h (rg_names st3)) st3 else st3 in
        let st5 := if contains x "::0" then set_names (aput String.eqb (base_name x) h (rg_names st4)) st4 else st4 in
        let finish ts :=
          let st6 := mkReg (rg_objs st5) (rg_names st5) (aput Z.eqb i h (rg_ids st5)) ts (rg_dflt st5) (rg_next st5) in
          match by_name x st6 with Some h' => handle h' st6 | None => UB end in
        if contains x "::" then finish (rg_types st5)
        else match string_to_resource x with
             | Some ty => finish (aput rtype_eqb ty h (rg_types st5))
             | None => Throw (destroy h st5) RuntimeError
             end
      end
    end.

  (** 132-136; getDefaultTraitsForResource throws if no factory accepts the name. *)
  Definition make_resource (fl : option exn) (x : string) (st : registry) : outcome registry nat :=
    if negb (valid x) then Throw st RuntimeError else make_resource_with fl x st.

  (** 188-212 *)
  Definition get_by_name (fl : option exn) (x : string) (st : registry) : outcome registry nat :=
    match by_name x st with
    | Some h => handle h st
    | None =>
        if existsb (fun r => String.eqb r x) R then
          let* (st1, _) := make_resource fl x st in
          match by_name x st1 with Some h => handle h st1 | None => UB end
        else throw_listing st
    end.

  (** 219-229 *)
  Definition get_by_type (fl : option exn) (ty : rtype) (st : registry) : outcome registry nat :=
    match alook rtype_eqb ty (rg_types st) with
    | Some h => handle h st
    | None => match resource_to_string ty with Some x => get_by_name fl x st | None => Throw st RuntimeError end
    end.

  (** 231-250 *)
  Definition get_by_id (i : Z) (st : registry) : outcome registry nat :=
    if i <? 0 then Throw st RuntimeError
    else if i =? invalid_allocator_id then Throw st RuntimeError
    else match by_id i st with Some h => handle h st | None => throw_listing st end.

  (** 252-262, 271-284 *)
  Definition get_default (fl : option exn) (st : registry) : outcome registry nat :=
    match rg_dflt st with
    | Some h => handle h st
    | None =>
        let* (st1, h) := get_by_name fl "HOST" st in
        Ok (mkReg (rg_objs st1) (rg_names st1) (rg_ids st1) (rg_types st1) (Some h) (rg_next st1)) h
    end.
  Definition set_default (h : nat) (st : registry) : registry :=
    mkReg (rg_objs st) (rg_names st) (rg_ids st) (rg_types st) (Some h) (rg_next st).

  (** 286-294; the error message asks for the allocator of that name, which may create it. *)
  Definition add_alias (fl : option exn) (x : string) (h : nat) (st : registry) : outcome registry nat :=
    if is_allocator x st then let* (st1, _) := get_by_name fl x st in Throw st1 RuntimeError
    else Ok (set_names (aput String.eqb x h (rg_names st)) st) h.

  (** 296-313; [find] is not checked before it is dereferenced. *)
  Definition remove_alias (x : string) (h : nat) (st : registry) : outcome registry nat :=
    if negb (is_allocator x st) then Throw st RuntimeError
    else match by_name x st with
         | None => UB
         | Some k =>
             match live_obj k st with
             | None => UB
             | Some o =>
                 if String.eqb (o_name o) x then Throw st RuntimeError
                 else match live_obj h st with
                      | None => UB
                      | Some o' => if negb (o_id o =? o_id o') then Throw st RuntimeError
                                   else Ok (set_names (adrop String.eqb x (rg_names st)) st) h
                      end
             end
         end.

  (** ResourceManager.inl:20-55 *)
  Definition make_allocator (fl : option exn) (x : string) (st : registry) : outcome registry nat :=
    if rg_next st + 1 =? invalid_allocator_id then Throw st RuntimeError
    else if is_allocator x st then Throw st RuntimeError
    else
      let* (st1, i) := next_id st in
      let* (st2, h) := construct fl x i st1 in
      let st3 := mkReg (rg_objs st2) (aput String.eqb x h (rg_names st2)) (aput Z.eqb i h (rg_ids st2)) (rg_types st2) (rg_dflt st2) (rg_next st2) in
      match by_name x st3 with Some h' => handle h' st3 | None => UB end.

  Inductive rcall : Type :=
  | RMake (x : string)
  | RMakeResource (x : string)
  | RMakeResourceWith (x : string)
  | RGet (x : string)
  | RGetType (ty : rtype)
  | RGetId (i : Z)
  | RGetDefault
  | RSetDefault (h : nat)
  | RAddAlias (x : string) (h : nat)
  | RRemoveAlias (x : string) (h : nat).

  Definition rexec (fl : option exn) (c : rcall) (st : registry) : outcome registry nat :=
    match c with
    | RMake x => make_allocator fl x st
    | RMakeResource x => make_resource fl x st
    | RMakeResourceWith x => make_resource_with fl x st
    | RGet x => get_by_name fl x st
    | RGetType ty => get_by_type fl ty st
    | RGetId i => get_by_id i st
    | RGetDefault => get_default fl st
    | RSetDefault h => Ok (set_default h st) h
    | RAddAlias x h => add_alias fl x h st
    | RRemoveAlias x h => remove_alias x h st
    end.
End Registry.
