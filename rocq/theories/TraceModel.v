(** Model of what the calls of a program put into the event store: the calls of [event::record] in
    ResourceManager.cpp, ResourceManager.inl, Allocator.inl, Allocator.cpp, Umpire.cpp and the pools as
    sequences of builder calls, and of how the replay tool gets at them (ReplayInterpreter.cpp:68-76).

    Simplified: as in ReplayModel.v the class of an allocator is not mangled. *)
From Coq Require Import String Ascii.
From Verif Require Import Base NamingModel ReplayModel JsonModel StoreModel.

(** A [std::string] as the tool sees it. *)
Fixpoint sb (s : bytes) : string :=
  match s with [] => EmptyString | c :: s => String (ascii_of_N (Z.to_N c)) (sb s) end.

(** An event as the tool sees it. *)
Definition view (e : ev) : event :=
  {| e_name := sb (v_name e);
     e_oper := match v_cat e with Operation => true | _ => false end;
     e_str := map (fun kv => (sb (fst kv), sb (snd kv))) (v_str e);
     e_num := map (fun kv => (sb (fst kv), snd kv)) (v_num e);
     e_tag := map (fun kv => (sb (fst kv), sb (snd kv))) (v_tag e) |}.

(** event.hpp:145-158: the arguments from number [i] on. *)
Fixpoint bargs (i : nat) (l : list arg) : list barg :=
  match l with
  | [] => []
  | AS s :: l => BStr (bs (argk i)) (bs s) :: bargs (S i) l
  | AN z :: l => BNum (bs (argk i)) z :: bargs (S i) l
  end.

(** An argument or a tag. *)
Definition detail (a : barg) : Prop := match a with BName _ | BCat _ => False | _ => True end.

Definition oper_event (t : Z) (name : string) (l : list barg) : rec :=
  RGeneric (build t (BName (bs name) :: BCat Operation :: l)).

Definition rtag : barg := BTag (bs "replay") (bs "true").
Definition ntag (s : bytes) : barg := BTag (bs "allocator_name") s.

(** [logs c l]: the call [c] puts the records [l] into the store, oldest first.  Times, and the names of
    allocators that go into tags the tool does not read, are any. *)
Inductive logs : pcall -> list rec -> Prop :=
| l_res t r name (tracking : bool) :                  (* ResourceManager.cpp:161-168 *)
    logs (PMakeRes r name)
      [oper_event t "make_memory_resource"
         [BPtr (bs "allocator_ref") r; BNum (bs "introspection") (if tracking then 1 else 0); ntag (bs name); rtag]]
| l_make t r name cls base (tracked : bool) args :    (* ResourceManager.inl:39-48 *)
    logs (PMake r name cls base tracked args)
      [oper_event t "make_allocator"
         ([BPtr (bs "allocator_ref") r; BStr (bs "type") (bs cls); BNum (bs "introspection") (if tracked then 1 else 0);
           BStr (bs "arg0") (bs base)] ++ bargs 1 args ++ [ntag (bs name); rtag])]
| l_alloc t r n q : logs (PAlloc r n q) [RAllocate n r q t]                          (* Allocator.inl:44-45 *)
| l_named t r name n q : logs (PNamed r name n q) [RNamed n r q (bs name) t]         (* Allocator.inl:86-87 *)
| l_free t r p : logs (PFree r p) [RDeallocate r p t]                                (* Allocator.inl:97 *)
| l_realloc t t' a a' r p n inner q li :              (* ResourceManager.cpp:547-567, 607-628 *)
    0 <= n < 2 ^ 64 -> logs_all inner li ->
    logs (PRealloc r p n inner q)
      (oper_event t "reallocate" [BPtr (bs "current_ptr") p; BNum (bs "size") n; BPtr (bs "allocator_ref") r; ntag a; rtag]
       :: li ++
       match q with
       | Some q => [oper_event t' "reallocate" [BPtr (bs "allocator_ref") r; ntag a'; BPtr (bs "new_ptr") q]]
       | None => []
       end)
| l_default t a r :                                   (* ResourceManager.cpp:275-281 *)
    logs (PDefault r) [oper_event t "set_default_allocator" [BPtr (bs "allocator_ref") r; ntag a; rtag]]
| l_release t a r :                                   (* Allocator.cpp:30-36 *)
    logs (PRelease r) [oper_event t "release" [BPtr (bs "allocator_ref") r; ntag a; rtag]]
| l_coalesce t name :                                 (* QuickPool.cpp:320-322, DynamicPoolList.cpp:128-130 *)
    logs (PCoalesce name) [oper_event t "coalesce" [ntag (bs name); rtag]]
| l_copy t l : Forall detail l -> logs PCopy [oper_event t "copy" l]                 (* ResourceManager.cpp:393-405 *)
| l_move t l : Forall detail l -> logs PMove [oper_event t "move" l]                 (* 766-773, 821-829 *)
| l_memset t l : Forall detail l -> logs PMemset [oper_event t "memset" l]           (* 478-487 *)
| l_register t l : Forall detail l -> logs PRegister [oper_event t "register_external_allocation" l]
                                                      (* Umpire.cpp:265-273 *)
| l_deregister t l : Forall detail l -> logs PDeregister [oper_event t "deregister_external_allocation" l]
                                                      (* Umpire.cpp:281-283 *)
| l_meta t name l : Forall detail l ->                (* ResourceManager.cpp:101-108, Umpire.cpp:169-173 *)
    logs (PMeta name) [RGeneric (build t (BName (bs name) :: BCat Metadata :: l))]
with logs_all : list pcall -> list rec -> Prop :=
| la_nil : logs_all [] []
| la_cons c H l lc : logs_all H l -> logs c lc -> logs_all (c :: H) (l ++ lc).

(** ReplayInterpreter.cpp:68-76 with ReplayFile.cpp:135: the tool, given a file. *)
Section Tool.
  Variable strtod : bytes -> option Z.
  Definition tool (file : bytes) : outcome cstate unit :=
    match get_events strtod (mk_store (Some file) true true) with
    | SOk _ es => ReplayModel.build (Z.of_nat (length file)) (map view es)
    | SUB => UB
    | _ => Throw c_init RuntimeError
    end.
End Tool.
