(** Model of the C and Fortran interface (src/umpire/interface/c_fortran): the wrappers of wrapAllocator.cpp,
    wrapResourceManager.cpp, wrapUmpire.cpp, utilUmpire.cpp and the Fortran procedures of wrapfumpire.f.

    The C++ library below is any function [api] from the calls the wrappers make, with the state of the library, to
    their outcomes.  Allocators are [umpire::Allocator] objects made by [new]; a handle is a struct with the address of
    such an object, kept in variables of the program and copied freely.

    Simplified: an Allocator object is the number of the strategy it wraps; [new] does not fail; what uses an address
    that is not that of a live object is undefined; an address may be used again after [delete], and then the object
    found there is the new one.  An exception that leaves a wrapper reaches C or Fortran frames: it ends the program
    unless these can be unwound ([unwinds]).  A null pointer with length zero in strncpy is taken to be harmless. *)
From Coq Require Import String Ascii.
From Verif Require Import Base.

(** Strategies made by the wrappers (wrapResourceManager.cpp:87-373), the arguments after name and allocator. *)
Inductive mkind : Type :=
| MkListPool (initial block : Z)
| MkQuickPool (initial block : Z)
| MkAdvisor (op : string) (device : Z)
| MkNamed
| MkThreadSafe
| MkFixedPool (object : Z)
| MkPrefetcher (device : Z).

(** The C++ calls the wrappers make; allocators are given by the strategies they wrap. *)
Inductive xcall : Type :=
| XByName (name : string)
| XById (id : Z)
| XForPtr (p : Z)
| XMake (k : mkind) (name : string) (parent : Z)
| XAllocate (a n : Z)
| XDeallocate (a p : Z)
| XRelease (a : Z)
| XGetSize (a p : Z)
| XHighWatermark (a : Z)
| XCurrentSize (a : Z)
| XActualSize (a : Z)
| XCount (a : Z)
| XName (a : Z)
| XId (a : Z)
| XAddAlias (name : string) (a : Z)
| XRemoveAlias (name : string) (a : Z)
| XIsName (name : string)
| XIsId (id : Z)
| XHas (p : Z)
| XCopy (dst src n : Z)
| XMemset (p v n : Z)
| XReallocate (p n : Z)
| XReallocateWith (p n a : Z)
| XMove (p a : Z)
| XRmDeallocate (p : Z)
| XRmGetSize (p : Z)
| XRegister (p n a : Z)
| XDeregister (p : Z)
| XBacktrace (p : Z).

Inductive xres : Type :=
| RUnit
| RNum (z : Z)          (** sizes, pointers, numbers *)
| RBool (b : bool)
| RAlloc (a : Z)        (** an [umpire::Allocator] *)
| RStr (s : string).

(** What a C program says: the functions of wrapAllocator.h, wrapResourceManager.h; [v] is the handle. *)
Inductive find : Type := ByName (name : string) | ById (id : Z) | ForPtr (p : Z).
Inductive act : Type :=
| Allocate (n : Z) | Deallocate (p : Z) | Release | GetSize (p : Z) | HighWatermark | CurrentSize | ActualSize
| Count | Name | Id | AddAlias (name : string) | RemoveAlias (name : string)
| ReallocateWith (p n : Z) | Move (p : Z) | Register (p n : Z).
Inductive plainact : Type :=
| IsName (name : string) | IsId (id : Z) | Has (p : Z) | CopyAll (src dst : Z) | CopySize (src dst n : Z)
| MemsetAll (p v : Z) | MemsetSize (p v n : Z) | ReallocateDefault (p n : Z) | RmDeallocate (p : Z) | RmGetSize (p : Z)
| Deregister (p : Z) | Backtrace (p : Z).

Inductive stmt : Type :=
| SGet (v : nat) (f : find)
| SMake (v : nat) (k : mkind) (name : string) (parent : nat)
| SAct (v : nat) (x : act)
| SPlain (x : plainact)
| SDelete (v : nat)
| SAssign (v v' : nat).       (** v = v': assignment of structs *)

(** typesUmpire.h:82-87: [s_umpire_allocator]; a variable starts null, as in Fortran (in C the program must see to it) *)
Record capsule : Type := mkCap { cp_addr : Z; cp_idtor : Z }.

(** ** Strings *)

(** [std::string(name)], and what C sees of [c_str()]: up to the first NUL *)
Fixpoint c_str (s : string) : string :=
  match s with
  | EmptyString => EmptyString
  | String c t => if Ascii.eqb c zero then EmptyString else String c (c_str t)
  end.

(** [strncpy] with the length of the source (utilUmpire.cpp:17-26): NULs from the first on *)
Fixpoint zeros (s : string) : string := match s with EmptyString => EmptyString | String _ t => String zero (zeros t) end.
Fixpoint strncpy_all (s : string) : string :=
  match s with
  | EmptyString => EmptyString
  | String c t => if Ascii.eqb c zero then zeros s else String c (strncpy_all t)
  end.

(** Fortran [len_trim]: the string without the blanks at its end, as passed to the [_bufferify] functions *)
Fixpoint f_trim (s : string) : string :=
  match s with
  | EmptyString => EmptyString
  | String c t =>
      match f_trim t with
      | EmptyString => if Ascii.eqb c " " then EmptyString else String c EmptyString
      | t' => String c t'
      end
  end.

Section Interface.
  Context {W : Type} (api : xcall -> W -> outcome W xres).
  (** where [new] puts the [k]-th object, given the addresses in use *)
  Context (place : nat -> list Z -> Z).
  (** whether the frames of the caller can be unwound *)
  Context (unwinds : bool).
  (** the caller's language: Fortran calls the [_bufferify] functions *)
  Context (fortran : bool).

  Record cstate : Type := mkC {
    c_w : W;
    c_objs : list (Z * Z);          (** Allocator objects: address, strategy *)
    c_strs : list (Z * string);     (** strings made by [new] *)
    c_news : nat;
    c_vars : nat -> capsule
  }.

  Definition set_w (w : W) (c : cstate) : cstate := mkC w (c_objs c) (c_strs c) (c_news c) (c_vars c).
  Definition set_var (v : nat) (x : capsule) (c : cstate) : cstate :=
    mkC (c_w c) (c_objs c) (c_strs c) (c_news c) (fun u => if Nat.eqb u v then x else c_vars c u).
  Definition set_objs (l : list (Z * Z)) (c : cstate) : cstate := mkC (c_w c) l (c_strs c) (c_news c) (c_vars c).

  Definition in_use (c : cstate) : list Z := List.map fst (c_objs c) ++ List.map fst (c_strs c).

  (** An address for a new object: not null and not in use. *)
  Definition new_addr (c : cstate) : Z :=
    let a := place (c_news c) (in_use c) in
    if (0 <? a) && negb (existsb (Z.eqb a) (in_use c)) then a
    else 1 + fold_right Z.max 0 (in_use c).

  (** [new umpire::Allocator]: m_allocator is not set (Allocator.hpp:181, 200) *)
  Definition new_allocator (c : cstate) : cstate * Z :=
    let a := new_addr c in
    (mkC (c_w c) ((a, -1) :: c_objs c) (c_strs c) (S (c_news c)) (c_vars c), a).

  Definition at_addr (a : Z) (c : cstate) : option Z := option_map snd (List.find (fun o => fst o =? a) (c_objs c)).
  Definition store (a s : Z) (c : cstate) : cstate :=
    set_objs (List.map (fun o => if fst o =? a then (a, s) else o) (c_objs c)) c.

  (** Leaving an [extern "C"] function by an exception. *)
  Definition leave {A : Type} (o : outcome cstate A) : outcome cstate A :=
    match o with
    | Throw c e => if unwinds then Throw c e else Abort
    | o' => o'
    end.

  Definition call (x : xcall) (c : cstate) : outcome cstate xres :=
    omap (fun w => set_w w c) (fun r => r) (api x (c_w c)).

  (** How the name of an argument arrives: [std::string(name)] or [std::string(name, Lname)]. *)
  Definition name_in (s : string) : string := if fortran then f_trim s else c_str s.

  (** [umpire_allocator_get_name] (wrapAllocator.cpp:127-136); Fortran: [..._bufferify] (138-147), [allocate] and
      [umpire_ShroudCopyStringAndFree] (wrapfumpire.f:1004-1014, utilUmpire.cpp:17-26), which frees nothing as idtor is 0 *)
  Definition name_out (s : string) : string := if fortran then strncpy_all s else c_str s.

  (** wrapResourceManager.cpp:40-85, 87-373, 429-442: [new], the call, the assignment, the capsule *)
  Definition c_obtain (v : nat) (x : xcall) (c : cstate) : outcome cstate xres :=
    leave
      (let '(c1, a) := new_allocator c in
       let* (c2, r) := call x c1 in
       match r with
       | RAlloc s => Ok (set_var v (mkCap a 1) (store a s c2)) RUnit
       | _ => UB
       end).

  Definition c_get (v : nat) (f : find) (c : cstate) : outcome cstate xres :=
    c_obtain v (match f with ByName s => XByName (name_in s) | ById i => XById i | ForPtr p => XForPtr p end) c.

  Definition kind_in (k : mkind) : mkind :=
    match k with
    | MkAdvisor op d => MkAdvisor (name_in op) d
    | MkListPool i b => MkListPool (w64 i) (w64 b)
    | MkQuickPool i b => MkQuickPool (w64 i) (w64 b)
    | MkFixedPool n => MkFixedPool (w64 n)
    | k' => k'
    end.

  (** The handle is dereferenced for the call, after [new]: [*SHCXX_allocator]. *)
  Definition c_make (v : nat) (k : mkind) (name : string) (parent : nat) (c : cstate) : outcome cstate xres :=
    match at_addr (cp_addr (c_vars c parent)) c with
    | None => UB
    | Some s => c_obtain v (XMake (kind_in k) (name_in name) s) c
    end.

  (** wrapAllocator.cpp:49-157 ([self->addr] dereferenced), wrapResourceManager.cpp:375-427, 542-568, 591-602 *)
  Definition act_call (s : Z) (x : act) : xcall :=
    match x with
    | Allocate n => XAllocate s (w64 n)
    | Deallocate p => XDeallocate s p
    | Release => XRelease s
    | GetSize p => XGetSize s p
    | HighWatermark => XHighWatermark s
    | CurrentSize => XCurrentSize s
    | ActualSize => XActualSize s
    | Count => XCount s
    | Name => XName s
    | Id => XId s
    | AddAlias n => XAddAlias (name_in n) s
    | RemoveAlias n => XRemoveAlias (name_in n) s
    | ReallocateWith p n => XReallocateWith p (w64 n) s
    | Move p => XMove p s
    | Register p n => XRegister p (w64 n) s
    end.

  (** The value returned: [size_t SHC_rv = SH_this->getId()] converts an int. *)
  Definition act_result (x : act) (r : xres) : xres :=
    match x, r with
    | Name, RStr s => RStr (name_out s)
    | Id, RNum i => RNum (w64 i)
    | _, r' => r'
    end.

  Definition c_act (v : nat) (x : act) (c : cstate) : outcome cstate xres :=
    match at_addr (cp_addr (c_vars c v)) c with
    | None => UB
    | Some s => leave (omap (fun c' => c') (act_result x) (call (act_call s x) c))
    end.

  (** wrapResourceManager.cpp:444-540, 570-589, 604-612.  [copy_all] and [copy_with_size] (490-509) take
      (src_ptr, dst_ptr) and call [copy(src_ptr, dst_ptr)], whose parameters are (dst_ptr, src_ptr)
      (ResourceManager.hpp:203). *)
  Definition plain_call (x : plainact) : xcall :=
    match x with
    | IsName n => XIsName (name_in n)
    | IsId i => XIsId i
    | Has p => XHas p
    | CopyAll src dst => XCopy src dst 0
    | CopySize src dst n => XCopy src dst (w64 n)
    | MemsetAll p v => XMemset p v 0
    | MemsetSize p v n => XMemset p v (w64 n)
    | ReallocateDefault p n => XReallocate p (w64 n)
    | RmDeallocate p => XRmDeallocate p
    | RmGetSize p => XRmGetSize p
    | Deregister p => XDeregister p
    | Backtrace p => XBacktrace p
    end.

  (** wrapUmpire.cpp:117-148: [umpire_SHROUD_memory_destructor] *)
  Definition drop_addr {B : Type} (a : Z) (l : list (Z * B)) : list (Z * B) := filter (fun o => negb (fst o =? a)) l.
  Definition is_live {B : Type} (a : Z) (l : list (Z * B)) : bool := existsb (fun o => fst o =? a) l.
  Definition destructor (x : capsule) (c : cstate) : outcome cstate capsule :=
    let done := mkCap 0 0 in
    if cp_idtor x =? 1 then
      if cp_addr x =? 0 then Ok c done
      else if is_live (cp_addr x) (c_objs c) then Ok (set_objs (drop_addr (cp_addr x) (c_objs c)) c) done else UB
    else if cp_idtor x =? 2 then
      if cp_addr x =? 0 then Ok c done
      else if is_live (cp_addr x) (c_strs c)
      then Ok (mkC (c_w c) (c_objs c) (drop_addr (cp_addr x) (c_strs c)) (c_news c) (c_vars c)) done else UB
    else Ok c done.

  (** [umpire_get_backtrace_bufferify] (wrapUmpire.cpp:59-67; there is no C function) and [get_backtrace] (wrapfumpire.f:2094-2105) *)
  Definition f_backtrace (p : Z) (c : cstate) : outcome cstate xres :=
    let a := new_addr c in
    let c1 := mkC (c_w c) (c_objs c) ((a, ""%string) :: c_strs c) (S (c_news c)) (c_vars c) in
    let* (c2, r) := leave (call (XBacktrace p) c1) in
    match r with
    | RStr s =>
        let c3 := mkC (c_w c2) (c_objs c2) (List.map (fun o => if fst o =? a then (a, s) else o) (c_strs c2)) (c_news c2) (c_vars c2) in
        let* (c4, cap) := destructor (mkCap a 2) c3 in
        Ok c4 (RStr (strncpy_all s))
    | _ => UB
    end.

  Definition c_plain (x : plainact) (c : cstate) : outcome cstate xres :=
    match x with
    | Backtrace p => f_backtrace p c
    | _ => leave (call (plain_call x) c)
    end.

  (** wrapAllocator.cpp:39-47: [delete SH_this; self->addr = nullptr] *)
  Definition c_delete (v : nat) (c : cstate) : outcome cstate xres :=
    let x := c_vars c v in
    if cp_addr x =? 0 then Ok (set_var v (mkCap 0 (cp_idtor x)) c) RUnit
    else if is_live (cp_addr x) (c_objs c)
    then Ok (set_var v (mkCap 0 (cp_idtor x)) (set_objs (drop_addr (cp_addr x) (c_objs c)) c)) RUnit
    else UB.

  Definition c_exec (s : stmt) (c : cstate) : outcome cstate xres :=
    match s with
    | SGet v f => c_get v f c
    | SMake v k n parent => c_make v k n parent c
    | SAct v x => c_act v x c
    | SPlain x => c_plain x c
    | SDelete v => c_delete v c
    | SAssign v v' => Ok (set_var v (c_vars c v') c) RUnit
    end.

  Fixpoint c_run (p : list stmt) (c : cstate) : outcome cstate (list xres) :=
    match p with
    | [] => Ok c []
    | s :: t => let* (c1, r) := c_exec s c in let* (c2, rs) := c_run t c1 in Ok c2 (r :: rs)
    end.

  Definition c_start (w : W) : cstate := mkC w [] [] 0 (fun _ => mkCap 0 0).

  (** Fortran [==] of allocators (wrapfumpire.f:2110-2119): [c_associated(a%cxxmem%addr, b%cxxmem%addr)] *)
  Definition f_eq (v v' : nat) (c : cstate) : bool :=
    negb (cp_addr (c_vars c v) =? 0) && (cp_addr (c_vars c v) =? cp_addr (c_vars c v')).

  (** ** Fortran arrays (genumpiresplicer.py:43-86; for int and rank 1, wrapfumpire.f:1052-1089)

      [p = p * dims(i)] in 64 bits, [num_bytes = p * sizeof(size_type)], passed as size_t.
      Simplified: [integer(C_SIZE_T)] is signed and its overflow is left to the processor; here it wraps. *)
  Definition f_bytes (elt : Z) (dims : list Z) : Z := w64 (fold_left (fun p d => w64 (p * d)) dims 1 * elt).

  (** The array pointer: where it begins and its extents. *)
  Record farray : Type := mkFa { fa_base : Z; fa_dims : list Z }.

  (** [c_f_pointer(data_ptr, array, dims)]: undefined unless [dims] is as long as the rank of the array. *)
  Definition f_allocate_array (v : nat) (elt : Z) (rank : nat) (dims : list Z) (c : cstate) : outcome cstate farray :=
    let* (c1, r) := c_act v (Allocate (f_bytes elt dims)) c in
    match r with
    | RNum p => if Nat.eqb (length dims) rank then Ok c1 (mkFa p dims) else UB
    | _ => UB
    end.
  (** [c_loc(array)] *)
  Definition f_deallocate_array (v : nat) (a : farray) (c : cstate) : outcome cstate xres := c_act v (Deallocate (fa_base a)) c.
End Interface.
