(** What the C and Fortran interface should do: a program written against it behaves like the C++ program that says the
    same, where allocators are values and need not be deleted. *)
From Coq Require Import String Ascii.
From Verif Require Import Base CfModel.

(** ** Strings and numbers that mean the same on both sides *)

Definition no_nul (s : string) : Prop := forall a b, s <> (a ++ String zero b)%string.
Definition no_end_blank (s : string) : Prop := forall a, s <> (a ++ " ")%string.
Definition good_name (fortran : bool) (s : string) : Prop := if fortran then no_end_blank s else no_nul s.
Definition size_t (n : Z) : Prop := 0 <= n < 2 ^ 64.

Definition good_kind (fortran : bool) (k : mkind) : Prop :=
  match k with
  | MkListPool i b | MkQuickPool i b => size_t i /\ size_t b
  | MkAdvisor op _ => good_name fortran op
  | MkFixedPool n => size_t n
  | MkNamed | MkThreadSafe | MkPrefetcher _ => True
  end.

(** Everything but the two copies. *)
Definition good_stmt (fortran : bool) (s : stmt) : Prop :=
  match s with
  | SGet _ (ByName n) => good_name fortran n
  | SGet _ _ => True
  | SMake _ k n _ => good_kind fortran k /\ good_name fortran n
  | SAct _ (Allocate n) => size_t n
  | SAct _ (AddAlias n) | SAct _ (RemoveAlias n) => good_name fortran n
  | SAct _ (ReallocateWith _ n) | SAct _ (Register _ n) => size_t n
  | SAct _ _ => True
  | SPlain (IsName n) => good_name fortran n
  | SPlain (CopyAll _ _) | SPlain (CopySize _ _ _) => False
  | SPlain (MemsetSize _ _ n) | SPlain (ReallocateDefault _ n) => size_t n
  | SPlain _ => True
  | SDelete _ | SAssign _ _ => True
  end.

(** The library answers each call with a value of its C++ type; its texts hold no NUL. *)
Definition good_result (x : xcall) (r : xres) : Prop :=
  match x with
  | XByName _ | XById _ | XForPtr _ | XMake _ _ _ => exists a, r = RAlloc a
  | XName _ | XBacktrace _ => exists s, r = RStr s /\ no_nul s
  | XId _ => exists i, r = RNum i /\ size_t i
  | XAllocate _ _ | XGetSize _ _ | XHighWatermark _ | XCurrentSize _ | XActualSize _ | XCount _
  | XReallocate _ _ | XReallocateWith _ _ _ | XMove _ _ | XRmGetSize _ => exists n, r = RNum n
  | XIsName _ | XIsId _ | XHas _ => exists b, r = RBool b
  | _ => r = RUnit
  end.
Definition good_api {W : Type} (api : xcall -> W -> outcome W xres) : Prop :=
  forall x w w' r, api x w = Ok w' r -> good_result x r.

(** ** The C++ program *)

Section Cpp.
  Context {W : Type} (api : xcall -> W -> outcome W xres).

  Record xstate : Type := mkX { x_w : W; x_vars : nat -> option Z }.
  Definition x_set (v : nat) (s : option Z) (x : xstate) : xstate :=
    mkX (x_w x) (fun u => if Nat.eqb u v then s else x_vars x u).

  Definition x_call (q : xcall) (x : xstate) : outcome xstate xres :=
    match api q (x_w x) with
    | Ok w r => Ok (mkX w (x_vars x)) r
    | Throw w e => Throw (mkX w (x_vars x)) e
    | UB => UB
    | Abort => Abort
    | NoFuel => NoFuel
    end.

  (** Allocator v = rm.getAllocator(...) *)
  Definition x_bind (v : nat) (q : xcall) (x : xstate) : outcome xstate xres :=
    match x_call q x with
    | Ok x1 (RAlloc s) => Ok (x_set v (Some s) x1) RUnit
    | Ok _ _ => UB
    | o => o
    end.

  Definition x_act (s : Z) (a : act) : xcall :=
    match a with
    | Allocate n => XAllocate s n
    | Deallocate p => XDeallocate s p
    | Release => XRelease s
    | GetSize p => XGetSize s p
    | HighWatermark => XHighWatermark s
    | CurrentSize => XCurrentSize s
    | ActualSize => XActualSize s
    | Count => XCount s
    | Name => XName s
    | Id => XId s
    | AddAlias n => XAddAlias n s
    | RemoveAlias n => XRemoveAlias n s
    | ReallocateWith p n => XReallocateWith p n s
    | Move p => XMove p s
    | Register p n => XRegister p n s
    end.

  (** The documented meaning: copy_all(src, dst) is rm.copy(dst, src). *)
  Definition x_plain (a : plainact) : xcall :=
    match a with
    | IsName n => XIsName n
    | IsId i => XIsId i
    | Has p => XHas p
    | CopyAll src dst => XCopy dst src 0
    | CopySize src dst n => XCopy dst src n
    | MemsetAll p v => XMemset p v 0
    | MemsetSize p v n => XMemset p v n
    | ReallocateDefault p n => XReallocate p n
    | RmDeallocate p => XRmDeallocate p
    | RmGetSize p => XRmGetSize p
    | Deregister p => XDeregister p
    | Backtrace p => XBacktrace p
    end.

  Definition x_exec (s : stmt) (x : xstate) : outcome xstate xres :=
    match s with
    | SGet v (ByName n) => x_bind v (XByName n) x
    | SGet v (ById i) => x_bind v (XById i) x
    | SGet v (ForPtr p) => x_bind v (XForPtr p) x
    | SMake v k n parent => match x_vars x parent with Some a => x_bind v (XMake k n a) x | None => UB end
    | SAct v a => match x_vars x v with Some b => x_call (x_act b a) x | None => UB end
    | SPlain a => x_call (x_plain a) x
    | SDelete v => Ok x RUnit
    | SAssign v v' => Ok (x_set v (x_vars x v') x) RUnit
    end.

  Fixpoint x_run (p : list stmt) (x : xstate) : outcome xstate (list xres) :=
    match p with
    | [] => Ok x []
    | s :: t =>
        match x_exec s x with
        | Ok x1 r => match x_run t x1 with
                     | Ok x2 rs => Ok x2 (r :: rs)
                     | o => o
                     end
        | Throw x1 e => Throw x1 e
        | UB => UB
        | Abort => Abort
        | NoFuel => NoFuel
        end
    end.
  Definition x_start (w : W) : xstate := mkX w (fun _ => None).
End Cpp.

(** ** Who owns the objects

    Each handle obtained is a new token; the program must use and delete only tokens not yet deleted (or delete null). *)

Record owner : Type := mkOwn { own_next : nat; own_live : list nat; own_vars : nat -> option nat }.
Definition own_start : owner := mkOwn 0 [] (fun _ => None).
Definition own_set (v : nat) (t : option nat) (o : owner) : owner :=
  mkOwn (own_next o) (own_live o) (fun u => if Nat.eqb u v then t else own_vars o u).
Definition own_new (v : nat) (o : owner) : owner :=
  own_set v (Some (own_next o)) (mkOwn (S (own_next o)) (own_next o :: own_live o) (own_vars o)).
Definition holds (o : owner) (v : nat) : Prop := exists t, own_vars o v = Some t /\ In t (own_live o).

Definition own_step (s : stmt) (o : owner) : owner :=
  match s with
  | SGet v _ | SMake v _ _ _ => own_new v o
  | SAct _ _ | SPlain _ => o
  | SDelete v =>
      match own_vars o v with
      | None => o
      | Some t => own_set v None (mkOwn (own_next o) (filter (fun u => negb (Nat.eqb u t)) (own_live o)) (own_vars o))
      end
  | SAssign v v' => own_set v (own_vars o v') o
  end.
Definition own_ok (s : stmt) (o : owner) : Prop :=
  match s with
  | SGet _ _ | SPlain _ | SAssign _ _ => True
  | SMake _ _ _ parent => holds o parent
  | SAct v _ => holds o v
  | SDelete v => own_vars o v = None \/ holds o v
  end.
Definition own_after (p : list stmt) (o : owner) : owner := fold_left (fun o s => own_step s o) p o.

(** Every statement uses handles it may use. *)
Definition careful (p : list stmt) : Prop := forall a s b, p = a ++ s :: b -> own_ok s (own_after a own_start).

(** ** Fortran arrays *)

Definition volume (dims : list Z) : Z := fold_right Z.mul 1 dims.
(** subscripts begin at 1 *)
Definition in_extents (dims idx : list Z) : Prop := Forall2 (fun d i => 1 <= i <= d) dims idx.
(** the element's place in the order of array elements: the first subscript varies fastest *)
Fixpoint element (dims idx : list Z) : Z :=
  match dims, idx with
  | d :: ds, i :: is_ => (i - 1) + d * element ds is_
  | _, _ => 0
  end.
(** the bytes of an element *)
Definition elem_byte (a : farray) (elt : Z) (idx : list Z) (b : Z) : Prop :=
  fa_base a + elt * element (fa_dims a) idx <= b < fa_base a + elt * element (fa_dims a) idx + elt.
