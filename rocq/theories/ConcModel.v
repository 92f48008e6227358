(** Concurrent calls of allocators.

    A call is a program of atomic steps on the shared state; steps of different threads interleave in any order.  A call on
    a thread-safe allocator first takes the mutex of the allocator and gives it back before it returns, also when it throws
    (Allocator.inl:50-66, std::lock_guard).  The interleaving is sequentially consistent. *)
From Verif Require Import Base HeapModel StratModel GlobalModel MapModel SystemModel.

Inductive prog (S R : Type) : Type :=
| Done (r : R)
| Do (f : S -> option (S * prog S R)).   (* one atomic step; [None]: the behaviour is undefined *)
Arguments Done {S R} _.
Arguments Do {S R} _.

Section Threads.
  Context {S C R : Type}.
  (** The code of each call, and the mutex it takes. *)
  Context (body : C -> prog S R) (mutex : C -> Z).

  (** Where a thread is: call number [k] has been invoked, is inside its critical section, or has left it. *)
  Inductive place : Type := Idle | Want (k : nat) (c : C) | Inside (k : nat) (c : C) (p : prog S R) | Leave (k : nat) (c : C) (r : R).

  (** What can be seen from outside: call [k] by thread [t] begins; call [k] returns [r]. *)
  Inductive event : Type := Inv (k : nat) (t : Z) (c : C) | Res (k : nat) (r : R).

  Record config : Type := mkC { c_state : S; c_owner : fmap Z; c_place : Z -> place; c_calls : nat; c_hist : list event }.

  Definition c_init (s : S) : config := mkC s fempty (fun _ => Idle) 0 [].

  Definition put (f : Z -> place) (t : Z) (x : place) : Z -> place := fun u => if u =? t then x else f u.

  Inductive act : Type := AInvoke (t : Z) (c : C) | ALock (t : Z) | AStep (t : Z) | AUnlock (t : Z) | AReturn (t : Z).

  (** One step of one thread, if it is possible. *)
  Definition cexec (a : act) (g : config) : option config :=
    match a with
    | AInvoke t c =>
        match c_place g t with
        | Idle => Some (mkC (c_state g) (c_owner g) (put (c_place g) t (Want (c_calls g) c)) (Datatypes.S (c_calls g)) (Inv (c_calls g) t c :: c_hist g))
        | _ => None
        end
    | ALock t =>
        match c_place g t with
        | Want k c => match c_owner g (mutex c) with
                      | None => Some (mkC (c_state g) (fset (c_owner g) (mutex c) t) (put (c_place g) t (Inside k c (body c))) (c_calls g) (c_hist g))
                      | Some _ => None
                      end
        | _ => None
        end
    | AStep t =>
        match c_place g t with
        | Inside k c (Do f) => match f (c_state g) with
                               | Some (s, p) => Some (mkC s (c_owner g) (put (c_place g) t (Inside k c p)) (c_calls g) (c_hist g))
                               | None => None
                               end
        | _ => None
        end
    | AUnlock t =>
        match c_place g t with
        | Inside k c (Done r) => Some (mkC (c_state g) (fdel (c_owner g) (mutex c)) (put (c_place g) t (Leave k c r)) (c_calls g) (c_hist g))
        | _ => None
        end
    | AReturn t =>
        match c_place g t with
        | Leave k c r => Some (mkC (c_state g) (c_owner g) (put (c_place g) t Idle) (c_calls g) (Res k r :: c_hist g))
        | _ => None
        end
    end.

  (** A schedule. *)
  Fixpoint crun (l : list act) (g : config) : option config :=
    match l with [] => Some g | a :: l => match cexec a g with Some g' => crun l g' | None => None end end.
End Threads.
Arguments event : clear implicits.
Arguments act : clear implicits.
Arguments config : clear implicits.
Arguments place : clear implicits.

(** ** The calls of Allocator *)

Inductive tcall : Type := TAlloc (i : nat) (n nm : Z) | TFree (i : nat) (p : Z).
Definition target (c : tcall) : nat := match c with TAlloc i _ _ => i | TFree i _ => i end.
(** Every ThreadSafeAllocator has a mutex of its own (ThreadSafeAllocator.hpp:41, Allocator.cpp:17-26). *)
Definition lock_of (c : tcall) : Z := Z.of_nat (target c).
Inductive tres : Type := RPtr (p : Z) | RUnit | RExn (e : exn).

Section Calls.
  Context (J : Judy (list arec)) (C : list nodecfg).
  Notation world := (sworld J C).

  Definition piece {A : Type} (o : world -> outcome world A) (k : A -> prog world tres) : prog world tres :=
    Do (fun s => match o s with Ok s' a => Some (s', k a) | Throw s' e => Some (s', Done (RExn e)) | _ => None end).
  Definition update (i : nat) (f : stats -> stats) : world -> outcome world unit := fun s => Ok (gupd C i f (fst s), snd s) tt.

  (** Allocator.inl:20-48 and 68-89, with Inspector.cpp:17-39 access by access.  The strategy's own function is one step;
      so is AllocationMap::insert, which has a mutex of its own (AllocationMap.cpp:157). *)
  Definition alloc_body (i : nat) (n nm : Z) : prog world tres :=
    piece (fun s => omap (fun w => (w, snd s)) (fun p => p)
                      (if n =? 0 then p_alloc (graw C zero_id) 1 (fst s) else p_alloc (graw C i) n (fst s))) (fun p =>
    piece (update i (fun x => mkStats (w64 (st_cur x + n)) (st_hwm x) (st_cnt x))) (fun _ =>                        (* 19 *)
    piece (update i (fun x => mkStats (st_cur x) (st_hwm x) (w64 (st_cnt x + 1)))) (fun _ =>                        (* 20 *)
    piece (update i (fun x => mkStats (st_cur x) (if st_hwm x <? st_cur x then st_cur x else st_hwm x) (st_cnt x))) (fun _ =>  (* 22-24 *)
    piece (sys_register J C p (mkRec p n (Z.of_nat i) nm)) (fun _ => Done (RPtr p)))))).                            (* 26 *)

  (** Allocator.inl:91-112 with Inspector.cpp:41-56 and AllocateNull.cpp:31-43; AllocationMap::remove has a mutex of its
      own (AllocationMap.cpp:241). *)
  Definition free_body (i : nat) (p : Z) : prog world tres :=
    if p =? 0 then Done RUnit
    else
      piece (fun s => omap (pair (fst s)) (fun r => r) (am_remove J p (snd s))) (fun r =>                           (* 44 *)
      if r_strat r =? Z.of_nat i
      then
        piece (update i (fun x => mkStats (w64 (st_cur x - r_size r)) (st_hwm x) (st_cnt x))) (fun _ =>             (* 47 *)
        piece (update i (fun x => mkStats (st_cur x) (st_hwm x) (w64 (st_cnt x - 1)))) (fun _ =>                    (* 48 *)
        piece (fun s => omap (fun w => (w, snd s)) (fun u => u)
                          (if zero_owns C p (fst s) then p_dealloc (graw C zero_id) p 1 (fst s)
                           else p_dealloc (graw C i) p (r_size r) (fst s))) (fun _ => Done RUnit)))
      else
        piece (sys_register J C p (mkRec p (r_size r) (r_strat r) (r_name r))) (fun _ => Done (RExn RuntimeError))). (* 51-52 *)

  Definition call_body (c : tcall) : prog world tres :=
    match c with TAlloc i n nm => alloc_body i n nm | TFree i p => free_body i p end.

  (** The same with the strategy's allocation taken apart: it reads the state of the allocators, and writes the result back
      later.  (A pool's allocate is many reads followed by writes; this is one of the ways they can interleave.) *)
  Definition racing_alloc_body (i : nat) (n nm : Z) : prog world tres :=
    Do (fun s => match (if n =? 0 then p_alloc (graw C zero_id) 1 (fst s) else p_alloc (graw C i) n (fst s)) with
                 | Ok w p => Some (s, Do (fun s' => Some ((w, snd s'), piece (sys_track J C i p n nm) (fun _ => Done (RPtr p)))))
                 | Throw w e => Some (s, Do (fun s' => Some ((w, snd s'), Done (RExn e))))
                 | _ => None
                 end).
  Definition racing_body (c : tcall) : prog world tres :=
    match c with TAlloc i n nm => racing_alloc_body i n nm | TFree i p => free_body i p end.
End Calls.
