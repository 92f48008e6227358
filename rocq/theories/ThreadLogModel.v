(** The order in which threads that allocate and deallocate at the same time write the log.

    Of Allocator::allocate and deallocate there are two steps each: the call of the strategy and the record of the event
    (one call of fprintf, which locks the stream).  Steps of the threads interleave in any way, as without the mutex of
    ThreadSafeAllocator.  The strategies are such as may be used so; a strategy gives no address it has not got
    back.  Threads pass allocations to one another once they are returned.  Simplified: named allocations and
    reallocations left out; registration in the map left out; of the other calls only their record is a step. *)
From Coq Require Import String.
From Verif Require Import Base ReplayModel ReplaySpec.
Local Open Scope Z_scope.

Inductive phase :=
| Idle
| Got (r n q : Z)     (** Allocator.inl:32 has returned, 44 not begun *)
| Said (r p : Z).     (** Allocator.inl:93 done, 104 or 108 not begun *)

(** [t_heap]: what the strategies have given out; [t_owned]: what the program may deallocate; [t_calls]: what each thread
    called, latest first (not stored anywhere); [t_log]: the events in the file, latest first, with the thread. *)
Record tstate := { t_heap : list (Z * Z); t_owned : list (Z * Z); t_phase : nat -> phase;
                   t_calls : nat -> list pcall; t_log : list (nat * pcall) }.

Definition calls_of (s : tstate) : list pcall := map snd (t_log s).

Definition t_init : tstate := {| t_heap := []; t_owned := []; t_phase := fun _ => Idle; t_calls := fun _ => []; t_log := [] |}.

Definition at_ {A} (t : nat) (a : A) (f : nat -> A) : nat -> A := fun u => if Nat.eqb u t then a else f u.
Definition without (r p : Z) (l : list (Z * Z)) : list (Z * Z) :=
  filter (fun x => negb ((fst x =? r) && (snd x =? p))) l.

(** Calls that are recorded in one step. *)
Definition other (c : pcall) : Prop :=
  match c with PAlloc _ _ _ | PNamed _ _ _ _ | PFree _ _ | PRealloc _ _ _ _ _ => False | _ => True end.

Inductive tstep : tstate -> tstate -> Prop :=
| ts_take s t r n q :            (* Allocator.inl:28-38: the allocator is one the log names, ResourceManager.inl:39-54 *)
    t_phase s t = Idle -> made (calls_of s) r <> None -> 0 < q -> ~ In (r, q) (t_heap s) ->
    tstep s {| t_heap := (r, q) :: t_heap s; t_owned := t_owned s; t_phase := at_ t (Got r n q) (t_phase s);
               t_calls := at_ t (PAlloc r n q :: t_calls s t) (t_calls s); t_log := t_log s |}
| ts_log s t r n q :             (* Allocator.inl:44-47 *)
    t_phase s t = Got r n q ->
    tstep s {| t_heap := t_heap s; t_owned := (r, q) :: t_owned s; t_phase := at_ t Idle (t_phase s);
               t_calls := t_calls s; t_log := (t, PAlloc r n q) :: t_log s |}
| ts_say s t r p :               (* Allocator.inl:93 *)
    t_phase s t = Idle -> In (r, p) (t_owned s) ->
    tstep s {| t_heap := t_heap s; t_owned := without r p (t_owned s); t_phase := at_ t (Said r p) (t_phase s);
               t_calls := at_ t (PFree r p :: t_calls s t) (t_calls s); t_log := (t, PFree r p) :: t_log s |}
| ts_give s t r p :              (* Allocator.inl:101-110 *)
    t_phase s t = Said r p ->
    tstep s {| t_heap := without r p (t_heap s); t_owned := t_owned s; t_phase := at_ t Idle (t_phase s);
               t_calls := t_calls s; t_log := t_log s |}
| ts_null s t r :                (* Allocator.inl:93, 97-99 *)
    t_phase s t = Idle -> made (calls_of s) r <> None ->
    tstep s {| t_heap := t_heap s; t_owned := t_owned s; t_phase := t_phase s;
               t_calls := at_ t (PFree r 0 :: t_calls s t) (t_calls s); t_log := (t, PFree r 0) :: t_log s |}
| ts_other s t c :               (* event.hpp:276-284 *)
    t_phase s t = Idle -> other c -> may_follow (calls_of s) c ->
    tstep s {| t_heap := t_heap s; t_owned := t_owned s; t_phase := t_phase s;
               t_calls := at_ t (c :: t_calls s t) (t_calls s); t_log := (t, c) :: t_log s |}.

Inductive treach : tstate -> Prop :=
| tr_init : treach t_init
| tr_step s s' : treach s -> tstep s s' -> treach s'.
