(** How processes open, use and leave one shared memory segment: constructor and destructor of
    src/umpire/resource/HostSharedMemoryResourceImpl.hpp.

    All processes use the same name for the segment.  A step is one system call or one atomic access, or the initialisation
    of the mutex or of the header; steps of the processes interleave in any way.  An operation on the segment (C38) is one
    step, as it holds the mutex in the segment.  A system call may fail, and a process may be killed at any time, also while
    it holds the mutex.  Simplified: one object (one thread) of the class per process, pages do not run out when memory is
    touched, memory is sequentially consistent; a segment smaller than its header is taken to hold one (it has a page). *)
From Coq Require Import String.
From Verif Require Import Base SegModel.

(** A shared memory object, which starts as zeros (SharedMemorySegmentHeader, 39-47).  [o_seg]: the header and the blocks
    once they have been written.  [o_lock]: who has the mutex and was killed.  [o_maker]: who made the object (not stored). *)
Record obj : Type := mkObj { o_size : Z; o_flag : Z; o_mutex : bool; o_seg : option segment; o_lock : option Z; o_maker : Z }.

(** What a process does next. *)
Inductive pc : Type :=
| Start | Retry                                                   (* 73, 80 *)
| Sizing (o : nat) | MapNew (o : nat)                             (* 92, 98 *)
| Flag1 (o : nat) (sz : Z) | Mutex (o : nat) (sz : Z) | Header (o : nat) (sz : Z) | Flag2 (o : nat) (sz : Z)   (* 100, 102-117, 119-130, 132 *)
| Wait (o : nat) | MapOld (o : nat) | Spin (o : nat) (sz : Z)     (* 136-146, 148, 150-156 *)
| Ready (o : nat) (sz : Z)                                        (* [sz]: m_segment_size *)
| Unlinking (o : nat) | Closing (o : nat) | Gone                  (* 170, 175 *)
| Failed | Dead.

(** [s_name]: the object the name stands for; [s_log]: the operations finished, latest first (not stored anywhere). *)
Inductive sop : Type := SAllocate (name : string) (n : Z) | SDeallocate (p : Z) | SFind (name : string).
Record shm : Type := mkShm { s_name : option nat; s_next : nat; s_obj : nat -> obj; s_pc : Z -> pc; s_log : list (nat * sop) }.

Definition s_init : shm := mkShm None 0 (fun _ => mkObj 0 0 false None None 0) (fun _ => Start) [].

Definition put_pc (g : shm) (p : Z) (x : pc) : shm :=
  mkShm (s_name g) (s_next g) (s_obj g) (fun q => if q =? p then x else s_pc g q) (s_log g).
Definition put_obj (g : shm) (o : nat) (x : obj) : shm :=
  mkShm (s_name g) (s_next g) (fun k => if Nat.eqb k o then x else s_obj g k) (s_pc g) (s_log g).
Definition set_size (z : Z) (x : obj) : obj := mkObj z (o_flag x) (o_mutex x) (o_seg x) (o_lock x) (o_maker x).
Definition set_flag (f : Z) (x : obj) : obj := mkObj (o_size x) f (o_mutex x) (o_seg x) (o_lock x) (o_maker x).
Definition set_mutex (x : obj) : obj := mkObj (o_size x) (o_flag x) true (o_seg x) (o_lock x) (o_maker x).
Definition set_seg (st : segment) (x : obj) : obj := mkObj (o_size x) (o_flag x) (o_mutex x) (Some st) (o_lock x) (o_maker x).
Definition set_lock (p : Z) (x : obj) : obj := mkObj (o_size x) (o_flag x) (o_mutex x) (o_seg x) (Some p) (o_maker x).

(** 181-302. *)
Definition seg_do (op : sop) (st : segment) : outcome segment Z :=
  match op with
  | SAllocate name n => allocate_named name n st
  | SDeallocate p => let* (st, _) := seg_deallocate p st in Ok st 0
  | SFind name => find_pointer name st
  end.

Inductive act : Type :=
| AStep (p : Z)                   (* the next step *)
| AFail (p : Z)                   (* the next system call fails *)
| AKill (p : Z)
| AOp (p : Z) (op : sop)          (* an operation on the segment *)
| ACrash (p : Z)                  (* killed during one *)
| AClose (p : Z).                 (* the destructor *)

Section Shm.
  (** The size each process asks for. *)
  Context (req : Z -> Z).

  (** 49-158, 471-510 and 170-178.  [ftruncate] refuses sizes that are negative as [off_t], [mmap] the size zero. *)
  Definition step (p : Z) (g : shm) : shm :=
    match s_pc g p with
    | Start =>
        match s_name g with
        | None =>
            put_pc (mkShm (Some (s_next g)) (S (s_next g)) (s_obj (put_obj g (s_next g) (mkObj 0 0 false None None p))) (s_pc g) (s_log g))
              p (Sizing (s_next g))
        | Some _ => put_pc g p Retry
        end
    | Retry => match s_name g with Some o => put_pc g p (Wait o) | None => put_pc g p Start end
    | Sizing o =>
        if req p <? 2 ^ 63 then put_pc (put_obj g o (set_size (req p) (s_obj g o))) p (MapNew o) else put_pc g p Failed
    | MapNew o => if o_size (s_obj g o) =? 0 then put_pc g p Failed else put_pc g p (Flag1 o (o_size (s_obj g o)))
    | Flag1 o sz => put_pc (put_obj g o (set_flag 1 (s_obj g o))) p (Mutex o sz)
    | Mutex o sz => put_pc (put_obj g o (set_mutex (s_obj g o))) p (Header o sz)
    | Header o sz => put_pc (put_obj g o (set_seg (seg_init (req p)) (s_obj g o))) p (Flag2 o sz)
    | Flag2 o sz => put_pc (put_obj g o (set_flag 2 (s_obj g o))) p (Ready o sz)
    | Wait o => if o_size (s_obj g o) =? 0 then g else put_pc g p (MapOld o)
    | MapOld o => put_pc g p (Spin o (o_size (s_obj g o)))
    | Spin o sz => if o_flag (s_obj g o) =? 2 then put_pc g p (Ready o sz) else g
    | Unlinking o => put_pc (mkShm None (s_next g) (s_obj g) (s_pc g) (s_log g)) p (Closing o)
    | Closing o => put_pc g p Gone
    | Ready _ _ | Gone | Failed | Dead => g
    end.

  Definition exec (a : act) (g : shm) : outcome shm unit :=
    match a with
    | AStep p => Ok (step p g) tt
    (** The constructor throws, the object and the name stay (76-86, 92-117, 139-142, 490-506). *)
    | AFail p =>
        match s_pc g p with
        | Start | Retry | Sizing _ | MapNew _ | Mutex _ _ | Wait _ | MapOld _ => Ok (put_pc g p Failed) tt
        | _ => Ok g tt
        end
    | AKill p => Ok (put_pc g p Dead) tt
    (** 192, 254, 288: [pthread_mutex_lock] waits; the mutex and the header must have been written. *)
    | AOp p op =>
        match s_pc g p with
        | Ready o _ =>
            match o_lock (s_obj g o), o_mutex (s_obj g o), o_seg (s_obj g o) with
            | Some _, _, _ => Ok g tt
            | None, true, Some st =>
                match seg_do op st with
                | Ok st' _ | Throw st' _ =>
                    Ok (let g := put_obj g o (set_seg st' (s_obj g o)) in mkShm (s_name g) (s_next g) (s_obj g) (s_pc g) ((o, op) :: s_log g)) tt
                | UB => UB
                | Abort => Abort
                | NoFuel => NoFuel
                end
            | None, _, _ => UB
            end
        | _ => Ok g tt
        end
    (** The mutex is not robust (102-114). *)
    | ACrash p =>
        match s_pc g p with
        | Ready o _ => match o_lock (s_obj g o) with
                       | None => Ok (put_pc (put_obj g o (set_lock p (s_obj g o))) p Dead) tt
                       | Some _ => Ok (put_pc g p Dead) tt
                       end
        | _ => Ok (put_pc g p Dead) tt
        end
    (** 160-168: the memory is unmapped. *)
    | AClose p => match s_pc g p with Ready o _ => Ok (put_pc g p (Unlinking o)) tt | _ => Ok g tt end
    end.

  Fixpoint execs (l : list act) (g : shm) : outcome shm unit :=
    match l with [] => Ok g tt | a :: l => let* (g, _) := exec a g in execs l g end.
End Shm.
