(** Umpire in a parallel program: src/umpire/util/MPI.cpp, umpire::initialize (src/umpire/Umpire.hpp), the cache of
    get_communicator_for_allocator (src/umpire/Umpire.cpp) and what the processes do together in initialize_io
    (src/umpire/util/io.cpp). *)
From Verif Require Import Base.

Definition COMM_NULL : Z := 0.

(** ** One process (MPI.cpp:22-28, and the static variable of umpire::initialize) *)
Record mpi : Type := mkMpi { m_called : bool; m_init : bool; m_rank : Z; m_size : Z; m_comm : Z }.
Definition m_start : mpi := mkMpi false false (-1) (-1) COMM_NULL.

Section Process.
  (** UMPIRE_ENABLE_MPI; rank of this process in a communicator, and its size. *)
  Context (with_mpi : bool) (rank_of size_of : Z -> Z).

  (** MPI.cpp:30-56.  [up]: what MPI_Initialized answers. *)
  Definition mpi_initialize (up : bool) (comm : Z) (s : mpi) : outcome mpi unit :=
    if m_init s then Throw s RuntimeError
    else if with_mpi then
      if up then Ok (mkMpi (m_called s) true (rank_of comm) (size_of comm) comm) tt else Ok s tt
    else Ok (mkMpi (m_called s) true 0 1 (m_comm s)) tt.

  (** Umpire.hpp:23-40: the variable is set also when nothing was initialised. *)
  Definition u_initialize (up : bool) (comm : Z) (s : mpi) : outcome mpi unit :=
    if m_called s then Ok s tt
    else let* (s, _) := mpi_initialize up comm s in Ok (mkMpi true (m_init s) (m_rank s) (m_size s) (m_comm s)) tt.

  (** 58-68. *)
  Definition mpi_finalize (s : mpi) : outcome mpi unit :=
    if m_init s then Ok (if with_mpi then s else mkMpi (m_called s) (m_init s) (-1) (-1) (m_comm s)) tt else Throw s RuntimeError.

  (** 88-97: the communicator of the barrier, [None] when there is none to wait at. *)
  Definition mpi_sync (s : mpi) : outcome mpi (option Z) :=
    if m_init s then Ok s (if with_mpi then Some (m_comm s) else None) else Throw s RuntimeError.

  Inductive mop : Type := MInitialize (up : bool) (comm : Z) | UInitialize (up : bool) (comm : Z) | MFinalize.
  Definition m_do (o : mop) (s : mpi) : outcome mpi unit :=
    match o with
    | MInitialize up c => mpi_initialize up c s
    | UInitialize up c => u_initialize up c s
    | MFinalize => mpi_finalize s
    end.
  (** The program goes on after an exception. *)
  Definition m_after (o : mop) (s : mpi) : mpi := match m_do o s with Ok s _ | Throw s _ => s | _ => s end.
  Definition m_run (l : list mop) (s : mpi) : mpi := fold_left (fun s o => m_after o s) l s.
End Process.

(** ** Umpire.cpp:239-260.  [split comm k]: the communicator the [k]-th call of MPI_Comm_split_type makes. *)
Record comms : Type := mkComms { c_cache : fmap Z; c_splits : nat }.
Section Cache.
  Context (split : Z -> nat -> Z) (node : Z -> bool).    (* is the scope of the allocator the node? *)
  Definition get_communicator (id comm : Z) (s : comms) : comms * Z :=
    match c_cache s id with
    | Some c => (s, c)
    | None =>
        if node id then let c := split comm (c_splits s) in (mkComms (fset (c_cache s) id c) (S (c_splits s)), c)
        else (mkComms (fset (c_cache s) id COMM_NULL) (c_splits s), COMM_NULL)
    end.
End Cache.

(** ** initialize_io by the processes 0 .. n-1 (io.cpp:91-125), each of which has initialised umpire::util::MPI with the same
    communicator; all use the same directory.  Steps of different processes interleave. *)
Inductive stage : Type :=
| Check                  (* 91 *)
| Make                   (* 97-116, rank 0 only *)
| Barrier                (* 119 *)
| Passed                 (* through the barrier *)
| Skipped                (* the directory was there, no barrier *)
| Threw.

Record start : Type := mkStart { t_dir : bool; t_at : Z -> stage }.

Section Start.
  (** [log]: logging is enabled; [fails]: the directory cannot be made. *)
  Context (n : Z) (log fails : bool).

  Definition arrived (s : stage) : bool := match s with Barrier | Passed => true | _ => false end.
  Definition all_arrived (g : start) : bool := forallb (fun i => arrived (t_at g (Z.of_nat i))) (seq 0 (Z.to_nat n)).

  Definition go (g : start) (r : Z) (s : stage) : start := mkStart (t_dir g) (fun q => if q =? r then s else t_at g q).

  (** [MPI_Barrier] returns when all processes have called it. *)
  Definition t_step (r : Z) (g : start) : start :=
    match t_at g r with
    | Check => if t_dir g then go g r Skipped else if r =? 0 then go g r Make else go g r Barrier
    | Make =>
        if negb (t_dir g) && log then if fails then go g r Threw else go (mkStart true (t_at g)) r Barrier
        else go g r Barrier
    | Barrier => if all_arrived g then go g r Passed else g
    | _ => g
    end.
  Definition t_run (l : list Z) (g : start) : start := fold_left (fun g r => t_step r g) l g.
End Start.

Definition t_init (dir : bool) : start := mkStart dir (fun _ => Check).
