(** Model of the log of a program that forks: recorder_factory.cpp:35-50 (the name of the log is made of the process id at the
    first use, in a static variable) and json_file_store.cpp:30-78, 143-152 (a stream of the C library, opened at the first event).

    A child has the static variables and the streams of its parent as they were: the same name, what the stream still holds, and the
    same file description, so that what either passes on comes after what the other has passed on.  Simplified: process ids are
    not used again and files of that name are not there before (make_unique_filename, C61); writing does not fail. *)
From Verif Require Import Base JsonModel StoreModel.

(** [Killed]: ended without the C library ([_exit], a signal), or replaced by another program (exec). *)
Inductive fate := Running | Exited | Killed.

(** [f_log]: the process whose number is in the name of the log, once it is open; [f_buf]: what the stream holds. *)
Record proc := mkProc { f_log : option Z; f_buf : bytes; f_fate : fate }.
Record fworld := mkFW { f_procs : fmap proc; f_files : fmap bytes }.

Definition f_start (p : Z) : fworld := mkFW (fset fempty p (mkProc None [] Running)) fempty.

Inductive fop :=
| FRecord (p : Z) (r : rec)
| FWrite (p : Z) (n : nat)      (* the C library passes on [n] bytes *)
| FFork (p q : Z)
| FExit (p : Z)
| FKill (p : Z).

(** json_file_store.cpp:143-152, with the name of recorder_factory.cpp:37-38. *)
Definition f_open (p : Z) (x : proc) (w : fworld) : fworld * proc * Z :=
  match f_log x with
  | Some f => (w, x, f)
  | None => let x' := mkProc (Some p) [] Running in (mkFW (fset (f_procs w) p x') (fset (f_files w) p []), x', p)
  end.

(** json_file_store.cpp:30-78: only the first kind opens the file. *)
Definition f_record (p : Z) (r : rec) (x : proc) (w : fworld) : outcome fworld unit :=
  if negb (generic r) && match f_log x with None => true | Some _ => false end then UB
  else let '(w1, x1, f) := f_open p x w in
       match text r with
       | DOk t => Ok (mkFW (fset (f_procs w1) p (mkProc (Some f) (f_buf x1 ++ t) Running)) (f_files w1)) tt
       | DThrow => Throw w1 RuntimeError
       | DUB | DFloat => UB
       end.

Definition f_write (p : Z) (n : nat) (e : fate) (x : proc) (w : fworld) : fworld :=
  mkFW (fset (f_procs w) p (mkProc (f_log x) (skipn n (f_buf x)) e))
       match f_log x with
       | Some f => match f_files w f with Some d => fset (f_files w) f (d ++ firstn n (f_buf x)) | None => f_files w end
       | None => f_files w
       end.

(** A process that is not running does nothing (the outcome UB stands for a step that there is not). *)
Definition f_actor (o : fop) : Z := match o with FRecord p _ | FWrite p _ | FFork p _ | FExit p | FKill p => p end.
Definition fstep (o : fop) (w : fworld) : outcome fworld unit :=
  match f_procs w (f_actor o) with
  | Some (mkProc log buf Running) =>
      let x := mkProc log buf Running in
      match o with
      | FRecord p r => f_record p r x w
      | FWrite p n => Ok (f_write p n Running x w) tt
      | FFork p q => match f_procs w q with Some _ => UB | None => Ok (mkFW (fset (f_procs w) q x) (f_files w)) tt end
      | FExit p => Ok (f_write p (length buf) Exited x w) tt
      | FKill p => Ok (mkFW (fset (f_procs w) p (mkProc log buf Killed)) (f_files w)) tt
      end
  | _ => UB
  end.
