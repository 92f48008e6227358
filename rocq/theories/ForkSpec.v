(** What the logs of a program that forks should hold. *)
From Verif Require Import Base JsonModel StoreModel JsonSpec ForkModel.

(** What happened, oldest first; an event that is refused is not counted among the records.  [P]: a condition on each step. *)
Inductive fruns (P : fworld -> fop -> Prop) (w0 : fworld) : list fop -> fworld -> Prop :=
| fr_start : fruns P w0 [] w0
| fr_step ops w o w' : fruns P w0 ops w -> P w o -> fstep o w = Ok w' tt -> fruns P w0 (ops ++ [o]) w'
| fr_refused ops w o w' e : fruns P w0 ops w -> P w o -> fstep o w = Throw w' e -> fruns P w0 ops w'.

(** What [p] recorded. *)
Definition recs_of (p : Z) (ops : list fop) : list rec :=
  flat_map (fun o => match o with FRecord q r => if q =? p then [r] else [] | _ => [] end) ops.
Definition all_writable (ops : list fop) : Prop := forall p r, In (FRecord p r) ops -> writable r.

(** Of records with the process that passed them on, those of [p]. *)
Definition sent (p : Z) (l : list (Z * rec)) : list rec := map snd (filter (fun x => fst x =? p) l).

(** A process uses a log only if it is its own: children of a process with a log end by [_exit] or exec. *)
Definition alone (w : fworld) (o : fop) : Prop :=
  match o with
  | FRecord p _ | FWrite p _ | FExit p => forall x f, f_procs w p = Some x -> f_log x = Some f -> f = p
  | _ => True
  end.
(** Processes fork only before their first event. *)
Definition early (w : fworld) (o : fop) : Prop :=
  match o with FFork p _ => forall x, f_procs w p = Some x -> f_log x = None | _ => True end.
(** What is passed on ends at the end of a line. *)
Definition whole (w : fworld) (o : fop) : Prop :=
  match o with
  | FWrite p n => forall x, f_procs w p = Some x -> firstn n (f_buf x) = [] \/ exists l, firstn n (f_buf x) = l ++ [10]
  | _ => True
  end.
(** Nothing is held back when a process forks. *)
Definition settled (w : fworld) (o : fop) : Prop :=
  match o with FFork p _ => forall x, f_procs w p = Some x -> f_buf x = [] | _ => True end.
Definition both (P Q : fworld -> fop -> Prop) (w : fworld) (o : fop) : Prop := P w o /\ Q w o.
