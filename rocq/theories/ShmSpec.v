(** Vocabulary for the opening of a shared memory segment. *)
From Coq Require Import String.
From Verif Require Import Base SegModel SegSpec ShmModel.

(** The operations done on an object, oldest first, and what they make of a segment. *)
Definition ops_of (o : nat) (log : list (nat * sop)) : list sop := rev (map snd (filter (fun x => Nat.eqb (fst x) o) log)).
Fixpoint seg_run (l : list sop) (st : segment) : option segment :=
  match l with
  | [] => Some st
  | op :: l => match seg_do op st with Ok st' _ => seg_run l st' | Throw st' _ => seg_run l st' | _ => None end
  end.

(** Processes that only go on and use the segment: nothing fails, nobody is killed or leaves. *)
Definition quiet (a : act) : Prop := match a with AStep _ | AOp _ _ => True | _ => False end.
(** Nothing fails and nobody is killed. *)
Definition orderly (a : act) : Prop := match a with AStep _ | AOp _ _ | AClose _ => True | _ => False end.
(** Nobody leaves; anything may fail. *)
Definition stays (a : act) : Prop := match a with AClose _ => False | _ => True end.

(** How many steps of process [p] there are. *)
Definition turns (p : Z) (l : list act) : nat := length (filter (fun a => match a with AStep q => q =? p | _ => false end) l).

(** Process [p] has the segment and may use it. *)
Definition ready (g : shm) (p : Z) (o : nat) (sz : Z) : Prop := s_pc g p = Ready o sz.
(** Nobody has it, or ever will. *)
Definition hopeless (req : Z -> Z) (g : shm) : Prop :=
  forall acts g' p o sz, execs req acts g = Ok g' tt -> ~ ready g' p o sz.
(** Neither inside a constructor nor between constructor and destructor nor inside a destructor. *)
Definition outside (c : pc) : Prop := match c with Start | Gone => True | _ => False end.
Definition over (c : pc) : Prop := match c with Failed | Dead => True | _ => False end.

(** Operations as C38 expects them, from a segment [st] where the names [G] are in use. *)
Fixpoint polite (l : list sop) (st : segment) (G : list live) : Prop :=
  match l with
  | [] => True
  | SAllocate n req :: l => ask_ok G n req /\
      match allocate_named n req st with
      | Ok st' p => polite l st' (note_alloc n p (sg_actual st' - sg_actual st) req G)
      | Throw st' _ => polite l st' G
      | _ => False
      end
  | SDeallocate p :: l => (exists e, In e G /\ l_off e = p) /\
      match seg_deallocate p st with Ok st' _ => polite l st' (note_free p G) | _ => False end
  | SFind _ :: l => polite l st G
  end.
