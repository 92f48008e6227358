(** The names a NamingShim asks its parent for. *)
From Coq Require Import String.
From Verif Require Import Base NamingModel.

(** A parent that writes down every name it is asked for, newest first. *)
Definition recording {W : Type} (f : string -> Z -> W -> outcome W Z)
  : string -> Z -> list string * W -> outcome (list string * W) Z :=
  fun name n lw => omap (pair (name :: fst lw)) (fun p => p) (f name n (snd lw)).

Definition recording_free {W : Type} (g : Z -> Z -> W -> outcome W unit)
  : Z -> Z -> list string * W -> outcome (list string * W) unit :=
  fun p n lw => omap (pair (fst lw)) (fun u => u) (g p n (snd lw)).

Section Hist.
  Context (m_name : string) {W : Type} (f : string -> Z -> W -> outcome W Z) (g : Z -> Z -> W -> outcome W unit).

  (** [shim_hist log w]: the names asked for so far are [log]; any number of calls of any
      sizes, successful or throwing; the rest of the program may change [w]. *)
  Inductive shim_hist : Z * (list string * W) -> Prop :=
  | sh_start w : shim_hist (0, ([], w))
  | sh_alloc s n s' p : shim_hist s -> ns_allocate m_name (recording f) n s = Ok s' p -> shim_hist s'
  | sh_alloc_throw s n s' e : shim_hist s -> ns_allocate m_name (recording f) n s = Throw s' e -> shim_hist s'
  | sh_free s p n s' : shim_hist s -> ns_deallocate (recording_free g) p n s = Ok s' tt -> shim_hist s'
  | sh_free_throw s p n s' e : shim_hist s -> ns_deallocate (recording_free g) p n s = Throw s' e -> shim_hist s'
  | sh_env c log w w' : shim_hist (c, (log, w)) -> shim_hist (c, (log, w')).
End Hist.
