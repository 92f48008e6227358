(** What an allocator's counters should say when other allocators are built on it. *)
From Coq Require Import String.
From Verif Require Import Base StratModel StratSpec HeapModel GlobalModel GlobalSpec GlobalRun TreeModel.

(** [B j]: the blocks strategy [j] holds from the allocator it was created on.  [built C B i]: those of
    all strategies created on allocator [i]. *)
Fixpoint built (C : list nodecfg) (B : holdings) (i : nat) : list region :=
  match C with
  | [] => []
  | c :: C' => (if Nat.eqb (nc_parent c) i then B (S (length C')) else []) ++ built C' B i
  end.

(** Everything that is out of allocator [i]: what the program holds and what the strategies created on
    it hold. *)
Definition out (C : list nodecfg) (X B : holdings) (i : nat) : list region := X i ++ built C B i.

(** The counters of an allocator ([m_current_size], [m_allocation_count]) say what is out of it, and
    beyond that the requests [F] it has refused. *)
Definition counts (s : stats) (L : list region) (F : list Z) : Prop :=
  st_cur s = w64 (total (map snd L) + total F) /\
  st_cnt s = w64 (Z.of_nat (length L) + Z.of_nat (length F)).

(** The program uses a NamingShim over a parent nobody else uses.  [asked]: the sizes of all requests so
    far; [gone]: the number of calls of [deallocate].  Calls may throw. *)
Section Shim.
  Context (m_name : string) {W : Type} (f : string -> Z -> W -> outcome W Z) (g : Z -> Z -> W -> outcome W unit).

  Inductive shim_uses : list Z -> nat -> Z * (stats * W) -> Prop :=
  | su_start w : shim_uses [] 0 (0, (stats0, w))
  | su_alloc asked gone s n s' p :
      shim_uses asked gone s -> shim_allocate m_name f n s = Ok s' p -> shim_uses (n :: asked) gone s'
  | su_alloc_throw asked gone s n s' e :
      shim_uses asked gone s -> shim_allocate m_name f n s = Throw s' e -> shim_uses (n :: asked) gone s'
  | su_free asked gone s p n s' :
      shim_uses asked gone s -> shim_deallocate g p n s = Ok s' tt -> shim_uses asked (S gone) s'
  | su_free_throw asked gone s p n s' e :
      shim_uses asked gone s -> shim_deallocate g p n s = Throw s' e -> shim_uses asked (S gone) s'.
End Shim.
