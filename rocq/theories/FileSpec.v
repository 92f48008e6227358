(** Specification words for the file resource. *)
From Verif Require Import Base FileModel.

Section Spec.
  Context (os : OS) (page : Z).

  (** [fhist files w G]: [w] is reached from a directory holding [files] by allocations and by deallocations of live
      pointers, failing or not; [G] are the live allocations with the bytes asked for. *)
  Inductive fhist (files : fmap Z) : fworld -> list region -> Prop :=
  | fh_start : fhist files (f_init files) []
  | fh_alloc w G n w' p : fhist files w G -> 0 <= n < M64 -> file_allocate os page n w = Ok w' p -> fhist files w' ((p, n) :: G)
  | fh_alloc_fail w G n w' e : fhist files w G -> 0 <= n < M64 -> file_allocate os page n w = Throw w' e -> fhist files w' G
  | fh_free w G p n w' : fhist files w G -> In (p, n) G -> file_deallocate os p w = Ok w' tt ->
      fhist files w' (filter (fun x => negb (fst x =? p)) G)
  | fh_free_fail w G p n w' e : fhist files w G -> In (p, n) G -> file_deallocate os p w = Throw w' e -> fhist files w' G.
End Spec.

(** The address [x] is mapped, from the file [c]. *)
Definition mapped (w : fworld) (x c : Z) : Prop := exists r, In (r, c) (f_maps w) /\ fst r <= x < fst r + snd r.

(** The backing of the live allocation [e]: whole pages holding it and no more, mapped from the file [c]. *)
Definition backed (page : Z) (w : fworld) (e : region) (len c : Z) : Prop :=
  len mod page = 0 /\ snd e <= len < snd e + page /\ 0 < len /\ fst e mod page = 0 /\ 0 < fst e /\ fst e + len <= ASP /\
  In ((fst e, len), c) (f_maps w) /\ f_files w c = Some len.
