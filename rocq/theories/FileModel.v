(** Model of FileMemoryResource (src/umpire/resource/FileMemoryResource.cpp) without umap: memory mapped from files.

    Files are named by the counter that goes into their name (62; the directory and the pid are fixed); their contents
    are not modelled.  The operating system is an oracle consulted with the time, a step counter. *)
From Verif Require Import Base.

Record OS : Type := mkOS { o_open : nat -> bool; o_trunc : nat -> bool; o_mmap : nat -> Z -> option Z; o_munmap : nat -> bool; o_remove : nat -> bool }.

Record fworld : Type := mkF {
  f_time : nat;
  f_counter : Z;                      (* s_file_counter, an int *)
  f_files : fmap Z;                   (* the lengths of the files *)
  f_maps : list (region * Z);         (* what is mapped, from which file *)
  f_table : list (Z * (Z * Z));       (* m_size_map: pointer, file and length *)
  f_fds : Z                           (* descriptors this resource holds open *)
}.

Definition INT_MAX : Z := 2 ^ 31 - 1.

Section File.
  Context (os : OS) (page : Z).

  Definition tick (w : fworld) : fworld := mkF (S (f_time w)) (f_counter w) (f_files w) (f_maps w) (f_table w) (f_fds w).
  Definition with_files (w : fworld) (m : fmap Z) : fworld := mkF (f_time w) (f_counter w) m (f_maps w) (f_table w) (f_fds w).
  Definition with_maps (w : fworld) (m : list (region * Z)) : fworld := mkF (f_time w) (f_counter w) (f_files w) m (f_table w) (f_fds w).
  Definition with_table (w : fworld) (m : list (Z * (Z * Z))) : fworld := mkF (f_time w) (f_counter w) (f_files w) (f_maps w) m (f_fds w).
  Definition with_fds (w : fworld) (n : Z) : fworld := mkF (f_time w) (f_counter w) (f_files w) (f_maps w) (f_table w) n.

  (** remove(3): fails if there is no such file, or for any reason of the system's. *)
  Definition os_remove (c : Z) (w : fworld) : fworld * bool :=
    match f_files w c with
    | Some _ => if o_remove os (f_time w) then (tick (with_files w (fdel (f_files w) c)), true) else (tick w, false)
    | None => (tick w, false)
    end.

  (** mmap(2) at an address of the system's choice: whole pages, nothing mapped there yet, or failure; a length of 0 fails. *)
  Definition apart (r : region) (m : list (region * Z)) : bool :=
    forallb (fun x => (fst r + snd r <=? fst (fst x)) || (fst (fst x) + snd (fst x) <=? fst r)) m.
  Definition os_mmap (len c : Z) (w : fworld) : fworld * option Z :=
    match o_mmap os (f_time w) len with
    | Some p => if (0 <? len) && (0 <? p) && (p mod page =? 0) && (p + len <=? ASP) && apart (p, len) (f_maps w)
                then (tick (with_maps w (((p, len), c) :: f_maps w)), Some p) else (tick w, None)
    | None => (tick w, None)
    end.

  (** munmap(2): unmaps whatever is mapped in the range. *)
  Definition cut (a l : Z) (x : region * Z) : list (region * Z) :=
    let '((b, m), c) := x in
    (if b <? Z.min a (b + m) then [((b, Z.min a (b + m) - b), c)] else []) ++
    (if Z.max (a + l) b <? b + m then [((Z.max (a + l) b, b + m - Z.max (a + l) b), c)] else []).
  Definition os_munmap (a l : Z) (w : fworld) : fworld * bool :=
    if o_munmap os (f_time w) then (tick (with_maps w (flat_map (cut a l) (f_maps w))), true) else (tick w, false).

  (** MemoryMap::insert keeps an entry that is there (C40); find and erase. *)
  Fixpoint table_find (p : Z) (l : list (Z * (Z * Z))) : option (Z * Z) :=
    match l with [] => None | (k, v) :: l => if k =? p then Some v else table_find p l end.
  Definition table_insert (p : Z) (v : Z * Z) (l : list (Z * (Z * Z))) : list (Z * (Z * Z)) :=
    match table_find p l with Some _ => l | None => (p, v) :: l end.
  Definition table_erase (p : Z) (l : list (Z * (Z * Z))) : list (Z * (Z * Z)) := filter (fun x => negb (fst x =? p)) l.

  (** 72 *)
  Definition rounded (bytes : Z) : Z := w64 (w64 (bytes + (page - 1)) / page * page).

  (** 51-105.  open(2) keeps a file of that name that is there.  The two failures leave the descriptor open. *)
  Definition file_allocate (bytes : Z) (w : fworld) : outcome fworld Z :=
    if INT_MAX <=? f_counter w then UB                                                       (* 63 *)
    else
      let c := f_counter w in
      let w := mkF (f_time w) (c + 1) (f_files w) (f_maps w) (f_table w) (f_fds w) in
      if negb (o_open os (f_time w)) then Throw (tick w) RuntimeError                        (* 65-68 *)
      else
        let w := with_files (with_fds (tick w) (f_fds w + 1))
                   (match f_files w c with Some _ => f_files w | None => fset (f_files w) c 0 end) in
        let len := rounded bytes in
        if negb (o_trunc os (f_time w)) || (2 ^ 63 <=? len)                                  (* 75; the length is signed *)
        then Throw (fst (os_remove c (tick w))) RuntimeError
        else
          let w := tick (with_files w (fset (f_files w) c len)) in
          let '(w, r) := os_mmap len c w in                                                  (* 85 *)
          match r with
          | None => Throw (fst (os_remove c w)) RuntimeError
          | Some p => Ok (with_fds (with_table w (table_insert p (c, len) (f_table w))) (f_fds w - 1)) p   (* 95-104 *)
          end.

  (** 107-132.  A pointer that is not in the table is the end iterator. *)
  Definition file_deallocate (p : Z) (w : fworld) : outcome fworld unit :=
    match table_find p (f_table w) with
    | None => UB
    | Some (c, len) =>
        let '(w, ok) := os_munmap p len w in
        if negb ok then Throw w RuntimeError
        else
          let '(w, ok) := os_remove c w in
          if negb ok then Throw w RuntimeError
          else Ok (with_table w (table_erase p (f_table w))) tt
    end.

  (** 38-49.  An exception leaving the destructor ends the program. *)
  Fixpoint file_free_all (l : list Z) (w : fworld) : outcome fworld unit :=
    match l with
    | [] => Ok w tt
    | p :: l => let* (w, _) := file_deallocate p w in file_free_all l w
    end.
  Definition file_destroy (w : fworld) : outcome fworld unit := noexcept (file_free_all (map fst (f_table w)) w).
End File.

(** At first: nothing mapped by this resource; files of earlier processes may be there. *)
Definition f_init (files : fmap Z) : fworld := mkF 0 0 files [] [] 0.
