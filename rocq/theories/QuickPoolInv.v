(** Representation invariant of the QuickPool model: the chunks form, block by
    block, doubly linked sequences of adjacent fragments that tile the blocks
    obtained from the parent. *)
From Verif Require Import Base BaseFacts AlignedModel AlignedFacts QuickPoolModel.

(** State of a fragment.  [Taken] and [Freed] only occur inside an operation:
    [Taken] has been picked by [allocate] but not yet handed out, [Freed] has
    been returned by the user but is not yet in the size map. *)
Inductive status : Type :=
| SFree
| STaken
| SFreed
| SUsed (req : Z).

Record cell : Type := mkCell {
  k_id : Z;
  k_data : Z;
  k_size : Z;
  k_st : status;
  k_it : Z
}.

Definition st_free (st : status) : bool :=
  match st with SUsed _ => false | _ => true end.
Definition is_free (x : cell) : bool :=
  match k_st x with SFree => true | _ => false end.
Definition is_used (x : cell) : bool :=
  match k_st x with SUsed _ => true | _ => false end.
(** counted in the releasable totals *)
Definition is_rel (x : cell) : bool :=
  match k_st x with SFree => true | STaken => true | _ => false end.

(** not in the middle of an operation *)
Definition stable (x : cell) : Prop := k_st x = SFree \/ exists r, k_st x = SUsed r.

Definition cell_req (x : cell) : Z :=
  match k_st x with SUsed r => r | _ => 0 end.

Definition cell_region (x : cell) : region := (k_data x, k_size x).
Definition cell_alloc (x : cell) : region := (k_data x, cell_req x).
Definition cell_entry (x : cell) : sm_entry := (k_size x, k_id x, k_it x).
Definition cell_pm (x : cell) : Z * Z := (k_data x, k_id x).

Definition cell_chunk (x : cell) (cs pv nx : Z) : chunk :=
  mkChunk (k_data x) (k_size x) cs (st_free (k_st x)) pv nx (k_it x).

(** A doubly linked segment of chunks. *)
Definition hd_id (l : list cell) (d : Z) : Z :=
  match l with [] => d | x :: _ => k_id x end.
Fixpoint last_id (l : list cell) (d : Z) : Z :=
  match l with [] => d | x :: t => last_id t (k_id x) end.

Fixpoint seg (m : fmap chunk) (cs pv : Z) (l : list cell) (nx : Z) : Prop :=
  match l with
  | [] => True
  | x :: t => m (k_id x) = Some (cell_chunk x cs pv (hd_id t nx)) /\
              seg m cs (k_id x) t nx
  end.

(** Fragments follow each other without gap starting at [a]. *)
Fixpoint contig (a : Z) (l : list cell) : Prop :=
  match l with
  | [] => True
  | x :: t => k_data x = a /\ 0 < k_size x /\ contig (a + k_size x) t
  end.

(** No two neighbouring fragments are both free. *)
Definition hd_rel (l : list cell) : bool :=
  match l with [] => false | x :: _ => is_rel x end.
Fixpoint last_rel (l : list cell) (d : bool) : bool :=
  match l with [] => d | x :: t => last_rel t (is_rel x) end.
Fixpoint merged (l : list cell) : Prop :=
  match l with
  | [] => True
  | x :: t => is_rel x && hd_rel t = false /\ merged t
  end.

Definition csum (l : list cell) : Z := sumZ (map k_size l).

Record blk : Type := mkBlk {
  b_cells : list cell;
  b_data : Z;      (* aligned base *)
  b_ptr : Z;       (* pointer obtained from the parent *)
  b_total : Z      (* size requested from the parent *)
}.

Definition b_size (b : blk) : Z := csum (b_cells b).
Definition b_held (b : blk) : region := (b_ptr b, b_total b).
Definition cells (B : list blk) : list cell := flat_map b_cells B.

Definition b_rel (b : blk) : bool :=
  match b_cells b with [x] => is_rel x | _ => false end.

Definition cell_ok (A : Z) (x : cell) : Prop :=
  0 < k_size x /\ k_data x mod A = 0 /\
  match k_st x with
  | SUsed r => 0 < r /\ r <= k_size x /\ k_size x = aligned_round_up A r
  | _ => True
  end.

Record blk_ok (A : Z) (b : blk) : Prop := {
  bo_ne : b_cells b <> [];
  bo_contig : contig (b_data b) (b_cells b);
  bo_cells : forall x, In x (b_cells b) -> cell_ok A x;
  bo_merged : merged (b_cells b);
  bo_lo : b_ptr b <= b_data b;
  bo_hi : b_data b + b_size b <= b_ptr b + b_total b;
  bo_total : b_total b = b_size b + A;
  bo_base : b_data b = align_up A (b_ptr b)
}.

Fixpoint sorted_sm (l : list sm_entry) : Prop :=
  match l with
  | [] => True
  | e :: t => (forall e', In e' t -> e_size e <= e_size e') /\ sorted_sm t
  end.

Definition rel_blocks (B : list blk) : list blk := filter b_rel B.

Record QI (A : Z) (s : qpool) (B : list blk) (extra : list (Z * Z)) : Prop := {
  qi_seg : forall b, In b B -> seg (q_chunks s) (b_size b) 0 (b_cells b) 0;
  qi_nodup : NoDup (map k_id (cells B));
  qi_ids : forall x, In x (cells B) -> 0 < k_id x < q_fresh s;
  qi_blk : forall b, In b B -> blk_ok A b;
  qi_sm : Permutation (q_sizemap s) (map cell_entry (filter is_free (cells B)));
  qi_sorted : sorted_sm (q_sizemap s);
  qi_toks : NoDup (map e_tok (q_sizemap s));
  qi_tokb : forall e, In e (q_sizemap s) -> e_tok e < q_fresh s;
  qi_pm : Permutation (q_ptrmap s) (extra ++ map cell_pm (filter is_used (cells B)));
  qi_base : forall b, In b B -> q_base s (b_data b) = Some (b_held b);
  qi_actual : q_actual s = sumZ (map b_size B);
  qi_total : q_total_blocks s = Z.of_nat (length B);
  qi_relb : q_rel_blocks s = Z.of_nat (length (rel_blocks B));
  qi_rel : q_rel_bytes s = sumZ (map b_size (rel_blocks B));
  qi_aligned : q_aligned s = sumZ (map k_size (filter is_used (cells B)));
  qi_good : good (map b_held B);
  qi_freshb : 0 < q_fresh s;
  qi_hwm : q_aligned s <= q_aligned_hwm s < ASP;
  qi_ahwm : q_actual s <= q_actual_hwm s < ASP
}.
