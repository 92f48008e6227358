(** Model of [DynamicSizePool] and [DynamicPoolList] (src/umpire/strategy/DynamicSizePool.hpp,
    DynamicPoolList.cpp).

    Simplifications:
    - the singly linked lists of used and free blocks are Coq lists in list order, a [Block*]
      into the free list is a position; the block records' own storage ([blockPool], a
      FixedSizePool over malloc) never fails;
    - the coalescing heuristic is an arbitrary function of what the pool's public getters
      return, including [getCurrentSize] of the strategy (DynamicPoolList.cpp:139-195);
    - logging, backtraces and the destructor are left out; the sanitizer calls are in SanModel.v. *)
From Verif Require Import Base AlignedModel StratModel QuickPoolModel.

(** DynamicSizePool.hpp:27-32 [struct Block] without [next]. *)
Record dblock : Type := mkD {
  d_data : Z;
  d_size : Z;
  d_bsize : Z     (* blockSize: size of the whole parent block for its first fragment, else 0 *)
}.

(** DynamicPoolList.hpp:63-67. *)
Record dcfg : Type := mkDcfg {
  dc_first : Z;
  dc_next : Z;
  dc_align : Z;
  dc_heur : Z -> qview -> Z
}.

(** DynamicSizePool.hpp:34-55. *)
Record dpool : Type := mkDP {
  d_used : list dblock;
  d_free : list dblock;
  d_base : base_map;
  d_aligned : Z;
  d_aligned_hwm : Z;
  d_actual : Z;
  d_actual_hwm : Z;
  d_rel_blocks : Z;
  d_total_blocks : Z
}.

Definition d_init : dpool := mkDP [] [] fempty 0 0 0 0 0 0.

Definition dset_lists (s : dpool) (u f : list dblock) : dpool :=
  mkDP u f (d_base s) (d_aligned s) (d_aligned_hwm s) (d_actual s) (d_actual_hwm s) (d_rel_blocks s) (d_total_blocks s).
Definition dset_base (s : dpool) (b : base_map) : dpool :=
  mkDP (d_used s) (d_free s) b (d_aligned s) (d_aligned_hwm s) (d_actual s) (d_actual_hwm s) (d_rel_blocks s) (d_total_blocks s).
Definition dset_aligned (s : dpool) (x hwm : Z) : dpool :=
  mkDP (d_used s) (d_free s) (d_base s) x hwm (d_actual s) (d_actual_hwm s) (d_rel_blocks s) (d_total_blocks s).
Definition dset_actual (s : dpool) (x hwm rel tot : Z) : dpool :=
  mkDP (d_used s) (d_free s) (d_base s) (d_aligned s) (d_aligned_hwm s) x hwm rel tot.
Definition dset_rel (s : dpool) (rel : Z) : dpool :=
  mkDP (d_used s) (d_free s) (d_base s) (d_aligned s) (d_aligned_hwm s) (d_actual s) (d_actual_hwm s) rel (d_total_blocks s).

(** A block whose memory is all of a parent block (DynamicSizePool.hpp:145, 209, 227 and others). *)
Definition d_whole (b : dblock) : bool := d_size b =? d_bsize b.

(** Getters, DynamicSizePool.hpp:360-440. *)
Definition d_releasable_size (l : list dblock) : Z :=
  fold_left (fun acc b => if d_whole b then w64 (acc + d_bsize b) else acc) l 0.
Definition d_free_blocks (l : list dblock) : Z :=
  fold_left (fun acc b => if d_whole b then w64 (acc + 1) else acc) l 0.
Definition d_largest (l : list dblock) : Z :=
  fold_left (fun acc b => if acc <? d_size b then d_size b else acc) l 0.

Definition d_view (s : dpool) : qview :=
  mkView (d_actual s) (d_releasable_size (d_free s)) (d_rel_blocks s) (d_total_blocks s)
         (d_aligned s) (d_aligned_hwm s) (d_actual_hwm s)
         (w64 (Z.of_nat (length (d_used s)) + Z.of_nat (length (d_free s))))
         (d_largest (d_free s)).

(** DynamicSizePool.hpp:61-73 [findUsableBlock]: position of the first smallest block that is large
    enough; [i] is the position of the head of [l], [best] position and size of the best so far. *)
Fixpoint d_find (size : Z) (i : nat) (best : option (nat * Z)) (l : list dblock) : option nat :=
  match l with
  | [] => option_map fst best
  | b :: t =>
      if (size <=? d_size b) && match best with None => true | Some (_, m) => d_size b <? m end
      then if d_size b =? size then Some i else d_find size (S i) (Some (i, d_size b)) t
      else d_find size (S i) best t
  end.

(** DynamicSizePool.hpp:122-138 and 180-185: the free list up to the first block not below [data],
    and the rest. *)
Fixpoint d_before (data : Z) (l : list dblock) : list dblock * list dblock :=
  match l with
  | [] => ([], [])
  | b :: t => if d_data b <? data then let '(p, q) := d_before data t in (b :: p, q) else ([], l)
  end.

(** DynamicSizePool.hpp:339-344: the used block at [ptr] and the others. *)
Fixpoint d_lookup (ptr : Z) (l : list dblock) : option (dblock * list dblock) :=
  match l with
  | [] => None
  | b :: t => if d_data b =? ptr then Some (b, t)
              else option_map (fun bt => (fst bt, b :: snd bt)) (d_lookup ptr t)
  end.

(** DynamicSizePool.hpp:171-210 [releaseBlock], after the block left the used list: the free list with
    [curr] put in and merged with its neighbours, and the resulting block. *)
Definition d_put (curr : dblock) (free : list dblock) : list dblock * dblock :=
  let '(pre, next) := d_before (d_data curr) free in
  let '(pre', curr') :=
    match rev pre with
    | prev :: r =>
        if (w64 (d_data prev + d_size prev) =? d_data curr) && (d_bsize curr =? 0)
        then (rev r, mkD (d_data prev) (w64 (d_size prev + d_size curr)) (d_bsize prev))
        else (pre, curr)
    | [] => (pre, curr)
    end in
  match next with
  | nx :: t =>
      if (w64 (d_data curr' + d_size curr') =? d_data nx) && (d_bsize nx =? 0)
      then let c := mkD (d_data curr') (w64 (d_size curr' + d_size nx)) (d_bsize curr') in (pre' ++ c :: t, c)
      else (pre' ++ curr' :: next, curr')
  | [] => (pre' ++ [curr'], curr')
  end.

Section WithParent.
  Context {W : Type} (P : Parent W) (cfg : dcfg).

  Definition dw : Type := (dpool * W)%type.

  (** DynamicSizePool.hpp:212-269 [freeReleasedBlocks]; [keep]: blocks already passed over, in reverse.
      When the parent throws the block is still linked, but already off the counters and the
      base map is as [aligned_deallocate] left it. *)
  Fixpoint d_release_loop (keep todo : list dblock) (sw : dw) : outcome dw unit :=
    let '(s, w) := sw in
    match todo with
    | [] => Ok (dset_lists s (d_used s) (rev keep), w) tt
    | c :: t =>
        if d_whole c then
          let s1 := dset_actual s (w64 (d_actual s - d_size c)) (d_actual_hwm s)
                                  (w64 (d_rel_blocks s - 1)) (w64 (d_total_blocks s - 1)) in
          match aligned_deallocate P (d_data c) (d_base s1) w with
          | Ok bw _ => d_release_loop keep t (dset_base s1 (fst bw), snd bw)
          | Throw bw e => Throw (dset_lists (dset_base s1 (fst bw)) (d_used s1) (rev keep ++ c :: t), snd bw) e
          | UB => UB
          | Abort => Abort
          | NoFuel => NoFuel
          end
        else d_release_loop (c :: keep) t sw
    end.

  Definition d_release (sw : dw) : outcome dw unit := d_release_loop [] (d_free (fst sw)) sw.

  (** DynamicSizePool.hpp:95-106. *)
  Definition d_grow (size : Z) (sw : dw) : outcome dw Z :=
    let '(s, w) := sw in
    omap (fun bw => (dset_base s (fst bw), snd bw)) (fun p => p)
         (aligned_allocate P (dc_align cfg) size (d_base s) w).

  (** DynamicSizePool.hpp:76-139 [allocateBlock]; returns the position of the new block in the free list. *)
  Definition d_new_block (rounded : Z) (sw : dw) : outcome dw nat :=
    let size := zmax rounded (match d_free (fst sw), d_used (fst sw) with
                              | [], [] => dc_first cfg
                              | _, _ => dc_next cfg
                              end) in
    let o :=
      match d_grow size sw with
      | Throw sw1 _ => let* (sw2, _u) := d_release sw1 in d_grow size sw2
      | o' => o'
      end in
    let* (sw3, data) := o in
    let '(s, w) := sw3 in
    let actual := w64 (d_actual s + size) in
    let s1 := dset_actual s actual (zmax actual (d_actual_hwm s))
                            (w64 (d_rel_blocks s + 1)) (w64 (d_total_blocks s + 1)) in
    let '(pre, next) := d_before data (d_free s1) in
    Ok (dset_lists s1 (d_used s1) (pre ++ mkD data size size :: next), w) (length pre).

  (** DynamicSizePool.hpp:141-169 [splitBlock] and :318-331: hand out the first [rounded] bytes of the
      free block at position [i]. *)
  Definition d_use (rounded : Z) (i : nat) (s : dpool) (w : W) : outcome dw Z :=
    match nth_error (d_free s) i with
    | None => UB
    | Some curr =>
        let s1 := if d_whole curr then dset_rel s (w64 (d_rel_blocks s - 1)) else s in
        let rest := if d_size curr =? rounded then []
                    else [mkD (w64 (d_data curr + rounded)) (w64 (d_size curr - rounded)) 0] in
        let curr' := if d_size curr =? rounded then curr else mkD (d_data curr) rounded (d_bsize curr) in
        let s2 := dset_lists s1 (curr' :: d_used s1) (firstn i (d_free s1) ++ rest ++ skipn (S i) (d_free s1)) in
        let al := w64 (d_aligned s2 + rounded) in
        Ok (dset_aligned s2 al (zmax al (d_aligned_hwm s2)), w) (d_data curr')
    end.

  (** DynamicSizePool.hpp:304-332. *)
  Definition d_allocate (bytes : Z) (sw : dw) : outcome dw Z :=
    let rounded := aligned_round_up (dc_align cfg) bytes in
    match d_find rounded 0 None (d_free (fst sw)) with
    | Some i => d_use rounded i (fst sw) (snd sw)
    | None =>
        let* (sw1, i) := d_new_block rounded sw in
        d_use rounded i (fst sw1) (snd sw1)
    end.

  (** DynamicSizePool.hpp:334-352: an unknown pointer is ignored. *)
  Definition d_free_core (ptr : Z) (s : dpool) : dpool :=
    match d_lookup ptr (d_used s) with
    | None => s
    | Some (curr, used) =>
        let s1 := dset_aligned s (w64 (d_aligned s - d_size curr)) (d_aligned_hwm s) in
        let '(free, c) := d_put curr (d_free s1) in
        let s2 := dset_lists s1 used free in
        if d_whole c then dset_rel s2 (w64 (d_rel_blocks s2 + 1)) else s2
    end.

  (** DynamicSizePool.hpp:271-278. *)
  Definition d_coalesce_free (size : Z) (sw : dw) : outcome dw unit :=
    let* (sw1, _u) := d_release sw in
    let* (sw2, p) := d_allocate size sw1 in
    Ok (d_free_core p (fst sw2), snd sw2) tt.

  (** DynamicSizePool.hpp:442-454. *)
  Definition d_dpa_coalesce (suggested : Z) (sw : dw) : outcome dw unit :=
    if 1 <? d_free_blocks (d_free (fst sw)) then
      let* (sw1, _u) := d_release sw in
      let size_post := d_actual (fst sw1) in
      if size_post <? suggested then d_coalesce_free (suggested - size_post) sw1 else Ok sw1 tt
    else Ok sw tt.

  (** DynamicPoolList.cpp:36-49; [cur] is the strategy's [getCurrentSize()]. *)
  Definition d_deallocate (cur ptr : Z) (sw : dw) : outcome dw unit :=
    let s := d_free_core ptr (fst sw) in
    let suggested := dc_heur cfg cur (d_view s) in
    if suggested =? 0 then Ok (s, snd sw) tt else d_dpa_coalesce suggested (s, snd sw).

  (** DynamicPoolList.cpp:125-137, [noexcept]. *)
  Definition d_coalesce (cur : Z) (sw : dw) : outcome dw unit :=
    let suggested := dc_heur cfg cur (d_view (fst sw)) in
    if suggested =? 0 then Ok sw tt else noexcept (d_dpa_coalesce suggested sw).
End WithParent.

(** The heuristics shipped with DynamicPoolList (DynamicPoolList.cpp:139-195); percentages strictly
    between 0 and 100 compute their threshold in [float], here a parameter (what it is: PercentModel.v). *)
Definition dh_blocks_releasable (n : Z) (_ : Z) (v : qview) : Z := if n <=? v_rel_blocks v then v_actual v else 0.
Definition dh_blocks_releasable_hwm (n : Z) (_ : Z) (v : qview) : Z := if n <=? v_rel_blocks v then v_aligned_hwm v else 0.
Definition dh_percent_0 (_ : Z) (_ : qview) : Z := 0.
Definition dh_percent_100 (cur : Z) (v : qview) : Z := if cur =? 0 then v_actual v else 0.
Definition dh_percent_100_hwm (cur : Z) (v : qview) : Z := if cur =? 0 then v_aligned_hwm v else 0.
Definition dh_percent (threshold : Z -> Z) (_ : Z) (v : qview) : Z :=
  if threshold (v_actual v) <=? v_releasable v then v_actual v else 0.
Definition dh_percent_hwm (threshold : Z -> Z) (_ : Z) (v : qview) : Z :=
  if threshold (v_actual v) <=? v_releasable v then v_aligned_hwm v else 0.

(** DynamicPoolList as a strategy (constructor DynamicPoolList.cpp:17-26). *)
Definition DynamicPoolList (cfg : dcfg) : Strat :=
  mkStrat dpool
    (fun W P w => Ok w d_init)
    (fun W P n sw => d_allocate P cfg n sw)
    (fun W P cur p _ sw => d_deallocate P cfg cur p sw)
    (fun W P sw => d_release P sw)
    (fun W P cur sw => d_coalesce P cfg cur sw).
