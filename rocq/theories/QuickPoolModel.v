(** Model of [QuickPool] (src/umpire/strategy/QuickPool.cpp, .hpp).

    Chunks are heap records linked by [prev]/[next]; a chunk pointer is a
    positive identifier into the chunk store, 0 is [nullptr].
    Simplifications:
    - storage obtained from [m_chunk_pool] (a FixedMallocPool, modelled on its
      own in FixedMallocPoolModel.v) is represented by a fresh identifier that is
      never reused; a chunk given back to [m_chunk_pool] leaves the store, so
      any later access to it is [UB];
    - a [SizeMap::iterator] is a token identifying one node of the multimap; erasing
      through a token that is not in the map is [UB];
    - the coalescing heuristic is an arbitrary function of the values the
      pool's public getters return (PoolCoalesceHeuristic.hpp:14,
      [std::function<std::size_t(const T&)>]);
    - logging, events and backtraces are left out; the sanitizer calls are in SanModel.v. *)
From Verif Require Import Base AlignedModel.

(** QuickPool.hpp:141-153 [struct Chunk]. *)
Record chunk : Type := mkChunk {
  c_data : Z;
  c_size : Z;
  c_csize : Z;   (* chunk_size: size of the whole block *)
  c_free : bool;
  c_prev : Z;
  c_next : Z;
  c_it : Z       (* size_map_it *)
}.

(** One node of [m_size_map] (QuickPool.hpp:138-139): key, chunk, node token. *)
Definition sm_entry : Type := (Z * Z * Z)%type.
Definition e_size (e : sm_entry) : Z := fst (fst e).
Definition e_chunk (e : sm_entry) : Z := snd (fst e).
Definition e_tok (e : sm_entry) : Z := snd e.

(** The values visible through the public getters. *)
Record qview : Type := mkView {
  v_actual : Z;
  v_releasable : Z;
  v_rel_blocks : Z;
  v_total_blocks : Z;
  v_aligned : Z;
  v_aligned_hwm : Z;
  v_actual_hwm : Z;
  v_blocks_in_pool : Z;
  v_largest : Z
}.

(** Constructor arguments (QuickPool.hpp:58-62). *)
Record qcfg : Type := mkCfg {
  cf_first : Z;
  cf_next : Z;
  cf_align : Z;
  cf_heur : qview -> Z
}.

(** QuickPool.hpp:155-172. *)
Record qpool : Type := mkQ {
  q_chunks : fmap chunk;
  q_ptrmap : list (Z * Z);       (* m_pointer_map *)
  q_sizemap : list sm_entry;     (* m_size_map, in key order *)
  q_base : base_map;             (* AlignedAllocation::base_pointer_map *)
  q_fresh : Z;                   (* next unused identifier / token *)
  q_total_blocks : Z;
  q_rel_blocks : Z;
  q_aligned : Z;
  q_aligned_hwm : Z;
  q_actual : Z;
  q_rel_bytes : Z;
  q_actual_hwm : Z
}.

(** QuickPool.cpp:18-34. *)
Definition q_init : qpool :=
  mkQ fempty [] [] fempty 1 0 0 0 0 0 0 0.

Definition set_chunks (s : qpool) (x : fmap chunk) : qpool :=
  mkQ x (q_ptrmap s) (q_sizemap s) (q_base s) (q_fresh s) (q_total_blocks s)
      (q_rel_blocks s) (q_aligned s) (q_aligned_hwm s) (q_actual s)
      (q_rel_bytes s) (q_actual_hwm s).
Definition set_ptrmap (s : qpool) (x : list (Z * Z)) : qpool :=
  mkQ (q_chunks s) x (q_sizemap s) (q_base s) (q_fresh s) (q_total_blocks s)
      (q_rel_blocks s) (q_aligned s) (q_aligned_hwm s) (q_actual s)
      (q_rel_bytes s) (q_actual_hwm s).
Definition set_sizemap (s : qpool) (x : list sm_entry) : qpool :=
  mkQ (q_chunks s) (q_ptrmap s) x (q_base s) (q_fresh s) (q_total_blocks s)
      (q_rel_blocks s) (q_aligned s) (q_aligned_hwm s) (q_actual s)
      (q_rel_bytes s) (q_actual_hwm s).
Definition set_base (s : qpool) (x : base_map) : qpool :=
  mkQ (q_chunks s) (q_ptrmap s) (q_sizemap s) x (q_fresh s) (q_total_blocks s)
      (q_rel_blocks s) (q_aligned s) (q_aligned_hwm s) (q_actual s)
      (q_rel_bytes s) (q_actual_hwm s).
Definition set_fresh (s : qpool) (x : Z) : qpool :=
  mkQ (q_chunks s) (q_ptrmap s) (q_sizemap s) (q_base s) x (q_total_blocks s)
      (q_rel_blocks s) (q_aligned s) (q_aligned_hwm s) (q_actual s)
      (q_rel_bytes s) (q_actual_hwm s).
Definition set_blocks (s : qpool) (tot rel : Z) : qpool :=
  mkQ (q_chunks s) (q_ptrmap s) (q_sizemap s) (q_base s) (q_fresh s) tot
      rel (q_aligned s) (q_aligned_hwm s) (q_actual s)
      (q_rel_bytes s) (q_actual_hwm s).
Definition set_aligned (s : qpool) (x hwm : Z) : qpool :=
  mkQ (q_chunks s) (q_ptrmap s) (q_sizemap s) (q_base s) (q_fresh s)
      (q_total_blocks s) (q_rel_blocks s) x hwm (q_actual s)
      (q_rel_bytes s) (q_actual_hwm s).
Definition set_bytes (s : qpool) (actual rel hwm : Z) : qpool :=
  mkQ (q_chunks s) (q_ptrmap s) (q_sizemap s) (q_base s) (q_fresh s)
      (q_total_blocks s) (q_rel_blocks s) (q_aligned s) (q_aligned_hwm s)
      actual rel hwm.

(** [std::multimap]: lower_bound, insert (after equal keys), erase by node. *)
Fixpoint sm_lower_bound (key : Z) (l : list sm_entry) : option sm_entry :=
  match l with
  | [] => None
  | e :: t => if key <=? e_size e then Some e else sm_lower_bound key t
  end.

Fixpoint sm_insert (e : sm_entry) (l : list sm_entry) : list sm_entry :=
  match l with
  | [] => [e]
  | x :: t => if e_size e <? e_size x then e :: l else x :: sm_insert e t
  end.

Fixpoint sm_erase (tok : Z) (l : list sm_entry) : option (list sm_entry) :=
  match l with
  | [] => None
  | x :: t => if e_tok x =? tok then Some t
              else option_map (cons x) (sm_erase tok t)
  end.

(** [std::unordered_map<void*, Chunk*>]: find, insert (no overwrite), erase. *)
Fixpoint pm_find (p : Z) (l : list (Z * Z)) : option Z :=
  match l with
  | [] => None
  | (k, c) :: t => if k =? p then Some c else pm_find p t
  end.

Definition pm_insert (p c : Z) (l : list (Z * Z)) : list (Z * Z) :=
  match pm_find p l with Some _ => l | None => (p, c) :: l end.

Definition pm_erase (p : Z) (l : list (Z * Z)) : list (Z * Z) :=
  filter (fun kc => negb (fst kc =? p)) l.

(** Getters, QuickPool.cpp:253-314. *)
Definition largest_key (l : list sm_entry) : Z :=
  match rev l with [] => 0 | e :: _ => e_size e end.

Definition q_view (s : qpool) : qview :=
  mkView (q_actual s) (q_rel_bytes s) (q_rel_blocks s) (q_total_blocks s)
         (q_aligned s) (q_aligned_hwm s) (q_actual_hwm s)
         (w64 (Z.of_nat (length (q_ptrmap s)) + Z.of_nat (length (q_sizemap s))))
         (largest_key (q_sizemap s)).

(** The heuristics shipped with QuickPool (QuickPool.cpp:348-403).  The
    percentage variants strictly between 0 and 100 compute their threshold in
    [float]; that threshold is a parameter here (what it is: PercentModel.v). *)
Definition h_blocks_releasable (n : Z) (v : qview) : Z :=
  if n <=? v_rel_blocks v then v_actual v else 0.
Definition h_blocks_releasable_hwm (n : Z) (v : qview) : Z :=
  if n <=? v_rel_blocks v then v_aligned_hwm v else 0.
Definition h_percent_0 (_ : qview) : Z := 0.
Definition h_percent_100 (v : qview) : Z :=
  if v_actual v =? v_releasable v then v_actual v else 0.
Definition h_percent_100_hwm (v : qview) : Z :=
  if v_actual v =? v_releasable v then v_aligned_hwm v else 0.
Definition h_percent (threshold : Z -> Z) (v : qview) : Z :=
  if threshold (v_actual v) <=? v_releasable v then v_actual v else 0.
Definition h_percent_hwm (threshold : Z -> Z) (v : qview) : Z :=
  if threshold (v_actual v) <=? v_releasable v then v_aligned_hwm v else 0.

Definition zmax (a b : Z) : Z := if b <? a then a else b.

Section WithParent.
  Context {W : Type} (P : Parent W) (cfg : qcfg).

  Definition qw : Type := (qpool * W)%type.

  (** QuickPool.cpp:69 / :76, with the mixin's state inside the pool. *)
  Definition q_grow (size : Z) (sw : qw) : outcome qw Z :=
    let '(s, w) := sw in
    omap (fun bw => (set_base s (fst bw), snd bw)) (fun p => p)
         (aligned_allocate P (cf_align cfg) size (q_base s) w).

  (** QuickPool.cpp:212-241: the loop of [release()].  [todo] is the part of the
      size map still to be visited. *)
  Fixpoint q_release_loop (todo : list sm_entry) (sw : qw) : outcome qw unit :=
    match todo with
    | [] => Ok sw tt
    | e :: t =>
        let '(s, w) := sw in
        match q_chunks s (e_chunk e) with
        | None => UB
        | Some c =>
            if (c_size c =? c_csize c) && c_free c then
              let s1 := set_bytes s (w64 (q_actual s - c_csize c))
                                    (w64 (q_rel_bytes s - c_csize c))
                                    (q_actual_hwm s) in
              let s2 := set_blocks s1 (w64 (q_total_blocks s1 - 1))
                                      (w64 (q_rel_blocks s1 - 1)) in
              match aligned_deallocate P (c_data c) (q_base s2) w with
              | Ok bw _ =>
                  let s3 := set_base s2 (fst bw) in
                  let s4 := set_chunks s3 (fdel (q_chunks s3) (e_chunk e)) in
                  match sm_erase (e_tok e) (q_sizemap s4) with
                  | None => UB
                  | Some sm => q_release_loop t (set_sizemap s4 sm, snd bw)
                  end
              | Throw bw ex => Throw (set_base s2 (fst bw), snd bw) ex
              | UB => UB
              | Abort => Abort
              | NoFuel => NoFuel
              end
            else q_release_loop t sw
        end
    end.

  (** QuickPool.cpp:204-251. *)
  Definition q_release (sw : qw) : outcome qw unit :=
    q_release_loop (q_sizemap (fst sw)) sw.

  (** QuickPool.cpp:51-91: obtain a new block from the parent; on failure
      release the free blocks and retry once. *)
  Definition q_new_block (rounded : Z) (sw : qw) : outcome qw Z :=
    let bytes_to_use :=
      if q_actual (fst sw) =? 0 then cf_first cfg else cf_next cfg in
    let size := zmax rounded bytes_to_use in
    let o :=
      match q_grow size sw with
      | Throw sw1 _ => let* (sw2, _u) := q_release sw1 in q_grow size sw2
      | o' => o'
      end in
    let* (sw3, ret) := o in
    let '(s, w) := sw3 in
    let actual := w64 (q_actual s + size) in
    let s1 := set_bytes s actual (w64 (q_rel_bytes s + size))
                        (zmax actual (q_actual_hwm s)) in
    let s2 := set_blocks s1 (w64 (q_total_blocks s1 + 1))
                            (w64 (q_rel_blocks s1 + 1)) in
    let c := q_fresh s2 in
    let s3 := set_chunks s2
                (fset (q_chunks s2) c (mkChunk ret size size true 0 0 0)) in
    Ok (set_fresh s3 (c + 1), w) c.

  (** QuickPool.cpp:100-136: hand out the first [rounded] bytes of chunk [c]. *)
  Definition q_use_chunk (rounded c : Z) (s : qpool) (w : W) : outcome qw Z :=
    match q_chunks s c with
    | None => UB
    | Some ch =>
        let s1 :=
          if (c_size ch =? c_csize ch) && c_free ch then
            set_blocks
              (set_bytes s (q_actual s) (w64 (q_rel_bytes s - c_csize ch))
                         (q_actual_hwm s))
              (q_total_blocks s) (w64 (q_rel_blocks s - 1))
          else s in
        let ret := c_data ch in
        let s2 := set_ptrmap s1 (pm_insert ret c (q_ptrmap s1)) in
        let ch1 := mkChunk (c_data ch) (c_size ch) (c_csize ch) false
                           (c_prev ch) (c_next ch) (c_it ch) in
        let s3 := set_chunks s2 (fset (q_chunks s2) c ch1) in
        let finish (s' : qpool) : outcome qw Z :=
          let al := w64 (q_aligned s' + rounded) in
          Ok (set_aligned s' al (zmax al (q_aligned_hwm s')), w) ret in
        if rounded =? c_size ch1 then finish s3
        else
          let remaining := w64 (c_size ch1 - rounded) in
          let sp := q_fresh s3 in
          let tok := sp + 1 in
          let old_next := c_next ch1 in
          let ch2 := mkChunk (c_data ch1) rounded (c_csize ch1) false
                             (c_prev ch1) sp (c_it ch1) in
          let split := mkChunk (w64 (ret + rounded)) remaining (c_csize ch1)
                               true c old_next tok in
          let m1 := fset (fset (q_chunks s3) c ch2) sp split in
          match (if old_next =? 0 then Some m1
                 else match m1 old_next with
                      | None => None
                      | Some n =>
                          Some (fset m1 old_next
                            (mkChunk (c_data n) (c_size n) (c_csize n)
                                     (c_free n) sp (c_next n) (c_it n)))
                      end) with
          | None => UB
          | Some m2 =>
              finish
                (set_fresh
                   (set_sizemap (set_chunks s3 m2)
                      (sm_insert (remaining, sp, tok) (q_sizemap s3)))
                   (tok + 1))
          end
    end.

  (** QuickPool.cpp:43-137. *)
  Definition q_allocate (bytes : Z) (sw : qw) : outcome qw Z :=
    let rounded := aligned_round_up (cf_align cfg) bytes in
    match sm_lower_bound rounded (q_sizemap (fst sw)) with
    | None =>
        let* (sw1, c) := q_new_block rounded sw in
        q_use_chunk rounded c (fst sw1) (snd sw1)
    | Some e =>
        match sm_erase (e_tok e) (q_sizemap (fst sw)) with
        | None => UB
        | Some sm =>
            q_use_chunk rounded (e_chunk e) (set_sizemap (fst sw) sm) (snd sw)
        end
    end.

  (** QuickPool.cpp:151-168: merge chunk [c] into a free predecessor; returns
      the chunk that now represents the memory. *)
  Definition q_merge_prev (c : Z) (s : qpool) : option (qpool * Z) :=
    match q_chunks s c with
    | None => None
    | Some ch =>
        if c_prev ch =? 0 then Some (s, c)
        else
          match q_chunks s (c_prev ch) with
          | None => None
          | Some pv =>
              if c_free pv then
                match sm_erase (c_it pv) (q_sizemap s) with
                | None => None
                | Some sm =>
                    let pv' := mkChunk (c_data pv) (w64 (c_size pv + c_size ch))
                                       (c_csize pv) (c_free pv) (c_prev pv)
                                       (c_next ch) (c_it pv) in
                    let m1 := fset (q_chunks s) (c_prev ch) pv' in
                    match (if c_next ch =? 0 then Some m1
                           else match m1 (c_next ch) with
                                | None => None
                                | Some n =>
                                    Some (fset m1 (c_next ch)
                                      (mkChunk (c_data n) (c_size n) (c_csize n)
                                        (c_free n) (c_prev ch) (c_next n) (c_it n)))
                                end) with
                    | None => None
                    | Some m2 =>
                        Some (set_sizemap (set_chunks s (fdel m2 c)) sm, c_prev ch)
                    end
                end
              else Some (s, c)
          end
    end.

  (** QuickPool.cpp:170-184: merge a free successor into chunk [c]. *)
  Definition q_merge_next (c : Z) (s : qpool) : option qpool :=
    match q_chunks s c with
    | None => None
    | Some ch =>
        if c_next ch =? 0 then Some s
        else
          match q_chunks s (c_next ch) with
          | None => None
          | Some nx =>
              if c_free nx then
                let ch' := mkChunk (c_data ch) (w64 (c_size ch + c_size nx))
                                   (c_csize ch) (c_free ch) (c_prev ch)
                                   (c_next nx) (c_it ch) in
                let m1 := fset (q_chunks s) c ch' in
                match (if c_next nx =? 0 then Some m1
                       else match m1 (c_next nx) with
                            | None => None
                            | Some n =>
                                Some (fset m1 (c_next nx)
                                  (mkChunk (c_data n) (c_size n) (c_csize n)
                                    (c_free n) c (c_next n) (c_it n)))
                            end) with
                | None => None
                | Some m2 =>
                    match sm_erase (c_it nx) (q_sizemap s) with
                    | None => None
                    | Some sm =>
                        Some (set_sizemap (set_chunks s (fdel m2 (c_next ch))) sm)
                    end
                end
              else Some s
          end
    end.

  (** QuickPool.cpp:188-195. *)
  Definition q_finish_free (c ptr : Z) (s : qpool) : option qpool :=
    match q_chunks s c with
    | None => None
    | Some ch =>
        let s1 :=
          if c_size ch =? c_csize ch then
            set_blocks
              (set_bytes s (q_actual s) (w64 (q_rel_bytes s + c_csize ch))
                         (q_actual_hwm s))
              (q_total_blocks s) (w64 (q_rel_blocks s + 1))
          else s in
        let tok := q_fresh s1 in
        let ch' := mkChunk (c_data ch) (c_size ch) (c_csize ch) (c_free ch)
                           (c_prev ch) (c_next ch) tok in
        let s2 := set_sizemap s1
                    (sm_insert (c_size ch, c, tok) (q_sizemap s1)) in
        let s3 := set_chunks s2 (fset (q_chunks s2) c ch') in
        let s4 := set_fresh s3 (tok + 1) in
        Some (set_ptrmap s4 (pm_erase ptr (q_ptrmap s4)))
    end.

  (** QuickPool.cpp:139-195: [deallocate] without the final heuristic.
      [find] on an unknown pointer yields [end()], whose dereference is UB. *)
  Definition q_free_core (ptr : Z) (s : qpool) : option qpool :=
    match pm_find ptr (q_ptrmap s) with
    | None => None
    | Some c =>
        match q_chunks s c with
        | None => None
        | Some ch =>
            let s1 := set_chunks s (fset (q_chunks s) c
                        (mkChunk (c_data ch) (c_size ch) (c_csize ch) true
                                 (c_prev ch) (c_next ch) (c_it ch))) in
            let s2 := set_aligned s1 (w64 (q_aligned s1 - c_size ch))
                                  (q_aligned_hwm s1) in
            match q_merge_prev c s2 with
            | None => None
            | Some (s3, c') =>
                match q_merge_next c' s3 with
                | None => None
                | Some s4 => q_finish_free c' ptr s4
                end
            end
        end
    end.

  (** QuickPool.cpp:139-202 and 331-346.  [do_coalesce] is [noexcept] and calls
      [deallocate], which may consult the heuristic again: the recursion is
      bounded by [fuel]. *)
  Fixpoint q_deallocate (fuel : nat) (ptr : Z) (sw : qw) : outcome qw unit :=
    match q_free_core ptr (fst sw) with
    | None => UB
    | Some s =>
        let suggested := cf_heur cfg (q_view s) in
        if suggested =? 0 then Ok (s, snd sw) tt
        else
          match fuel with
          | O => NoFuel
          | S f =>
              noexcept
                (if 1 <? Z.of_nat (length (q_sizemap s)) then
                   let* (sw1, _u) := q_release (s, snd sw) in
                   let post_size := q_actual (fst sw1) in
                   if post_size <? suggested then
                     let* (sw2, p) := q_allocate (suggested - post_size) sw1 in
                     q_deallocate f p sw2
                   else Ok sw1 tt
                 else Ok (s, snd sw) tt)
          end
    end.

  (** QuickPool.cpp:331-346. *)
  Definition q_do_coalesce (fuel : nat) (suggested : Z) (sw : qw)
    : outcome qw unit :=
    noexcept
      (if 1 <? Z.of_nat (length (q_sizemap (fst sw))) then
         let* (sw1, _u) := q_release sw in
         let post_size := q_actual (fst sw1) in
         if post_size <? suggested then
           let* (sw2, p) := q_allocate (suggested - post_size) sw1 in
           q_deallocate fuel p sw2
         else Ok sw1 tt
       else Ok sw tt).

  (** QuickPool.cpp:316-329. *)
  Definition q_coalesce (fuel : nat) (sw : qw) : outcome qw unit :=
    let suggested := cf_heur cfg (q_view (fst sw)) in
    if suggested =? 0 then Ok sw tt
    else q_do_coalesce fuel suggested sw.
End WithParent.
