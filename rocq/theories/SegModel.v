(** Model of the shared memory segment of src/umpire/resource/HostSharedMemoryResourceImpl.hpp.

    The segment is shared by several processes, each of which maps it at its own address; block headers refer
    to each other by offsets from the start of the segment, and the model works with offsets (a process adds
    its own base address; offset 0 is the null pointer).  Every operation runs under the mutex in the segment
    header, so a history is a sequence of operations of any of the processes.  Left out: opening and mapping the
    segment (58-105, 134-161), failures of pthread_mutex_lock (which throw before anything is changed), logs. *)
From Coq Require Import String Ascii.
From Verif Require Import Base.

(** SharedMemoryBlock, 31-37.  [b_name] is the C string at [b_name_off]. *)
Record block : Type := mkBlock {
  b_next : Z; b_name_off : Z; b_mem_off : Z; b_size : Z; b_refs : Z; b_name : string
}.

(** SharedMemorySegmentHeader, 39-47.  [sg_blk]: the block headers by offset. *)
Record segment : Type := mkSeg {
  sg_size : Z; sg_actual : Z; sg_free : Z; sg_used : Z; sg_blk : fmap block
}.

(** sizeof on LP64 (pthread_mutex_t has 40 bytes). *)
Definition SEG_HDR : Z := 80.
Definition BLK_HDR : Z := 40.
(** 186-188: [(x + m_alignment) & ~(m_alignment - 1)] with m_alignment 16. *)
Definition up16 (x : Z) : Z := w64 (x + 16) / 16 * 16.
Definition header_size : Z := up16 BLK_HDR.

Definition set_blk (o : Z) (b : block) (st : segment) : segment :=
  mkSeg (sg_size st) (sg_actual st) (sg_free st) (sg_used st) (fset (sg_blk st) o b).
(** The header of a block that has been merged into another one is ordinary memory from then on. *)
Definition del_blk (o : Z) (st : segment) : segment :=
  mkSeg (sg_size st) (sg_actual st) (sg_free st) (sg_used st) (fdel (sg_blk st) o).
Definition set_free (o : Z) (st : segment) : segment := mkSeg (sg_size st) (sg_actual st) o (sg_used st) (sg_blk st).
Definition set_used (o : Z) (st : segment) : segment := mkSeg (sg_size st) (sg_actual st) (sg_free st) o (sg_blk st).
Definition set_actual (a : Z) (st : segment) : segment := mkSeg (sg_size st) a (sg_free st) (sg_used st) (sg_blk st).

Definition with_next (n : Z) (b : block) : block := mkBlock n (b_name_off b) (b_mem_off b) (b_size b) (b_refs b) (b_name b).
Definition with_size (n : Z) (b : block) : block := mkBlock (b_next b) (b_name_off b) (b_mem_off b) n (b_refs b) (b_name b).
Definition with_refs (n : Z) (b : block) : block := mkBlock (b_next b) (b_name_off b) (b_mem_off b) (b_size b) n (b_name b).

(** Reading and changing the header at an offset; there must be one. *)
Definition load (o : Z) (st : segment) : outcome segment block :=
  match sg_blk st o with Some b => Ok st b | None => UB end.
Definition change (o : Z) (f : block -> block) (st : segment) : outcome segment unit :=
  let* (st, b) := load o st in Ok (set_blk o (f b) st) tt.

(** 112-131: initialisation by the creating process.  [size - sizeof(header)] wraps. *)
Definition seg_init (size : Z) : segment :=
  mkSeg size SEG_HDR SEG_HDR 0 (fset fempty SEG_HDR (mkBlock 0 0 0 (w64 (size - SEG_HDR)) 0 EmptyString)).

(** Bound on the steps of the loops over the lists of blocks. *)
Definition steps (st : segment) : nat := S (Z.to_nat (sg_size st)).

(** The C string a [char*] to the bytes of [s] followed by a NUL denotes. *)
Fixpoint cstr (s : string) : string :=
  match s with
  | EmptyString => EmptyString
  | String a s => if Ascii.eqb a zero then EmptyString else String a (cstr s)
  end.

(** 353-367: find_existing_allocation.  std::string::compare with a C string. *)
Fixpoint find_existing (fuel : nat) (o : Z) (name : string) (st : segment) : outcome segment Z :=
  match fuel with
  | O => NoFuel
  | S fuel =>
      if o =? 0 then Ok st 0
      else
        let* (st, b) := load o st in
        if negb (b_name_off b =? 0) && String.eqb name (cstr (b_name b)) then Ok st o
        else find_existing fuel (b_next b) name st
  end.

(** 369-387: findUsableBlock, best fit; 0 for null. *)
Fixpoint find_usable (fuel : nat) (iter iterPrev best prev size : Z) (st : segment) : outcome segment (Z * Z) :=
  match fuel with
  | O => NoFuel
  | S fuel =>
      if iter =? 0 then Ok st (best, prev)
      else
        let* (st, b) := load iter st in
        let next best prev := find_usable fuel (b_next b) iter best prev size st in
        if size <=? b_size b then
          let take := if b_size b =? size then Ok st (iter, iterPrev) else next iter iterPrev in
          if best =? 0 then take
          else let* (st, bb) := load best st in if b_size b <? b_size bb then take else next best prev
        else next best prev
  end.

(** 434-469: splitBlock *)
Definition split_block (curr prev size : Z) (st : segment) : outcome segment unit :=
  let* (st, c) := load curr st in
  let remaining := w64 (b_size c - size) in
  let* (st, next) :=
    (if (b_size c =? size) || (remaining <? BLK_HDR) then Ok st (b_next c)
     else
       let nb := curr + size in
       Ok (set_blk curr (with_size size c) (set_blk nb (mkBlock (b_next c) 0 0 remaining 0 EmptyString) st)) nb) in
  if negb (prev =? 0) then change prev (with_next next) st
  else Ok (set_free next st) tt.

(** 181-239: allocate_named; the result is an offset. *)
Definition allocate_named (name : string) (requested : Z) (st : segment) : outcome segment Z :=
  let mem_size := up16 requested in
  let name_size := up16 (Z.of_nat (String.length name) + 1) in
  let adjusted := w64 (header_size + mem_size + name_size) in
  let* (st, best) := find_existing (steps st) (sg_used st) name st in
  if negb (best =? 0) then
    let* (st, _) := change best (fun b => with_refs (w64 (b_refs b + 1)) b) st in
    let* (st, b) := load best st in
    Ok st (b_mem_off b)
  else
    let* (st, bp) := find_usable (steps st) (sg_free st) 0 0 0 adjusted st in
    let '(best, prev) := bp in
    if best =? 0 then Throw st OutOfMemory
    else
      let* (st, _) := split_block best prev adjusted st in
      let* (st, b) := load best st in
      let mem := best + header_size in
      let blk := mkBlock (sg_used st) (mem + mem_size) mem (b_size b) 1 name in
      Ok (set_used best (set_blk best blk (set_actual (w64 (sg_actual st + b_size b)) st))) mem.

(** 267-272: the predecessor of a block on the used list, 0 if it is the first; the block must be on it. *)
Fixpoint find_prev (fuel : nat) (curr prev target : Z) (st : segment) : outcome segment Z :=
  match fuel with
  | O => NoFuel
  | S fuel =>
      if (curr =? 0) || (curr =? target) then Ok st prev
      else let* (st, b) := load curr st in find_prev fuel (b_next b) curr target st
  end.

(** 399-405: the last free block below an offset, 0 if there is none. *)
Fixpoint find_below (fuel : nat) (iter prev curr : Z) (st : segment) : outcome segment Z :=
  match fuel with
  | O => NoFuel
  | S fuel =>
      if negb (iter =? 0) && (iter <? curr) then let* (st, b) := load iter st in find_below fuel (b_next b) iter curr st
      else Ok st prev
  end.

(** 389-432: releaseBlock *)
Definition release_block (curr prev : Z) (st : segment) : outcome segment unit :=
  let* (st, c) := load curr st in
  let* (st, _) := (if negb (prev =? 0) then change prev (with_next (b_next c)) st else Ok (set_used (b_next c) st) tt) in
  let* (st, prev) := find_below (steps st) (sg_free st) 0 curr st in
  let* (st, next) := (if negb (prev =? 0) then let* (st, p) := load prev st in Ok st (b_next p) else Ok st (sg_free st)) in
  let* (st, curr) :=
    (if negb (prev =? 0) then
       let* (st, p) := load prev st in
       if prev + b_size p =? curr then
         let* (st, c) := load curr st in
         Ok (del_blk curr (set_blk prev (with_size (b_size p + b_size c) p) st)) prev
       else Ok (set_blk prev (with_next curr p) st) curr
     else Ok (set_free curr st) curr) in
  let* (st, c) := load curr st in
  if negb (next =? 0) && (curr + b_size c =? next) then
    let* (st, n) := load next st in
    Ok (del_blk next (set_blk curr (with_next (b_next n) (with_size (b_size c + b_size n) c)) st)) tt
  else Ok (set_blk curr (with_next next c) st) tt.

(** 241-281: deallocate, of an offset. *)
Definition seg_deallocate (ptr : Z) (st : segment) : outcome segment unit :=
  let o := ptr - header_size in
  let* (st, b) := load o st in
  let b := with_refs (w64 (b_refs b - 1)) b in
  let st := set_blk o b st in
  if b_refs b =? 0 then
    let st := set_actual (w64 (sg_actual st - b_size b)) st in
    let st := set_blk o (mkBlock (b_next b) 0 0 (b_size b) (b_refs b) (b_name b)) st in
    let* (st, prev) := find_prev (steps st) (sg_used st) 0 o st in
    release_block o prev st
  else Ok st tt.

(** 283-302: find_pointer_from_name, 0 for null. *)
Definition find_pointer (name : string) (st : segment) : outcome segment Z :=
  let* (st, o) := find_existing (steps st) (sg_used st) name st in
  if negb (o =? 0) then let* (st, b) := load o st in Ok st (b_mem_off b) else Ok st 0.
