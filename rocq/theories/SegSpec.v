(** Specification words for the shared memory segment. *)
From Coq Require Import String Ascii.
From Verif Require Import Base SegModel.

(** A name in use: where its memory starts, how many bytes of the segment it takes (as getActualSize shows), what was asked
    for at first, and how many allocations of it have not been given back. *)
Record live : Type := mkLive { l_name : string; l_off : Z; l_len : Z; l_req : Z; l_refs : Z }.

(** The bytes asked for, and all bytes taken, 48 of which precede the memory. *)
Definition l_mem (e : live) : region := (l_off e, l_req e).
Definition l_ext (e : live) : region := (l_off e - 48, l_len e).

Definition named (n : string) (e : live) : bool := String.eqb (l_name e) n.
Definition at_off (p : Z) (e : live) : bool := l_off e =? p.

Definition count_up (e : live) : live := mkLive (l_name e) (l_off e) (l_len e) (l_req e) (l_refs e + 1).
Definition count_down (e : live) : live := mkLive (l_name e) (l_off e) (l_len e) (l_req e) (l_refs e - 1).

(** Bookkeeping of an allocation of [n] and of a deallocation of [p]. *)
Definition note_alloc (n : string) (p len req : Z) (G : list live) : list live :=
  if existsb (named n) G then map (fun e => if named n e then count_up e else e) G
  else mkLive n p len req 1 :: G.
Definition note_free (p : Z) (G : list live) : list live :=
  filter (fun e => negb (l_refs e =? 0)) (map (fun e => if at_off p e then count_down e else e) G).

(** A C string. *)
Definition c_name (n : string) : Prop := ~ In zero (list_ascii_of_string n).

(** What an allocation of a new name takes: header, memory and name with its NUL, rounded up beyond. *)
Definition above16 (x : Z) : Z := (x / 16 + 1) * 16.
Definition need (n : string) (req : Z) : Z := 48 + above16 req + above16 (Z.of_nat (String.length n) + 1).

Definition SEG_LIM : Z := 2^62.

(** Requests that do not wrap, names without NUL, fewer than 2^64 references. *)
Definition ask_ok (G : list live) (n : string) (req : Z) : Prop :=
  c_name n /\ Z.of_nat (String.length n) < SEG_LIM /\ 0 <= req < SEG_LIM /\
  (forall e, In e G -> l_name e = n -> l_refs e < M64 - 1).

Inductive seghist (size : Z) : segment -> list live -> Prop :=
| gh_start : seghist size (seg_init size) []
| gh_alloc st G n req st' p :
    seghist size st G -> ask_ok G n req -> allocate_named n req st = Ok st' p ->
    seghist size st' (note_alloc n p (sg_actual st' - sg_actual st) req G)
| gh_fail st G n req st' e :
    seghist size st G -> ask_ok G n req -> allocate_named n req st = Throw st' e -> seghist size st' G
| gh_free st G p st' :
    seghist size st G -> (exists e, In e G /\ l_off e = p) -> seg_deallocate p st = Ok st' tt ->
    seghist size st' (note_free p G).

(** A segment that can hold its header and one block header. *)
Definition seg_size_ok (size : Z) : Prop := 120 <= size < ASP.
