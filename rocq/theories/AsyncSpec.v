(** Vocabulary for the properties of asynchronous operations. *)
From Coq Require Import String.
From Verif Require Import Base MapModel OpTableModel OpTableSpec OpsModel AsyncModel.

(** Two ranges share a byte. *)
Definition meet (a b : Z * Z) : Prop := exists x, fst a <= x < fst a + snd a /\ fst b <= x < fst b + snd b.

(** What an effect writes and what it reads. *)
Definition writes (e : effect) : Z * Z := match e with Copy d _ n => (d, n) | Fill p _ n => (p, n) end.
Definition reads (e : effect) : Z * Z := match e with Copy _ s n => (s, n) | Fill p _ _ => (p, 0) end.

(** Two effects whose order matters. *)
Definition conflict (a b : effect) : Prop :=
  meet (writes a) (writes b) \/ meet (writes a) (reads b) \/ meet (reads a) (writes b).

Definition range (r : arec) : Z * Z := (r_ptr r, r_size r).

(** The effect has to do with the memory of the allocation. *)
Definition uses (e : effect) (r : Z * Z) : Prop := meet (writes e) r \/ meet (reads e) r.

(** Allocation [r] is the one [p] points into. *)
Definition holds (l : list arec) (p : Z) (r : arec) : Prop :=
  In r l /\ (p = r_ptr r \/ r_ptr r < p < r_ptr r + r_size r).

(** The stream of a call, if it is given one. *)
Definition stream (o : option context) : option Z := match o with Some x => Some (cx_stream x) | None => None end.

Definition aop_stream (o : aop) : option Z :=
  match o with
  | ACopy _ _ _ cx | AMemset _ _ _ cx | AReallocate _ _ _ cx => stream cx
  | APrefetch _ _ cx => Some (cx_stream cx)
  | _ => None
  end.

Definition others (s : option Z) (w : aworld) (e : effect) : Prop :=
  exists t, In (t, e) (a_pend w) /\ s <> Some t.

(** Number of bytes a call is asked for: zero stands for the rest of the allocation. *)
Definition asked (r : arec) (p n : Z) : Z := if n =? 0 then r_ptr r + r_size r - p else n.

(** Ordinary states: addresses and sizes of allocations are those of the machine and allocations are apart. *)
Definition apart (l : list arec) : Prop :=
  forall r1 r2, In r1 l -> In r2 l -> r1 = r2 \/ r_ptr r1 + r_size r1 <= r_ptr r2 \/ r_ptr r2 + r_size r2 <= r_ptr r1.
Definition ordinary (l : list arec) : Prop :=
  (forall r, In r l -> 0 < r_ptr r /\ 0 <= r_size r /\ r_ptr r + r_size r <= ASP) /\
  NoDup (map r_ptr l) /\ apart l.

Section Discipline.
  Context (plat : Z -> platform) (host : Z) (place : nat -> Z -> Z -> option Z).

  (** The next allocation gets memory of its own (C36). *)
  Definition room (w : aworld) (l : list arec) (i n : Z) : Prop :=
    forall q, place (a_calls w) i n = Some q -> 0 < q /\ q + n <= ASP /\ ~ In q (map r_ptr l) /\
      forall r, In r l -> q + n <= r_ptr r \/ r_ptr r + r_size r <= q.

  (** What a program has to see to.  A call on a stream does not touch what calls queued on other streams use
      (writing what they read or write, or reading what they write), a call without a stream does not touch what any
      queued call uses; memory that queued calls use is not given back; a copy does not read beyond the end of its
      source (see C32).  Memory of CUDA and HIP is not reallocated on a stream. *)
  Definition careful (o : aop) (w : aworld) : Prop :=
    match o with
    | AAllocate i n => 0 <= n /\ room w (a_live w) i n
    | ADeallocate p =>
        forall r e t, In r (a_live w) -> r_ptr r = p -> In (t, e) (a_pend w) -> ~ uses e (range r)
    | ACopy d s n cx =>
        0 <= n /\ forall r, holds (a_live w) s r ->
          s + asked r s n <= r_ptr r + r_size r /\
          forall e, others (stream cx) w e -> ~ conflict (Copy d s (asked r s n)) e
    | AMemset p v n cx =>
        0 <= n /\ forall r, holds (a_live w) p r -> forall e, others (stream cx) w e -> ~ conflict (Fill p v (asked r p n)) e
    | AReallocate d p n cx =>
        0 <= n /\
        (p = 0 -> room w (a_live w) d n) /\
        forall r, In r (a_live w) -> r_ptr r = p ->
          (cx = None \/ (plat (r_strat r) <> PCuda /\ plat (r_strat r) <> PHip)) /\
          (forall e t, In (t, e) (a_pend w) -> ~ uses e (range r)) /\
          let rest := filter (fun r' => negb (r_ptr r' =? p)) (a_live w) in
          if n =? 0 then room (called w) rest (r_strat r) 0
          else room w (if (r_strat r =? host) && negb (r_size r =? 0) then rest else a_live w) (r_strat r) n
    | APrefetch _ _ _ | AWait _ | AStep _ => True
    end.
End Discipline.

(** A program that is careful all along. *)
Section Disciplined.
  Context (c : opconfig) (plat : Z -> platform) (unified : Z -> bool) (device_of : Z -> Z) (host : Z)
    (place : nat -> Z -> Z -> option Z) (noise : nat -> Z -> Z -> Z) (fails : nat -> bool) (current : Z)
    (props : Z -> option bool) (shared : Z -> bool).

  Fixpoint disciplined (l : list aop) (w : aworld) : Prop :=
    match l with
    | [] => True
    | o :: l' =>
        careful plat host place o w /\
        match a_do c plat unified device_of host place noise fails current props shared o w with
        | Ok w1 _ | Throw w1 _ => disciplined l' w1
        | _ => True
        end
    end.
End Disciplined.

(** The program that waits for every call before going on. *)
Definition waiting (l : list aop) : list aop :=
  flat_map (fun o => if silent o then []
                     else o :: match aop_stream o with Some s => [AWait s] | None => [] end) l.

(** The bytes at [dst] are those that were at [src]; nothing else changed. *)
Definition copied (m m' : mem) (dst src n : Z) : Prop :=
  (forall i, 0 <= i < n -> m' (dst + i) = m (src + i)) /\
  (forall x, ~ (dst <= x < dst + n) -> m' x = m x).
Definition filled (m m' : mem) (p v n : Z) : Prop :=
  (forall i, 0 <= i < n -> m' (p + i) = v mod 256) /\ (forall x, ~ (p <= x < p + n) -> m' x = m x).

(** Memory of platform [a] can be copied to memory of platform [b]: not between two kinds of devices (see C50). *)
Definition copyable (c : opconfig) (a b : platform) : Prop :=
  enabled c a = true /\ enabled c b = true /\ (a = b \/ a = PHost \/ b = PHost).

(** The resource is one of the vendor of the memory, if that has streams. *)
Definition proper (cx : context) (a : platform) : Prop := a = PCuda \/ a = PHip -> cx_platform cx = a.
