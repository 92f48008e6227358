(** Vocabulary for the properties of copy, memset, reallocate and move. *)
From Verif Require Import Base MapModel MapSpec AllocMapThms MapMain SystemModel SystemSpec OpsModel.

(** Bytes from address [p] to the end of allocation [r]. *)
Definition rest (r : arec) (p : Z) : Z := r_ptr r + r_size r - p.

(** Number of bytes an operation is asked for: zero stands for the rest of the allocation. *)
Definition wanted (r : arec) (p size : Z) : Z := if size =? 0 then rest r p else size.

(** [p] points into allocation [r], and the allocation map can tell: it finds the beginning of an allocation
    always, an address inside one if the addresses in use satisfy [sparse56] (see C01). *)
Definition points (ok : (Z -> Prop) -> Prop) (g : list arec) (r : arec) (p : Z) : Prop :=
  In r g /\ (p = r_ptr r \/ covers r p /\ forall P, ok P -> sparse56 P).

(** The bytes of allocation [r] are the same in both memories. *)
Definition kept (m m' : mem) (r : arec) : Prop := forall x, r_ptr r <= x < r_ptr r + r_size r -> m' x = m x.

(** The [n] bytes at [dst] are those that were at [src]. *)
Definition carried (m m' : mem) (src dst n : Z) : Prop := forall i, 0 <= i < n -> m' (dst + i) = m (src + i).

(** Only bytes in the range changed. *)
Definition only (m m' : mem) (r : region) : Prop := forall x, ~ (fst r <= x < fst r + snd r) -> m' x = m x.

(** [realloc] is used: the allocation is one of HOST and not of zero bytes. *)
Definition by_libc (r : arec) : bool := (r_strat r =? Z.of_nat host_id) && negb (r_size r =? 0).

(** The allocators whose statistics the history makes no claim about. *)
Definition unclaimed (r : arec) (n : Z) (q : list nat) : list nat :=
  if by_libc r && negb (n =? 0) then host_id :: q else q.
