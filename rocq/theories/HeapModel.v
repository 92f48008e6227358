(** Model of the HOST memory resource: [resource::DefaultMemoryResource] over
    [alloc::MallocAllocator] (src/umpire/resource/DefaultMemoryResource.inl:23-45,
    src/umpire/alloc/MallocAllocator.hpp:38-67), and of [malloc]/[free] as the C
    standard allows them to behave.

    The placement and success of every [malloc] is decided by an oracle, an arbitrary
    function of the number of earlier requests, the live blocks and the size.
    An answer is honoured only if it is legal (non-null, 16-byte aligned, inside
    the address space, disjoint from all live blocks); otherwise [malloc] fails.
    Theorems quantify over all oracles.  [malloc(0)] is taken to return a unique
    block of one byte or to fail.  [h_refused] lists the requests that failed, newest first; it is there
    for statements only, nothing reads it. *)
From Verif Require Import Base.

Inductive answer : Type :=
| Addr (a : Z)
| Fail (enomem : bool).

Record heap : Type := mkHeap {
  h_oracle : nat -> list region -> Z -> answer;
  h_step : nat;
  h_live : list region;
  h_refused : list Z
}.

Definition at_least_1 (n : Z) : Z := if n <? 1 then 1 else n.

Definition legal (live : list region) (a n : Z) : bool :=
  (0 <? a) && (a mod 16 =? 0) && (a + n <=? ASP) &&
  forallb (fun r => (a + n <=? fst r) || (fst r + snd r <=? a)) live.

(** C [malloc]. *)
Definition malloc (n : Z) (h : heap) : outcome heap Z :=
  match h_oracle h (h_step h) (h_live h) n with
  | Addr a =>
      if legal (h_live h) a (at_least_1 n)
      then Ok (mkHeap (h_oracle h) (S (h_step h)) ((a, at_least_1 n) :: h_live h) (h_refused h)) a
      else Throw (mkHeap (h_oracle h) (S (h_step h)) (h_live h) (n :: h_refused h)) OutOfMemory
  | Fail enomem =>
      Throw (mkHeap (h_oracle h) (S (h_step h)) (h_live h) (n :: h_refused h))
            (if enomem then OutOfMemory else RuntimeError)
  end.

Fixpoint take_block (p : Z) (l : list region) : option (Z * list region) :=
  match l with
  | [] => None
  | (q, n) :: t =>
      if q =? p then Some (n, t)
      else match take_block p t with
           | None => None
           | Some (m, t') => Some (m, (q, n) :: t')
           end
  end.

(** C [free]: the argument must be null or a live block. *)
Definition free (p : Z) (h : heap) : outcome heap unit :=
  if p =? 0 then Ok h tt
  else match take_block p (h_live h) with
       | None => UB
       | Some (_, l) => Ok (mkHeap (h_oracle h) (h_step h) l (h_refused h)) tt
       end.

(** MallocAllocator.hpp:38-52: a null result is turned into an exception, the kind
    depending on errno; MallocAllocator.hpp:61-65. *)
Definition host_allocate (n : Z) (h : heap) : outcome heap Z := malloc n h.
Definition host_deallocate (p : Z) (_ : Z) (h : heap) : outcome heap unit := free p h.
Definition host : Parent heap := mkParent host_allocate host_deallocate.
