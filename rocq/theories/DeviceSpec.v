(** Specification words for DeviceAllocator. *)
From Coq Require Import String Ascii.
From Verif Require Import Base DeviceModel.

(** [dhist hip size s P R T]: [s] is reached by some interleaving of any threads.  Since the last reset: [R] are the
    ranges handed out, [P] the additions of threads that have not returned yet, [T] the bytes asked for in total, which
    stay below 2^32. *)
Inductive dhist (hip : bool) (size : Z) : dstate -> list (Z * region) -> list region -> Z -> Prop :=
| dh_start : dhist hip size d_init [] [] 0
| dh_add s P R T t n s' :
    dhist hip size s P R T -> 0 <= n -> T + n < M32 -> dexec hip size (DAdd t n) s = (s', DNone) ->
    dhist hip size s' ((t, (d_counter s, n)) :: P) R (T + n)
| dh_got s P R T t off n s' :
    dhist hip size s P R T -> dexec hip size (DCheck t) s = (s', DGot off n) -> In (t, (off, n)) P ->
    dhist hip size s' (filter (fun x => negb (fst x =? t)) P) ((off, n) :: R) T
| dh_stale s P R T t off n s' :  (* the addition was before the reset *)
    dhist hip size s P R T -> dexec hip size (DCheck t) s = (s', DGot off n) -> ~ In (t, (off, n)) P ->
    dhist hip size s' P R T
| dh_error s P R T t s' :
    dhist hip size s P R T -> dexec hip size (DCheck t) s = (s', DError) ->
    dhist hip size s' (filter (fun x => negb (fst x =? t)) P) R T
| dh_reset s P R T x s' :
    dhist hip size s P R T -> dexec hip size x s = (s', DDone) -> dhist hip size s' [] [] 0
| dh_other s P R T x s' :
    dhist hip size s P R T -> (forall t n, x <> DAdd t n) -> dexec hip size x s = (s', DNone) -> dhist hip size s' P R T.

(** Running a list of steps, with the outputs. *)
Fixpoint drun (hip : bool) (size : Z) (l : list dact) (s : dstate) : dstate * list dout :=
  match l with
  | [] => (s, [])
  | x :: l => let '(s1, o) := dexec hip size x s in let '(s2, os) := drun hip size l s1 in (s2, o :: os)
  end.

(** Histories of the table: [made] are the entries made since the array was allocated, newest first. *)
Inductive thist : dtable -> list dentry -> Prop :=
| th_start : thist t_init []
| th_make T made fresh size name T' e :
    thist T made -> Z.of_nat (List.length fresh) = DEV_ALLOCS -> make_device_allocator fresh size name T = Ok T' e ->
    thist T' (e :: made)
| th_refused T made fresh size name T' e : thist T made -> make_device_allocator fresh size name T = Throw T' e -> thist T' made
| th_destroy T made T' l : thist T made -> destroy_device_allocator T = Ok T' l -> thist T' [].

(** [pre] is a prefix of [name]. *)
Fixpoint prefix (pre name : string) : Prop :=
  match pre, name with
  | EmptyString, _ => True
  | String a p, String b n => a = b /\ prefix p n
  | String _ _, EmptyString => False
  end.
