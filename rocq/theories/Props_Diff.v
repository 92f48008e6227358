(** Property C71: replaydiff tells whether two logs are of programs that did the same. *)
From Coq Require Import String.
From Verif Require Import Base BaseFacts ReplayModel ReplaySpec ReplayFacts DiffModel DiffSpec DiffFacts.
Local Open Scope string_scope.
Local Open Scope Z_scope.

(** What the answer means: the steps of the right program are the first steps of the left one, and the left
    one created no allocator after that. *)
Theorem C71_verdict : forall ds dn H H' t t' cs cs' lnl lnr, program H -> program H' ->
  logged ds dn t H cs -> logged ds dn t' H' cs' ->
  exists b z, compare lnl lnr cs cs' = Ok tt (b, z) /\
    (b = true <-> exists s, shape H = (s ++ shape H')%list /\ forall x, In x s -> creation x = false).
Proof. exact verdict. Qed.
Print Assumptions C71_verdict.

(** For logs with as many operations the answer is whether the programs did the same.  Missing: logs with
    different numbers of operations ([C71_equal_refuted]). *)
Theorem C71_equal_partial : forall ds dn H H' t t' cs cs' lnl lnr, program H -> program H' ->
  logged ds dn t H cs -> logged ds dn t' H' cs' -> List.length (shape H) = List.length (shape H') ->
  exists b z, compare lnl lnr cs cs' = Ok tt (b, z) /\ (b = true <-> shape H = shape H').
Proof. exact verdict_equal. Qed.
Print Assumptions C71_equal_partial.

(** Programs that did the same are replayed by the same calls, whatever the library answers. *)
Theorem C71_runs : forall ds dn H H' t t' cs cs', program H -> program H' ->
  logged ds dn t H cs -> logged ds dn t' H' cs' -> shape H = shape H' ->
  forall W (lib : rcall -> W -> outcome W Z) ptrs w, run_all lib cs' ptrs w = run_all lib cs ptrs w.
Proof. exact runs_alike. Qed.
Print Assumptions C71_runs.

(** Two runs of a program that differ in the addresses only compare equal. *)
Theorem C71_addresses : forall ds dn g f H t t' cs cs' lnl lnr, (forall r r', g r = g r' -> r = r') ->
  (forall r p p', f r p = f r p' -> p = p') -> (forall r, f r 0 = 0) ->
  program H -> program (map (move g f) H) -> logged ds dn t H cs -> logged ds dn t' (map (move g f) H) cs' ->
  exists z, compare lnl lnr cs cs' = Ok tt (true, z).
Proof. exact moved_alike. Qed.
Print Assumptions C71_addresses.

(** To show a difference the tool skips lines of the two logs, of [L] and [L'] lines, no more often than there are lines.
    Missing: a left log with fewer operations ([C71_lines_refuted]). *)
Theorem C71_lines_partial : forall ds dn H H' t t' cs cs' lnl lnr L L', program H -> program H' ->
  logged ds dn t H cs -> logged ds dn t' H' cs' -> (List.length (shape H') <= List.length (shape H))%nat ->
  lines_ok lnl L -> lines_ok lnr L' ->
  exists b z, compare lnl lnr cs cs' = Ok tt (b, z) /\ 0 <= z < L + L'.
Proof. exact rounds. Qed.
Print Assumptions C71_lines_partial.

(** Refuted: if the left log is an initial part of the right one, the line of the missing operation is 0, and
    the tool goes round at least [2 ^ 64 - 1] times before it answers.  All programs without a further
    allocator at the end are cases. *)
Theorem C71_lines_refuted : forall ds dn H H' t t' cs cs' lnl lnr s, program H -> program H' ->
  logged ds dn t H cs -> logged ds dn t' H' cs' ->
  shape H' = (s ++ shape H)%list -> (forall x, In x s -> creation x = false) -> s <> [] ->
  exists z, compare lnl lnr cs cs' = Ok tt (false, z) /\ 2 ^ 64 - 1 <= z.
Proof. exact rounds_forever. Qed.
Print Assumptions C71_lines_refuted.

(** ** Cases *)
Definition prog : list pcall :=
  [PFree 0x7000 0x99; PFree 0x7000 0x340; PRealloc 0x7000 0x300 64 [PFree 0x7000 0x300; PCopy; PAlloc 0x7000 64 0x340] (Some 0x340);
   PDefault 0x7000; PAlloc 0x7000 16 0x300; PAlloc 0x5000 16 0x300; PMake 0x7000 "pool" "SlotPool" "HOST" true [AN 8];
   PMakeRes 0x5000 "HOST"].
Definition longer : list pcall := PAlloc 0x5000 32 0x800 :: prog.

Ltac is_program := unfold longer, prog; cbn [program may_follow]; repeat match goal with |- _ /\ _ => split end; try exact Logic.I;
  try (vm_compute; first [reflexivity | discriminate | intros X; discriminate X]);
  try (exists [AN 8]; apply pa_one; [cbn; tauto | cbn; lia]);
  try (right; split; [lia | reflexivity]); try (right; reflexivity); try (repeat constructor).

Example C71_case : program prog /\ program longer.
Proof. split; is_program. Qed.

Example C71_case_moved : program (map (move (fun r => r + 0x100) (fun r p => p * 3)) prog).
Proof. cbn [map move prog option_map]. is_program. Qed.

Example C71_case_shape : shape prog =
  [SFree 1 6; SRealloc 1 4 64; SDefault 1; SAlloc 1 16; SAlloc 0 16;
   SCreate 1 "SlotPool" "pool" "HOST" true [AN 8]; SCreate 0 "" "HOST" "" true []].
Proof. vm_compute. reflexivity. Qed.

(** [compare] of the logs of two programs, with the numbers of operations as those of lines. *)
Definition diff (H H' : list pcall) : outcome unit (bool * Z) :=
  match build 100000 (records H), build 100000 (records H') with
  | Ok cs _, Ok cs' _ => compare (fun i => i) (fun i => i) cs cs'
  | _, _ => UB
  end.

Example C71_case_same : diff prog (map (move (fun r => r + 0x100) (fun r p => p * 3)) prog) = Ok tt (true, 0).
Proof. vm_compute. reflexivity. Qed.
Example C71_case_differ : diff prog (PFree 0x7000 0x340 :: PRealloc 0x7000 0x300 65 [] (Some 0x340) :: skipn 3 prog) = Ok tt (false, 10).
Proof. vm_compute. reflexivity. Qed.
Example C71_case_forever : diff prog longer = Ok tt (false, 2 ^ 64 - 1 + 7).
Proof. vm_compute. reflexivity. Qed.

(** Refuted: a left log with more operations compares equal, though the programs did not do the same; the
    other way round they differ. *)
Theorem C71_equal_refuted : exists H H', program H /\ program H' /\ shape H <> shape H' /\
  diff H H' = Ok tt (true, 0) /\ (exists z, diff H' H = Ok tt (false, z)).
Proof.
  exists longer, prog. split; [apply C71_case|]. split; [apply C71_case|]. split; [|split].
  - intros E. apply (f_equal (@List.length sop)) in E. vm_compute in E. discriminate E.
  - vm_compute. reflexivity.
  - eexists. vm_compute. reflexivity.
Qed.
Print Assumptions C71_equal_refuted.

(** Refuted: a reallocation that threw is in the cell behind the last operation of the left log, and is
    taken for one that came back. *)
Theorem C71_failed_refuted : exists H, program H /\
  diff (PRealloc 0x7000 0x300 64 [] None :: H) (PRealloc 0x7000 0x300 64 [] (Some 0x340) :: H) = Ok tt (true, 0).
Proof.
  exists (skipn 3 prog). split; [cbn [skipn prog]; is_program | vm_compute; reflexivity].
Qed.
Print Assumptions C71_failed_refuted.
