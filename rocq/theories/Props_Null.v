(** Property C56: the null resource. *)
From Verif Require Import Base BaseFacts FixedMallocPoolModel NullModel NullSpec NullFacts.

(** As long as no more than [page] (4096, say) allocations of less than 4 GiB are live at a time: they do not overlap and are all mapped.
    Missing: more, or larger, allocations (see the refutations). *)
Theorem C56_live_mapped_partial : forall W (P : Parent W) mmap page cap lim w G,
  0 < page -> 0 <= cap <= page -> cap < SLOTS - 1 -> lim <= M32 -> null_hist P mmap page cap lim w G ->
  good G /\ (forall r a, In r G -> fst r <= a < fst r + snd r -> is_mapped (n_maps w) a).
Proof. exact live_mapped. Qed.
Print Assumptions C56_live_mapped_partial.

(** Under the same conditions no call has undefined behaviour or throws. *)
Theorem C56_defined_partial : forall W (P : Parent W) mmap page cap lim w G,
  0 < page -> 0 <= cap <= page -> cap < SLOTS - 1 -> lim <= M32 -> null_hist P mmap page cap lim w G ->
  (forall n, 0 < n < lim -> Z.of_nat (length G) < cap -> exists w' p, null_allocate P mmap page n w = Ok w' p) /\
  (forall p n, In (p, n) G -> exists w', null_deallocate page p w = Ok w' tt).
Proof. exact calls_defined. Qed.
Print Assumptions C56_defined_partial.

(** What is wrong even then: deallocation unmaps at most the first page, the rest stays mapped. *)
Theorem C56_rest_stays_mapped : forall W (P : Parent W) mmap page cap lim w G p n w',
  0 < page -> 0 <= cap <= page -> cap < SLOTS - 1 -> lim <= M32 -> null_hist P mmap page cap lim w G -> In (p, n) G ->
  null_deallocate page p w = Ok w' tt -> forall a, p + page <= a < p + n -> is_mapped (n_maps w') a.
Proof. exact rest_stays. Qed.
Print Assumptions C56_rest_stays_mapped.

(** malloc answers 2^30 once; mmap answers one address after the other, without gaps for requests of whole pages. *)
Definition heap : Parent unit := mkParent (fun n w => Ok w (2 ^ 30)) (fun p n w => Ok w tt).
Definition first_at (big : Z) : nat -> Z -> option Z := fun t n => if 2 ^ 40 <? n then None else Some (if Nat.eqb t 0 then 2 ^ 40 else 2 ^ 40 + big + 4096 * (Z.of_nat t - 1)).

Ltac begin_null lim big := assert (H0 : null_hist heap (first_at big) 4096 4096 lim (mkNull 0 [] [] (mkFmState [mkFm (2 ^ 30) (2 ^ 30) 0 SLOTS] fempty) fempty tt) []) by
  (apply (nl_start heap (first_at big) 4096 4096 lim tt tt (2 ^ 30)); [lia|reflexivity|reflexivity]).

(** Three pages, one page, and one more after the first has been given back. *)
Example C56_case : exists w, null_hist heap (first_at 12288) 4096 4096 M32 w [(2 ^ 40 + 12288 + 4096, 5); (2 ^ 40 + 12288, 4000)].
Proof.
  begin_null M32 12288.
  eapply (nl_alloc _ _ _ _ _ _ _ 12288) in H0; [|reflexivity|split; reflexivity|vm_compute; reflexivity|discriminate].
  eapply (nl_alloc _ _ _ _ _ _ _ 4000) in H0; [|reflexivity|split; reflexivity|vm_compute; reflexivity|discriminate].
  eapply (nl_free _ _ _ _ _ _ [_] _ _ []) in H0; [|vm_compute; reflexivity].
  eapply (nl_alloc _ _ _ _ _ _ _ 5) in H0; [|reflexivity|split; reflexivity|vm_compute; reflexivity|discriminate].
  eexists. exact H0.
Qed.

(** Refuted: deallocation does not give back what was mapped. *)
Theorem C56_leak_refuted : exists W (P : Parent W) mmap page cap lim w, null_hist P mmap page cap lim w [] /\ exists a, is_mapped (n_maps w) a.
Proof.
  begin_null M32 12288.
  eapply (nl_alloc _ _ _ _ _ _ _ 12288) in H0; [|reflexivity|split; reflexivity|vm_compute; reflexivity|discriminate].
  eapply (nl_free _ _ _ _ _ _ [] _ _ []) in H0; [|vm_compute; reflexivity].
  do 7 eexists. split; [exact H0|]. exists (2 ^ 40 + 4096). exists (2 ^ 40 + 4096, 8192). split; [left; reflexivity|cbn [fst snd]; lia].
Qed.
Print Assumptions C56_leak_refuted.

(** Refuted: the deallocation of an allocation of 4 GiB unmaps its neighbour, which is in use. *)
Theorem C56_neighbour_refuted : exists W (P : Parent W) mmap page cap lim w r, 
  null_hist P mmap page cap lim w [r] /\ ~ is_mapped (n_maps w) (fst r).
Proof.
  begin_null (2 * M32) M32.
  eapply (nl_alloc _ _ _ _ _ _ _ M32) in H0; [|reflexivity|split; reflexivity|vm_compute; reflexivity|discriminate].
  eapply (nl_alloc _ _ _ _ _ _ _ 4096) in H0; [|reflexivity|split; reflexivity|vm_compute; reflexivity|discriminate].
  eapply (nl_free _ _ _ _ _ _ [_] _ _ []) in H0; [|vm_compute; reflexivity].
  do 8 eexists. split; [exact H0|]. intros (r & [] & _).
Qed.
Print Assumptions C56_neighbour_refuted.

(** Refuted: when mmap fails the caller gets MAP_FAILED for an address, and no exception; and again for the next request. *)
Theorem C56_failure_refuted : forall W (P : Parent W) mmap page n w w' p, mmap (n_time w) n = None ->
  null_allocate P mmap page n w = Ok w' p -> p = M64 - 1.
Proof. exact failure_answer. Qed.
Print Assumptions C56_failure_refuted.

Example C56_failure_case : exists w w' w'' n, null_hist heap (first_at 12288) 4096 4096 M32 w [] /\
  null_allocate heap (first_at 12288) 4096 n w = Ok w' (M64 - 1) /\ null_allocate heap (first_at 12288) 4096 n w' = Ok w'' (M64 - 1).
Proof.
  begin_null M32 12288. do 2 eexists. eexists. exists (2 ^ 41). split; [exact H0|]. split; [vm_compute; reflexivity|]. vm_compute; reflexivity.
Qed.

(** Refuted: a pointer that was not handed out is not reported, but dereferences null. *)
Theorem C56_unknown_refuted : forall W page p (w : nullw W), (forall a, ~ In (p, a) (n_table w)) -> null_deallocate page p w = UB.
Proof. exact unknown_pointer. Qed.
Print Assumptions C56_unknown_refuted.
