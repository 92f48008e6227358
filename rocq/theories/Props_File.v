(** C46: the file resource.  [fhist os page files w G] (FileSpec.v): any sequence of allocations and deallocations, over any
    operating system and any files already there; [G] are the live allocations.  C46_live to C46_destructor are about
    systems where removing a file that is there succeeds. *)
From Verif Require Import Base BaseFacts FileModel FileSpec FileFacts.

(** Every live allocation is backed by whole pages, at least the bytes asked for and less than a page more, mapped from
    a file of the same length. *)
Theorem C46_live : forall os page files w G e, 0 < page < 2 ^ 63 -> (forall t, o_remove os t = true) -> fhist os page files w G -> In e G ->
  exists len c, backed page w e len c /\ c < f_counter w.
Proof. intros os page files w G e Hp Hr. exact (file_live os page files Hp Hr w G e). Qed.
Print Assumptions C46_live.

(** Live allocations have different addresses; their pages do not overlap, and each has a file of its own. *)
Theorem C46_apart : forall os page files w G e len c e' len' c', 0 < page < 2 ^ 63 -> (forall t, o_remove os t = true) -> fhist os page files w G ->
  NoDup (map fst G) /\ (backed page w e len c -> backed page w e' len' c' -> fst e <> fst e' -> disj (fst e, len) (fst e', len') /\ c <> c').
Proof.
  intros os page files w G e len c e' len' c' Hp Hr Hh. split; [exact (live_distinct os page files Hp Hr w G Hh)|].
  exact (file_live_apart os page files Hp Hr w G e len c e' len' c' Hh).
Qed.
Print Assumptions C46_apart.

(** An allocation of any size maps exactly the pages it needs, or throws and leaves mappings and the other files alone. *)
Theorem C46_allocate : forall os page files w G n, 0 < page < 2 ^ 63 -> (forall t, o_remove os t = true) -> fhist os page files w G ->
  0 <= n < M64 -> f_counter w < INT_MAX ->
  match file_allocate os page n w with
  | Ok w' p => exists len, backed page w' (p, n) len (f_counter w) /\ f_fds w' = f_fds w /\
      forall x c, mapped w' x c <-> mapped w x c \/ (p <= x < p + len /\ c = f_counter w)
  | Throw w' e => e = RuntimeError /\ (forall x c, mapped w' x c <-> mapped w x c) /\ (forall d, d <> f_counter w -> f_files w' d = f_files w d)
  | _ => False
  end.
Proof. intros os page files w G n Hp Hr. exact (file_alloc os page files Hp Hr w G n). Qed.
Print Assumptions C46_allocate.

(** A deallocation unmaps exactly what was mapped and removes exactly its file, or changes nothing because munmap failed. *)
Theorem C46_deallocate : forall os page files w G e len c, 0 < page < 2 ^ 63 -> (forall t, o_remove os t = true) -> fhist os page files w G ->
  In e G -> backed page w e len c ->
  match file_deallocate os (fst e) w with
  | Ok w' _ => (forall x d, mapped w' x d <-> mapped w x d /\ ~ (fst e <= x < fst e + len)) /\ f_files w' = fdel (f_files w) c /\ f_fds w' = f_fds w
  | Throw w' ex => ex = RuntimeError /\ w' = tick w /\ o_munmap os (f_time w) = false
  | _ => False
  end.
Proof. intros os page files w G e len c Hp Hr. exact (file_free os page files Hp Hr w G e len c). Qed.
Print Assumptions C46_deallocate.

(** The destructor unmaps everything and removes exactly the files of live allocations. *)
Theorem C46_destructor : forall os page files w G, 0 < page < 2 ^ 63 -> (forall t, o_remove os t = true) -> fhist os page files w G ->
  (forall t, o_munmap os t = true) ->
  exists w', file_destroy os w = Ok w' tt /\ (forall x c, ~ mapped w' x c) /\ (forall e len c, backed page w e len c -> f_files w' c = None) /\
    (forall d, (forall e len, ~ backed page w e len d) -> f_files w' d = f_files w d).
Proof. intros os page files w G Hp Hr. exact (file_destructor os page files Hp Hr w G). Qed.
Print Assumptions C46_destructor.

(** A system that maps at 65536 * (time + 1); allocations of 5000 and 4096 bytes and one of 2^64 - 1, which fails. *)
Definition calm : OS := mkOS (fun _ => true) (fun _ => true) (fun t _ => Some (65536 * (Z.of_nat t + 1))) (fun _ => true) (fun _ => true).
Example C46_case : exists w, fhist calm 4096 fempty w [(393216, 4096); (196608, 5000)] /\ backed 4096 w (196608, 5000) 8192 0 /\ backed 4096 w (393216, 4096) 4096 1 /\
  f_counter w = 3.
Proof.
  pose proof (fh_start calm 4096 fempty) as H.
  eapply (fh_alloc calm 4096 fempty _ _ 5000) in H; [|unfold M64; lia|vm_compute; reflexivity].
  eapply (fh_alloc calm 4096 fempty _ _ 4096) in H; [|unfold M64; lia|vm_compute; reflexivity].
  eapply (fh_alloc_fail calm 4096 fempty _ _ (2 ^ 64 - 1)) in H; [|unfold M64; lia|vm_compute; reflexivity].
  eexists. split; [exact H|]. unfold backed. cbn [f_maps f_counter fst snd]. repeat split; try reflexivity; try lia; try (vm_compute; discriminate); cbn [In]; auto.
Qed.

(** C46 fails after a file could not be removed (somebody else did): the entry stays behind.  When the address is mapped
    again, deallocation unmaps the old length and looks for the old file: half the new pages stay mapped, their file stays. *)
Definition sticky : OS := mkOS (fun _ => true) (fun _ => true) (fun _ _ => Some 65536) (fun _ => true) (fun t => negb (Nat.eqb t 4)).
Theorem C46_stale_entry_refuted : exists w1 w2 w3 w4,
  file_allocate sticky 4096 4096 (f_init fempty) = Ok w1 65536 /\ file_deallocate sticky 65536 w1 = Throw w2 RuntimeError /\ f_maps w2 = [] /\
  file_allocate sticky 4096 8192 w2 = Ok w3 65536 /\ file_deallocate sticky 65536 w3 = Ok w4 tt /\ mapped w4 69632 1 /\ f_files w4 1 = Some 8192.
Proof.
  do 4 eexists. split; [vm_compute; reflexivity|]. split; [vm_compute; reflexivity|]. split; [reflexivity|]. split; [vm_compute; reflexivity|]. split; [vm_compute; reflexivity|].
  split; [|reflexivity]. exists (69632, 4096). split; [now left|]. cbn [fst snd]. lia.
Qed.
Print Assumptions C46_stale_entry_refuted.

(** C46 fails: every allocation that fails to map leaves a descriptor open, without limit, with nothing live. *)
Definition full : OS := mkOS (fun _ => true) (fun _ => true) (fun _ _ => None) (fun _ => true) (fun _ => true).
Lemma full_reaches n : Z.of_nat n <= INT_MAX -> exists w, fhist full 4096 fempty w [] /\ f_counter w = Z.of_nat n /\ f_fds w = Z.of_nat n.
Proof.
  induction n as [|n IH]; intros Hn; [exists (f_init fempty); split; [constructor|split; reflexivity]|]. destruct IH as (w & Hh & Hc & Hf); [lia|].
  assert (E : exists w', file_allocate full 4096 1 w = Throw w' RuntimeError /\ f_counter w' = Z.of_nat (S n) /\ f_fds w' = Z.of_nat (S n)).
  { unfold file_allocate. destruct (INT_MAX <=? f_counter w) eqn:E; [lia|]. cbn [o_open full negb o_trunc]. change (2 ^ 63 <=? rounded 4096 1) with false. cbn [orb]. unfold os_mmap. cbn [o_mmap full].
    eexists. split; [reflexivity|]. match goal with |- context [os_remove full ?c ?x] => destruct (os_remove_frame full (fun _ => eq_refl) c x) as (_ & _ & R3 & R4 & _) end.
    rewrite R3, R4. cbn [tick with_files with_fds f_counter f_fds]. lia. }
  destruct E as (w' & E & E1 & E2). exists w'. split; [|auto]. exact (fh_alloc_fail full 4096 fempty w [] 1 w' RuntimeError Hh ltac:(unfold M64; lia) E).
Qed.
Theorem C46_descriptor_leak_refuted : forall k, 0 <= k <= INT_MAX -> exists w, fhist full 4096 fempty w [] /\ f_fds w = k.
Proof. intros k Hk. destruct (full_reaches (Z.to_nat k)) as (w & Hh & _ & Hf); [lia|]. exists w. split; [exact Hh|lia]. Qed.
Print Assumptions C46_descriptor_leak_refuted.

(** C46 fails after 2^31 - 1 allocations, failed ones included: the counter overflows. *)
Theorem C46_counter_refuted : exists w, fhist full 4096 fempty w [] /\ file_allocate full 4096 1 w = UB.
Proof.
  destruct (full_reaches (Z.to_nat INT_MAX)) as (w & Hh & Hc & _); [rewrite Z2Nat.id; [reflexivity|discriminate]|]. exists w. split; [exact Hh|].
  unfold file_allocate. rewrite Hc, Z2Nat.id by discriminate. rewrite Z.leb_refl. reflexivity.
Qed.
Print Assumptions C46_counter_refuted.

(** A zero-byte request always fails. *)
Theorem C46_zero_refuted : forall os page w, 0 < page < 2 ^ 63 -> f_counter w < INT_MAX -> exists w', file_allocate os page 0 w = Throw w' RuntimeError.
Proof.
  intros os page w Hp Hc. assert (E : rounded page 0 = 0).
  { unfold rounded. replace (w64 (0 + (page - 1))) with (page - 1) by (unfold w64, M64; rewrite Z.mod_small; lia). rewrite Z.div_small by lia. reflexivity. }
  unfold file_allocate. destruct (INT_MAX <=? f_counter w) eqn:E1; [lia|]. destruct (negb (o_open os _)); [eexists; reflexivity|]. rewrite E.
  destruct (negb (o_trunc os _) || (2 ^ 63 <=? 0)); [eexists; reflexivity|]. unfold os_mmap. destruct (o_mmap os _ 0); cbn [Z.ltb Z.compare andb]; eexists; reflexivity.
Qed.
Print Assumptions C46_zero_refuted.
