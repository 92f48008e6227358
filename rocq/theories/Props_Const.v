(** Property C55: resources that hand out addresses by advancing a counter. *)
From Verif Require Import Base BaseFacts ConstModel ConstSpec ConstFacts.

(** After any history in which the refused requests stay below 2^64 bytes in all: live allocations lie inside the array and
    do not overlap. *)
Theorem C55_disjoint : forall base cuda lim s G t, 0 < base /\ base + CONST <= ASP -> 0 <= lim -> CONST + t + lim < M64 ->
  chist base cuda lim s G t -> good G /\ (forall r, In r G -> inside r (base, CONST)).
Proof.
  intros base cuda lim s G t Hb Hl Ht H. destruct (const_inv base cuda lim Hb s G t H Hl Ht) as (S & T & _). split.
  - apply (stacked_good base); [lia|lia|exact S].
  - intros r Hr. destruct (stacked_in base G S r Hr) as (U & V & W). unfold inside. cbn [fst snd]. lia.
Qed.
Print Assumptions C55_disjoint.

(** As long as nothing was refused for want of room a request is granted exactly when it fits beside the live allocations (and, for CUDA, the
    array has been found). *)
Theorem C55_granted_partial : forall base cuda lim s G found n, 0 < base /\ base + CONST <= ASP -> CONST + lim < M64 ->
  chist base cuda lim s G 0 -> 0 < n <= lim ->
  ((exists s' p, const_allocate base found n s = Ok s' p) <-> total G + n <= CONST /\ (c_init s = true \/ found = true)).
Proof.
  intros base cuda lim s G found n Hb Hl H Hn. assert (HI : cinv base s G 0) by (apply (const_inv base cuda lim Hb s G 0 H); lia).
  pose proof (allocate_cases base lim Hb found n s G 0 HI Hn ltac:(lia)) as C. destruct (const_allocate base found n s) as [s' p|s' e| | |]; try contradiction.
  - destruct C as (_ & E & F & _). apply Bool.orb_true_iff in E. split; [auto|]. intros _. eauto.
  - split; [intros (? & ? & D); discriminate|]. intros (F & E). exfalso. apply Bool.orb_true_iff in E. rewrite E in C. destruct C as [[C|C] _]; lia.
Qed.
Print Assumptions C55_granted_partial.

(** As long as nothing was refused for want of room exactly the last live allocation can be deallocated; others throw and change nothing. *)
Theorem C55_reverse_order_partial : forall base cuda lim s G1 p n G2, 0 < base /\ base + CONST <= ASP -> 0 <= lim -> CONST + lim < M64 ->
  chist base cuda lim s (G1 ++ (p, n) :: G2) 0 ->
  match const_deallocate base p n s with
  | Ok s' _ => G1 = []
  | Throw s' e => G1 <> [] /\ s' = s /\ e = RuntimeError
  | _ => False
  end.
Proof.
  intros base cuda lim s G1 p n G2 Hb Hl Hl2 H. assert (HI : cinv base s (G1 ++ (p, n) :: G2) 0) by (apply (const_inv base cuda lim Hb s _ 0 H); lia).
  pose proof (deallocate_cases base Hb p n s G1 G2 0 HI ltac:(lia)) as C. unfold const_deallocate in *. destruct (_ =? p); [tauto|].
  destruct C as [[C|C] _]; [lia|auto].
Qed.
Print Assumptions C55_reverse_order_partial.

(** Whatever the state: what is refused is a runtime_error (never an out_of_memory_error), and a refusal leaves the state alone unless the array was
    found; then the offset has moved by the request. *)
Theorem C55_kind : forall base found n s,
  match const_allocate base found n s with
  | Ok s' p => c_init s' = true
  | Throw s' e => e = RuntimeError /\ (c_init s = false /\ found = false /\ s' = s \/ c_init s' = true /\ c_off s' = (c_off s + n) mod 2 ^ 64)
  | _ => False
  end.
Proof.
  intros base found n s. unfold const_allocate. destruct (c_init s) eqn:E, found; cbn [negb andb]; try destruct (_ <? _); cbn; auto.
Qed.
Print Assumptions C55_kind.

Definition AT : Z := 2 ^ 40.

(** Two allocations of 100 and 200 bytes, the second given back, another of 300; the oldest cannot be given back. *)
Example C55_case : exists s, chist AT true 1000 s [(AT + 100, 300); (AT, 100)] 0 /\ const_deallocate AT AT 100 s = Throw s RuntimeError.
Proof.
  pose proof (ch_start AT true 1000) as H.
  eapply (ch_refused AT true 1000 _ _ _ false 50) in H; [|lia|vm_compute; reflexivity].
  eapply (ch_alloc AT true 1000 _ _ _ true 100) in H; [|lia|vm_compute; reflexivity].
  eapply (ch_alloc AT true 1000 _ _ _ true 200) in H; [|lia|vm_compute; reflexivity].
  eapply (ch_free AT true 1000 _ []) in H; [|vm_compute; reflexivity].
  eapply (ch_alloc AT true 1000 _ _ _ true 300) in H; [|lia|vm_compute; reflexivity].
  eexists. split; [exact H|vm_compute; reflexivity].
Qed.

(** With refusals the claim fails: once a request has been refused for want of room, every later one is, however small, and no live allocation can be
    given back: the offset is advanced before the check.  Stated for all histories; the witness follows. *)
Theorem C55_refused_sticks : forall base cuda lim s G t, 0 < base /\ base + CONST <= ASP -> 0 <= lim -> CONST + t + lim < M64 ->
  chist base cuda lim s G t -> 0 < t ->
  (forall found n, 0 < n <= lim -> exists s' e, const_allocate base found n s = Throw s' e) /\
  (forall p n, In (p, n) G -> const_deallocate base p n s = Throw s RuntimeError).
Proof.
  intros base cuda lim s G t Hb Hl Ht H Hpos. pose proof (const_inv base cuda lim Hb s G t H Hl Ht) as HI. split.
  - intros found n Hn. pose proof (allocate_cases base lim Hb found n s G t HI Hn Ht) as C.
    destruct (const_allocate base found n s) as [s' p|s' e| | |]; try contradiction; [|eauto]. destruct C as [-> _]. lia.
  - intros p n Hin. apply in_split in Hin. destruct Hin as (G1 & G2 & ->).
    pose proof (deallocate_cases base Hb p n s G1 G2 t HI ltac:(lia)) as C. unfold const_deallocate in *.
    destruct (_ =? p); [|reflexivity]. destruct C as [-> _]. lia.
Qed.
Print Assumptions C55_refused_sticks.

(** 100 of 65536 bytes are live, 70000 are asked for in vain; one byte is refused and the 100 cannot be given back. *)
Example C55_refused_case : exists s, chist AT false 70000 s [(AT, 100)] 70000.
Proof.
  pose proof (ch_start AT false 70000) as H.
  eapply (ch_alloc AT false 70000 _ _ _ true 100) in H; [|lia|vm_compute; reflexivity].
  eapply (ch_refused AT false 70000 _ _ _ true 70000) in H; [|lia|vm_compute; reflexivity].
  eexists. exact H.
Qed.

(** The full claim, refused requests included, is therefore false: one byte of 65436 free ones is refused, and the only live allocation cannot
    be given back. *)
Theorem C55_after_refusal_refuted : exists base cuda lim s t p n e s', 0 < base /\ base + CONST <= ASP /\ CONST + t + lim < M64 /\
  chist base cuda lim s [(p, n)] t /\ total [(p, n)] + 1 <= CONST /\
  const_allocate base true 1 s = Throw s' e /\ const_deallocate base p n s = Throw s RuntimeError.
Proof.
  pose proof (ch_start AT false 70000) as H.
  eapply (ch_alloc AT false 70000 _ _ _ true 100) in H; [|lia|vm_compute; reflexivity].
  eapply (ch_refused AT false 70000 _ _ _ true 70000) in H; [|lia|vm_compute; reflexivity].
  do 9 eexists. split; [|split; [|split; [|split; [exact H|]]]]; [reflexivity|discriminate|reflexivity|].
  split; [discriminate|]. split; vm_compute; reflexivity.
Qed.
Print Assumptions C55_after_refusal_refuted.

(** Refuted for requests near 2^64 bytes: the offset wraps, the request is granted and later allocations overlap live ones. *)
Theorem C55_wrap_refuted : exists base cuda s G, 0 < base /\ base + CONST <= ASP /\ chist base cuda (M64 - 1) s G 0 /\ ~ pairwise disj G.
Proof.
  pose proof (ch_start AT false (M64 - 1)) as H.
  eapply (ch_alloc AT false (M64 - 1) _ _ _ true 100) in H; [|unfold M64; lia|vm_compute; reflexivity].
  eapply (ch_alloc AT false (M64 - 1) _ _ _ true (M64 - 50)) in H; [|unfold M64; lia|vm_compute; reflexivity].
  eapply (ch_alloc AT false (M64 - 1) _ _ _ true 20) in H; [|unfold M64; lia|vm_compute; reflexivity].
  exists AT, false. eexists. eexists. split; [reflexivity|]. split; [discriminate|]. split; [exact H|].
  intros [D _]. specialize (D (AT, 100)). destruct D as [D|D]; [cbn; auto| |]; cbn in D; lia.
Qed.
Print Assumptions C55_wrap_refuted.

(** NoOpMemoryResource: no address is handed out twice, deallocated or not, and none is null, until 2^64 - 2^48 bytes have been asked for. *)
Theorem C55_noop_unique : forall s A, nhist s A -> noop_start + total A < M64 -> pairwise disj A /\ (forall r, In r A -> 2 ^ 48 <= fst r).
Proof.
  intros s A H HT. destruct (noop_inv s A H HT) as [S _]. split; [exact (stacked_pairwise _ _ S)|].
  intros r Hr. destruct (stacked_in _ _ S r Hr) as [U _]. exact U.
Qed.
Print Assumptions C55_noop_unique.

Example C55_noop_case : exists s, nhist s [(2 ^ 48 + 10, 5); (2 ^ 48, 10)].
Proof.
  pose proof nh_start as H. eapply (nh_alloc _ _ 10) in H; [|unfold M64; lia|vm_compute; reflexivity].
  eapply (nh_free _ _ (2 ^ 48) 10) in H; [|vm_compute; reflexivity].
  eapply (nh_alloc _ _ 5) in H; [|unfold M64; lia|vm_compute; reflexivity]. eexists. exact H.
Qed.

(** Afterwards the counter wraps: null is handed out, and then addresses again. *)
Theorem C55_noop_wrap_refuted : exists s A, nhist s A /\ In (0, 1) A.
Proof.
  pose proof nh_start as H. eapply (nh_alloc _ _ (M64 - 2 ^ 48)) in H; [|unfold M64; lia|vm_compute; reflexivity].
  eapply (nh_alloc _ _ 1) in H; [|unfold M64; lia|vm_compute; reflexivity]. eexists. eexists. split; [exact H|left; reflexivity].
Qed.
Print Assumptions C55_noop_wrap_refuted.
