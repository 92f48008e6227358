(** C41: pointer_contains and pointer_overlaps.  C42: relative_fragmentation.  C43: TypedAllocator. *)
From Verif Require Import Base BaseFacts HeapModel StratModel WrapModel QuickPoolModel QuickPoolRun GlobalModel GlobalSpec GlobalRun
  MapModel MapSpec MapThms JudyModel JudyFacts MapMain MapRun SystemModel SystemSpec SystemMain SystemThms SystemRun MiscModel MiscFacts.

(** C41: of base pointers, for all histories of registrations, overlapping or not. *)
Theorem C41_contains : forall g a l ls r rs, ahist JR any_keys (g, a) ->
  records_at (r_ptr l) g = l :: ls -> records_at (r_ptr r) g = r :: rs -> bounded l -> bounded r ->
  exists a' b, pointer_contains JR (r_ptr l) (r_ptr r) a = Ok a' b /\ (b = true <-> owns l (r_ptr r) /\ forall x, owns r x -> owns l x).
Proof. exact (pointer_contains_ok any_keys). Qed.
Print Assumptions C41_contains.

Theorem C41_overlaps : forall g a l ls r rs, ahist JR any_keys (g, a) ->
  records_at (r_ptr l) g = l :: ls -> records_at (r_ptr r) g = r :: rs -> bounded l -> bounded r ->
  exists a' b, pointer_overlaps JR (r_ptr l) (r_ptr r) a = Ok a' b /\
    (b = true <-> owns l (r_ptr r) /\ exists x, owns r x /\ r_ptr l + r_size l <= x).
Proof. exact (pointer_overlaps_ok any_keys). Qed.
Print Assumptions C41_overlaps.

(** C41: of any pointers into allocations that do not overlap, such as the live allocations of a program (the density
    condition is that of C01): containment is sameness, and there is no overlap. *)
Theorem C41_live : forall g a l r kl rl kr rr, ahist JR sparse56 (g, a) -> tidy g -> addr_ok l -> addr_ok r ->
  In (kl, rl) g -> covers rl l -> In (kr, rr) g -> covers rr r ->
  exists a' c, pointer_contains JR l r a = Ok a' c /\ pointer_overlaps JR l r a = Ok a' false /\ (c = true <-> rl = rr /\ r_size rl <> 0).
Proof. exact pointers_inside. Qed.
Print Assumptions C41_live.

Theorem C41_unknown : forall g a l r, ahist JR sparse56 (g, a) -> tidy g -> addr_ok l -> (forall k x, In (k, x) g -> ~ covers x l) ->
  exists a', pointer_contains JR l r a = Throw a' UnknownPointer /\ pointer_overlaps JR l r a = Throw a' UnknownPointer.
Proof. exact pointers_unknown. Qed.
Print Assumptions C41_unknown.

(** Allocations [4096,4160), [4112,4128) inside it, [4144,4192) across its end: contains and overlaps both ways.  Overlap is
    not symmetric. *)
Definition nested : list acall :=
  [AInsert 4096 (mkRec 4096 64 1 0); AInsert 4112 (mkRec 4112 16 2 0); AInsert 4144 (mkRec 4144 48 3 0)].
Definition answer (o : outcome (amap JR) bool) : option bool := match o with Ok _ b => Some b | _ => None end.
Example C41_example :
  aobs (fun _ => true) nested (fun _ a => Some (
    map (fun p => answer (pointer_contains JR (fst p) (snd p) a)) [(4096, 4112); (4112, 4096); (4096, 4144); (4096, 4096)],
    map (fun p => answer (pointer_overlaps JR (fst p) (snd p) a)) [(4096, 4112); (4096, 4144); (4144, 4096); (4096, 4096)]))
  = Some ([Some true; Some false; Some false; Some true], [Some false; Some true; Some false; Some false]).
Proof. vm_compute. reflexivity. Qed.
Example C41_case : exists g a, ahist JR any_keys (g, a) /\
  records_at 4096 g = [mkRec 4096 64 1 0] /\ records_at 4144 g = [mkRec 4144 48 3 0] /\ bounded (mkRec 4096 64 1 0) /\ bounded (mkRec 4144 48 3 0).
Proof.
  destruct (aobs_hist (fun _ => true) any_keys) with (l := nested)
    (f := fun (g : registry) (_ : amap JR) => Some (records_at 4096 g, records_at 4144 g)) (x := ([mkRec 4096 64 1 0], [mkRec 4144 48 3 0])) as (g & a & Hh & Hg).
  - intros P _. exact I.
  - vm_compute. reflexivity.
  - exists g, a. injection Hg as E1 E2. unfold bounded. cbn [r_ptr r_size]. unfold M64. repeat split; auto; lia.
Qed.

(** C42 fails: with two or more records the loop never ends (the iterators are not advanced), and with none the iterator
    is moved past the end. *)
Theorem C42_never_returns_refuted : forall recs, (2 <= length recs)%nat -> forall fuel, relative_fragmentation fuel recs = NoFuel.
Proof. intros [|x1 [|x2 recs]] H fuel; [cbn in H; lia|cbn in H; lia|]. exact (fragmentation_two fuel x1 x2 recs). Qed.
Print Assumptions C42_never_returns_refuted.
Theorem C42_empty_refuted : forall fuel, relative_fragmentation fuel [] = UB.
Proof. reflexivity. Qed.
Print Assumptions C42_empty_refuted.
(** What is left of it. *)
Theorem C42_single_partial : forall r, exists fuel, relative_fragmentation fuel [r] = Ok tt (0, 0).
Proof. intros r. exists 1%nat. reflexivity. Qed.
Print Assumptions C42_single_partial.
Example C42_example : relative_fragmentation 100 [mkRec 4096 64 1 0; mkRec 8192 64 1 0] = NoFuel.
Proof. vm_compute. reflexivity. Qed.

(** C43: while the product is representable the array is a new record with room for every element, the elements apart from
    each other and from everything live. *)
Theorem C43_room : forall C sw g q t i s n sw' p, shist JR any_keys C sw g q t -> usable (C ++ boot) i ->
  0 < s -> 0 <= n -> s * n < M64 -> s * n = 0 \/ user_guard (C ++ boot) i (s * n) (fst sw) ->
  typed_allocate JR (C ++ boot) i s n sw = Ok sw' p ->
  shist JR any_keys C sw' (mkRec p (s * n) (Z.of_nat i) 0 :: g) q (snap (C ++ boot) (fst sw') :: t) /\
  forall k, 0 <= k < n -> (forall r, In r g -> disj (p + s * k, s) (rreg r)) /\ forall j, 0 <= j < n -> j <> k -> disj (p + s * k, s) (p + s * j, s).
Proof. exact typed_ok. Qed.
Print Assumptions C43_room.

(** C43 fails otherwise: 2^60 + 1 elements of 16 bytes are 16 bytes; the next allocation lies inside the array. *)
Theorem C43_wrap_refuted : exists sw q t sw1 p sw2 p', shist JR any_keys [] sw [] q t /\
  typed_allocate JR boot 1 16 (2 ^ 60 + 1) sw = Ok sw1 p /\ sys_allocate JR boot 1 8 0 sw1 = Ok sw2 p' /\ p < p' /\ p' + 8 <= p + 16 * (2 ^ 60 + 1).
Proof.
  destruct (yobs_hist any_addr any_keys any_addr_ok bump []
              (fun C sw g q t => match typed_allocate JR (C ++ boot) 1 16 (2 ^ 60 + 1) sw with
                 | Ok sw1 p => match sys_allocate JR (C ++ boot) 1 8 0 sw1 with
                     | Ok sw2 p' => Some (C, g, (p <? p') && (p' + 8 <=? p + 16 * (2 ^ 60 + 1))) | _ => None end | _ => None end)
              ([], [], true)) as (C & sw & g & q & t & Hh & E).
  - intros d [].
  - vm_compute. reflexivity.
  - destruct (typed_allocate JR (C ++ boot) 1 16 (2 ^ 60 + 1) sw) as [sw1 p| | | |] eqn:E1; try discriminate.
    destruct (sys_allocate JR (C ++ boot) 1 8 0 sw1) as [sw2 p'| | | |] eqn:E2; try discriminate.
    assert (E3 : C = []) by congruence. subst C. injection E as -> E. apply Bool.andb_true_iff in E as [F1 F2]. apply Z.ltb_lt in F1. apply Z.leb_le in F2.
    exists sw, q, t, sw1, p, sw2, p'. auto.
Qed.
Print Assumptions C43_wrap_refuted.

(** Five elements of 24 bytes from HOST, something else live. *)
Example C43_case : exists sw g q t, shist JR any_keys [] sw g q t /\ length g = 1%nat /\ usable boot 1 /\ user_guard boot 1 (24 * 5) (fst sw) /\
  exists sw' p, typed_allocate JR boot 1 24 5 sw = Ok sw' p.
Proof.
  destruct (yobs_hist any_addr any_keys any_addr_ok bump [YAlloc 1 64]
              (fun C sw g q t => match typed_allocate JR (C ++ boot) 1 24 5 sw with Ok sw' _ => Some (C, length g, user_guardb (C ++ boot) 1 (24 * 5) (fst sw)) | _ => None end)
              ([], 1%nat, true)) as (C & sw & g & q & t & Hh & E).
  - intros d [H|[]]; inversion H; subst; exact I.
  - vm_compute. reflexivity.
  - destruct (typed_allocate JR (C ++ boot) 1 24 5 sw) as [sw1 p| | | |] eqn:E1; try discriminate.
    assert (E3 : C = []) by congruence. subst C. assert (E4 : length g = 1%nat) by congruence. assert (F : user_guardb ([] ++ boot) 1 (24 * 5) (fst sw) = true) by congruence. exists sw, g, q, t. split; [exact Hh|]. split; [exact E4|].
    split; [left; reflexivity|]. split; [apply user_guardb_ok; exact F|]. exists sw1, p. exact E1.
Qed.
