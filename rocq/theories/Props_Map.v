(** Properties C01, C02, C03 (AllocationMap) and C40 (MemoryMap), over the Judy array of judy.c.
    Histories: [ahist] and [mhist] (MapSpec.v); [registry] is the list of live registrations. *)
From Coq Require Import Permutation.
From Verif Require Import Base MapModel MapSpec MapFacts MapThms JudyModel JudyUpdate AllocMapThms MapRun MapMain.

(** C01: with live registrations that do not overlap, exactly the addresses of live allocations are
    found, each with its own record.  [sparse56]: no 57 live keys differ in the last byte only. *)
Theorem C01_lookup_exact :
  forall g a p, ahist JR sparse56 (g, a) -> tidy g -> addr_ok p ->
    (forall k r, In (k, r) g -> covers r p -> exists a', am_find JR p a = Ok a' r /\ am_contains JR p a = Ok a' true) /\
    ((forall k r, In (k, r) g -> ~ covers r p) -> exists a', am_find JR p a = Throw a' UnknownPointer /\ am_contains JR p a = Ok a' false).
Proof. exact mp_lookup. Qed.
Print Assumptions C01_lookup_exact.

(** C01: in particular while all registered addresses are multiples of 16, as malloc's are. *)
Theorem C01_lookup_exact_aligned :
  forall g a p, ahist JR aligned16 (g, a) -> tidy g -> addr_ok p ->
    (forall k r, In (k, r) g -> covers r p -> exists a', am_find JR p a = Ok a' r /\ am_contains JR p a = Ok a' true) /\
    ((forall k r, In (k, r) g -> ~ covers r p) -> exists a', am_find JR p a = Throw a' UnknownPointer /\ am_contains JR p a = Ok a' false).
Proof. exact mp_lookup_aligned. Qed.
Print Assumptions C01_lookup_exact_aligned.

(** C01: what lookup does whether or not registrations overlap: only the newest record of the
    nearest address at or below is considered. *)
Theorem C01_lookup_nearest :
  forall g a p, ahist JR sparse56 (g, a) -> addr_ok p ->
    exists a' res, am_find_record JR p a = Ok a' res /\
      ((exists k r rs, records_at k g = r :: rs /\ k <= p /\ (forall x, registered g x -> x <= p -> x <= k) /\
         res = if (p <? w64 (r_ptr r + r_size r)) || (r_ptr r =? p) then Some r else None) \/
       ((forall x, registered g x -> p < x) /\ res = None)).
Proof. exact mp_nearest. Qed.
Print Assumptions C01_lookup_nearest.

(** Three allocations of 40, 0 and 64 bytes, one of 24 freed again. *)
Definition three : list acall :=
  [AInsert 4096 (mkRec 4096 40 1 0); AInsert 4160 (mkRec 4160 24 1 0); AInsert 4192 (mkRec 4192 0 2 0);
   AInsert 8192 (mkRec 8192 64 1 0); ARemove 4160].

Definition look (p : Z) (l : list acall) : option (option arec) :=
  aobs (fun x => x mod 16 =? 0) l (fun _ a =>
    match am_find JR p a with Ok _ r => Some (Some r) | Throw _ UnknownPointer => Some None | _ => None end).

Example C01_example :
  map (fun p => look p three) [4095; 4096; 4135; 4136; 4160; 4192; 4193; 8192; 8255; 8256] =
  [Some None; Some (Some (mkRec 4096 40 1 0)); Some (Some (mkRec 4096 40 1 0)); Some None; Some None;
   Some (Some (mkRec 4192 0 2 0)); Some None; Some (Some (mkRec 8192 64 1 0)); Some (Some (mkRec 8192 64 1 0)); Some None].
Proof. vm_compute. reflexivity. Qed.

Definition three_left : registry := [(8192, mkRec 8192 64 1 0); (4192, mkRec 4192 0 2 0); (4096, mkRec 4096 40 1 0)].

Example C01_example_hyps : exists a, ahist JR aligned16 (three_left, a) /\ tidy three_left.
Proof.
  destruct (aobs_hist (fun x => x mod 16 =? 0) aligned16) with (l := three) (f := fun (g : registry) (a : amap JR) => Some g)
    (x := three_left) as (g & a & Hh & Hg).
  - intros P HP x Hx. specialize (HP x Hx). apply Z.mod_divide; [discriminate|]. now apply Z.eqb_eq.
  - vm_compute. reflexivity.
  - injection Hg as ->. exists a. split; auto. split.
    + intros k r [H|[H|[H|[]]]]; injection H as <- <-; cbn [r_ptr r_size]; unfold M64; lia.
    + cbn [pairwise three_left]. split; [|split; [|split; [intros b []|exact I]]].
      * intros b [<-|[<-|[]]] x; unfold covers; cbn [snd r_ptr r_size]; lia.
      * intros b [<-|[]] x; unfold covers; cbn [snd r_ptr r_size]; lia.
Qed.

(** C01 fails for 57 allocations of two bytes in a row: an address inside one of them is not found,
    because judy_prv (judy.c:1089) returns the first cell of a group of 16 instead of the last before.
    With one allocation less it is found. *)
Definition dense (n : nat) : list acall :=
  map (fun i => AInsert (4096 + 2 * Z.of_nat i) (mkRec (4096 + 2 * Z.of_nat i) 2 1 0)) (seq 0 n).

Definition look_any (p : Z) (l : list acall) : option (option arec) :=
  aobs (fun _ => true) l (fun _ a =>
    match am_find JR p a with Ok _ r => Some (Some r) | Throw _ UnknownPointer => Some None | _ => None end).

Definition dense_registry (n : nat) : registry :=
  rev (map (fun i => (4096 + 2 * Z.of_nat i, mkRec (4096 + 2 * Z.of_nat i) 2 1 0)) (seq 0 n)).

Theorem C01_dense_keys_refuted :
  exists a r, ahist JR any_keys (dense_registry 57, a) /\ In (4188, r) (dense_registry 57) /\ covers r 4189 /\
    exists a', am_find JR 4189 a = Throw a' UnknownPointer.
Proof.
  destruct (aobs_hist (fun _ => true) any_keys) with (l := dense 57)
    (f := fun (g : registry) (a : amap JR) => match am_find JR 4189 a with Throw _ UnknownPointer => Some g | _ => None end)
    (x := dense_registry 57) as (g & a & Hh & Hg).
  - intros P _. exact I.
  - vm_compute. reflexivity.
  - destruct (am_find JR 4189 a) as [|a' []| | |] eqn:E; try discriminate. injection Hg as ->.
    exists a, (mkRec 4188 2 1 0). split; auto. split; [vm_compute; tauto|]. split; [unfold covers; cbn [r_ptr r_size]; lia|]. exists a'. exact E.
Qed.
Print Assumptions C01_dense_keys_refuted.

Example C01_dense_56 : look_any 4189 (dense 56) = Some (Some (mkRec 4188 2 1 0)).
Proof. vm_compute. reflexivity. Qed.

(** C01 needs registrations that do not nest: inside an allocation with a registered part of it, an
    address behind the part is not found. *)
Example C01_nested :
  look 4200 [AInsert 4096 (mkRec 4096 512 1 0); AInsert 4160 (mkRec 4160 16 2 0)] = Some None.
Proof. vm_compute. reflexivity. Qed.

(** C02: a registration always succeeds and adds one record. *)
Theorem C02_register :
  forall g a k r, ahist JR any_keys (g, a) -> addr_ok k ->
    exists a', am_insert JR k r a = Ok a' tt /\ ahist JR any_keys ((k, r) :: g, a').
Proof. exact mp_register. Qed.
Print Assumptions C02_register.

(** C02: deregistration returns the newest record of the address and leaves all others; without
    one it fails and changes nothing. *)
Theorem C02_deregister :
  forall g a k, ahist JR any_keys (g, a) -> addr_ok k ->
    (exists a', am_remove JR k a = match records_at k g with r :: _ => Ok a' r | [] => Throw a' RuntimeError end /\
                ahist JR any_keys (drop_newest k g, a')) /\
    (forall x, records_at x (drop_newest k g) = if x =? k then tl (records_at k g) else records_at x g) /\
    (records_at k g = [] -> drop_newest k g = g).
Proof. exact mp_deregister. Qed.
Print Assumptions C02_deregister.

(** C02: lookup sees the newest record. *)
Theorem C02_newest_visible :
  forall g a k r rs, ahist JR sparse56 (g, a) -> records_at k g = r :: rs -> r_ptr r = k -> addr_ok k ->
    exists a', am_find JR k a = Ok a' r.
Proof. exact mp_visible. Qed.
Print Assumptions C02_newest_visible.

(** C02: the number of live records. *)
Theorem C02_count :
  forall g a, ahist JR any_keys (g, a) -> am_size JR a = w64 (Z.of_nat (length g)).
Proof. exact mp_count. Qed.
Print Assumptions C02_count.

(** Two records at one address. *)
Definition two_deep : list acall := [AInsert 4096 (mkRec 4096 64 1 0); AInsert 4096 (mkRec 4096 32 2 0)].

Example C02_example :
  aobs (fun _ => true) two_deep (fun g a =>
    match am_find JR 4096 a with
    | Ok _ r2 => match am_remove JR 4096 a with
                 | Ok a1 r2' => match am_find JR 4096 a1 with
                                | Ok _ r1 => match am_remove JR 4096 a1 with
                                             | Ok a2 r1' => match am_remove JR 4096 a2 with
                                                            | Throw a3 RuntimeError => Some (r2, r2', r1, r1', (am_size JR a, am_size JR a1, am_size JR a3))
                                                            | _ => None end
                                             | _ => None end
                                | _ => None end
                 | _ => None end
    | _ => None end)
  = Some (mkRec 4096 32 2 0, mkRec 4096 32 2 0, mkRec 4096 64 1 0, mkRec 4096 64 1 0, (2, 1, 0)).
Proof. vm_compute. reflexivity. Qed.

Example C02_example_hyps : exists g a, ahist JR any_keys (g, a) /\ length (records_at 4096 g) = 2%nat.
Proof.
  destruct (aobs_hist (fun _ => true) any_keys) with (l := two_deep)
    (f := fun (g : registry) (_ : amap JR) => Some (length (records_at 4096 g))) (x := 2%nat) as (g & a & Hh & Hg).
  - intros P _. exact I.
  - vm_compute. reflexivity.
  - exists g, a. split; auto. congruence.
Qed.

(** C03: a walk lists every live record once: by address, newest first. *)
Theorem C03_listing :
  forall g a fuel addr, ahist JR any_keys (g, a) -> ~ registered g 0 -> (length g < fuel)%nat -> addr <> 0 ->
    exists a' l, am_records JR fuel addr a = Ok a' l /\ Permutation l (map snd g) /\
      exists ks, ascending ks /\ (forall x, In x ks <-> registered g x) /\ l = flat_map (fun k => records_at k g) ks.
Proof. exact mp_listing. Qed.
Print Assumptions C03_listing.

(** C03: the records of one allocator (get_allocator_records, get_leaked_allocations). *)
Theorem C03_listing_of_allocator :
  forall g a fuel addr addr' s, ahist JR any_keys (g, a) -> ~ registered g 0 -> (length g < fuel)%nat -> addr <> 0 ->
    exists a' l, am_records_of JR fuel addr addr' s a = Ok a' l /\ Permutation l (filter (fun r => r_strat r =? s) (map snd g)).
Proof. exact mp_listing_of. Qed.
Print Assumptions C03_listing_of_allocator.

Definition mixed_five : list acall :=
  [AInsert 8192 (mkRec 8192 64 1 0); AInsert 4096 (mkRec 4096 64 1 0); AInsert 4096 (mkRec 4096 32 2 0);
   AInsert 4160 (mkRec 4160 8 2 0); AInsert 65536 (mkRec 65536 8 1 0)].

Example C03_example :
  aobs (fun _ => true) mixed_five (fun g a =>
    match am_records JR 6 77 a, am_records_of JR 6 77 78 2 a with Ok _ l, Ok _ l' => Some (map r_ptr l, map r_size l, map r_size l') | _, _ => None end)
  = Some ([4096; 4096; 4160; 8192; 65536], [32; 64; 8; 64; 8], [32; 8]).
Proof. vm_compute. reflexivity. Qed.

Example C03_example_hyps : exists g a, ahist JR any_keys (g, a) /\ ~ registered g 0 /\ length g = 5%nat.
Proof.
  destruct (aobs_hist (fun _ => true) any_keys) with (l := mixed_five)
    (f := fun (g : registry) (_ : amap JR) => Some (map fst g)) (x := [65536; 4160; 4096; 4096; 8192]) as (g & a & Hh & Hg).
  - intros P _. exact I.
  - vm_compute. reflexivity.
  - exists g, a. split; auto. injection Hg as Hg. split.
    + unfold registered. rewrite Hg. simpl. lia.
    + rewrite <- (map_length fst), Hg. reflexivity.
Qed.

(** C03 needs no record at the null address: with one, the listing is empty. *)
Theorem C03_null_key_refuted :
  exists g a, ahist JR any_keys (g, a) /\ length g = 2%nat /\ exists a', am_records JR 3 77 a = Ok a' [].
Proof.
  destruct (aobs_hist (fun _ => true) any_keys) with (l := [AInsert 0 (mkRec 0 8 1 0); AInsert 4096 (mkRec 4096 8 1 0)])
    (f := fun (g : registry) (a : amap JR) => match am_records JR 3 77 a with Ok _ [] => Some (length g) | _ => None end) (x := 2%nat) as (g & a & Hh & Hg).
  - intros P _. exact I.
  - vm_compute. reflexivity.
  - exists g, a. split; auto. destruct (am_records JR 3 77 a) as [a' []| | | |] eqn:E; try discriminate. split; [congruence|]. exists a'. reflexivity.
Qed.
Print Assumptions C03_null_key_refuted.

(** C40: the pointer map against a finite map [ms_spec]. *)
Theorem C40_insert :
  forall (V : Type) (s : mstate (judy_array V)) k v, mhist (judy_array V) any_keys s -> addr_ok k ->
    exists mm', mm_insert (judy_array V) k v (ms_map _ s) =
      (mm', (k, Some (match ms_spec _ s k with Some v0 => v0 | None => v end)),
       match ms_spec _ s k with Some _ => false | None => true end).
Proof. exact @mp_insert. Qed.
Print Assumptions C40_insert.

Theorem C40_find :
  forall (V : Type) (s : mstate (judy_array V)) k, mhist (judy_array V) any_keys s -> addr_ok k ->
    exists mm' k', mm_find (judy_array V) k (ms_map _ s) = (mm', (k', ms_spec _ s k)) /\ (dom (ms_spec _ s) k -> k' = k).
Proof. exact @mp_find. Qed.
Print Assumptions C40_find.

Theorem C40_find_or_before :
  forall (V : Type) (s : mstate (judy_array V)) k, mhist (judy_array V) sparse56 s -> addr_ok k ->
    exists mm' k' ov, mm_find_or_before (judy_array V) k (ms_map _ s) = (mm', (k', ov)) /\
      match ov with
      | Some v => greatest_below (ms_spec _ s) (Some (k + 1)) k' v
      | None => forall x, dom (ms_spec _ s) x -> k < x
      end.
Proof. exact @mp_find_or_before. Qed.
Print Assumptions C40_find_or_before.

Theorem C40_erase :
  forall (V : Type) (s : mstate (judy_array V)) k, mhist (judy_array V) any_keys s -> addr_ok k -> dom (ms_spec _ s) k ->
    exists mm', mm_erase (judy_array V) k (ms_map _ s) = Ok mm' tt.
Proof. exact @mp_erase. Qed.
Print Assumptions C40_erase.

Theorem C40_clear :
  forall (V : Type) (s : mstate (judy_array V)) ks fuel, mhist (judy_array V) any_keys s -> keys_of (ms_spec _ s) ks -> (length ks < fuel)%nat ->
    exists mm', mm_clear (judy_array V) fuel (ms_map _ s) = Ok mm' tt.
Proof. exact @mp_clear. Qed.
Print Assumptions C40_clear.

Theorem C40_size :
  forall (V : Type) (s : mstate (judy_array V)), mhist (judy_array V) any_keys s ->
    exists ks, keys_of (ms_spec _ s) ks /\ mm_size (ms_map _ s) = w64 (Z.of_nat (length ks)).
Proof. exact @mp_size. Qed.
Print Assumptions C40_size.

(** C40: an iterator moves to the next key, whatever was done to the map since it last moved. *)
Theorem C40_next :
  forall (V : Type) (s : mstate (judy_array V)) a it, mhist (judy_array V) any_keys s -> ms_its _ s a = Some it -> it_key it <> 0 ->
    exists mm' it', mi_next (judy_array V) it (ms_map _ s) = (mm', it') /\ it_addr it' = a /\
      ((exists k v, least_above (ms_spec _ s) (Some (it_key it)) k v /\ it_key it' = k /\ it_val it' = Some v) \/
       ((forall x, dom (ms_spec _ s) x -> x <= it_key it) /\ mi_eq it' (mi_end 0) = true)).
Proof. exact @mp_next. Qed.
Print Assumptions C40_next.

Theorem C40_walk :
  forall (V : Type) (s : mstate (judy_array V)) a ks, mhist (judy_array V) any_keys s -> keys_of (ms_spec _ s) ks -> ~ dom (ms_spec _ s) 0 ->
    exists l mm1 mm2 it, mi_begin (judy_array V) a (ms_map _ s) = (mm1, it) /\
      mi_walk (judy_array V) (S (length ks)) it mm1 = Some (mm2, l) /\
      ascending (map fst l) /\ forall k ov, In (k, ov) l <-> dom (ms_spec _ s) k /\ ov = ms_spec _ s k.
Proof. exact @mp_walk. Qed.
Print Assumptions C40_walk.

(** Three keys inserted in no order, one twice, one erased, an iterator left on the erased key. *)
Definition some_calls : list (@mcall Z) :=
  [MInsert 48 1; MInsert 16 2; MInsert 80 3; MInsert 16 9; MBegin 7; MNext 7; MErase 48; MInsert 64 4].

Example C40_example :
  mobs (fun x => x mod 16 =? 0) some_calls (fun s =>
    let mm := ms_map _ s in
    match ms_its _ s 7 with
    | Some it => Some (snd (mm_find _ 16 mm), snd (mm_find _ 48 mm), snd (mm_find_or_before _ 79 mm), it_key it, it_key (snd (mi_next _ it mm)), mm_size mm,
                       match mi_walk _ 4 (snd (mi_begin _ 9 mm)) (fst (mi_begin _ 9 mm)) with Some x => snd x | None => [] end)
    | None => None
    end)
  = Some ((16, Some 2), (0, None), (64, Some 4), 48, 64, 3, [(16, Some 2); (64, Some 4); (80, Some 3)]).
Proof. vm_compute. reflexivity. Qed.

Example C40_example_hyps : exists s, mhist (judy_array Z) sparse56 s /\ mm_size (ms_map _ s) = 3.
Proof.
  destruct (mobs_hist (fun x => x mod 16 =? 0) sparse56) with (l := some_calls)
    (f := fun s : mstate (judy_array Z) => Some (mm_size (ms_map _ s))) (x := 3) as (s & Hh & Hs).
  - intros P HP. apply aligned16_sparse. intros x Hx. specialize (HP x Hx). apply Z.mod_divide; [discriminate|]. now apply Z.eqb_eq.
  - vm_compute. reflexivity.
  - exists s. split; auto. congruence.
Qed.

(** C40 fails for 57 keys that differ in the last byte: findOrBefore gives the value of another key. *)
Theorem C40_find_or_before_refuted :
  exists s : mstate (judy_array Z), mhist (judy_array Z) any_keys s /\ ms_spec _ s 4152 = Some 56 /\
    exists mm', mm_find_or_before (judy_array Z) 5000 (ms_map _ s) = (mm', (4152, Some 48)).
Proof.
  destruct (mobs_hist (fun _ => true) any_keys) with (l := map (fun i => MInsert (4096 + Z.of_nat i) (Z.of_nat i)) (seq 0 57))
    (f := fun s : mstate (judy_array Z) => Some (snd (mm_find_or_before _ 5000 (ms_map _ s)), ms_spec _ s 4152)) (x := ((4152, Some 48), Some 56)) as (s & Hh & Hs).
  - intros P _. exact I.
  - vm_compute. reflexivity.
  - exists s. split; auto. injection Hs as H1 H2. split; auto. exists (fst (mm_find_or_before (judy_array Z) 5000 (ms_map _ s))).
    destruct (mm_find_or_before _ _ _) as [mm' kv]. cbn [fst snd] in *. now rewrite H1.
Qed.
Print Assumptions C40_find_or_before_refuted.

(** C40: erasing an absent key is an error, but not for every key: here it is undefined. *)
Theorem C40_erase_absent_refuted :
  exists s : mstate (judy_array Z), mhist (judy_array Z) sparse56 s /\ ms_spec _ s 256 = None /\
    mm_erase (judy_array Z) 256 (ms_map _ s) = UB /\
    exists mm', mm_find (judy_array Z) 256 (ms_map _ s) = (mm', (256, None)).
Proof.
  destruct (mobs_hist (fun x => (x mod 256 =? 16) || (x mod 256 =? 32)) sparse56) with
    (l := flat_map (fun i => [MInsert (256 * Z.of_nat i + 16) 1; MInsert (256 * Z.of_nat i + 32) 2]) (seq 0 60))
    (f := fun s : mstate (judy_array Z) =>
       match mm_erase _ 256 (ms_map _ s) with UB => Some (snd (mm_find _ 256 (ms_map _ s)), ms_spec _ s 256) | _ => None end)
    (x := ((256, @None Z), @None Z)) as (s & Hh & Hs).
  - intros P HP. apply aligned16_sparse. intros x Hx. specialize (HP x Hx). apply Z.mod_divide; [discriminate|].
    rewrite (Z.div_mod x 256) at 1 by discriminate. rewrite Z.add_comm, <- Z.add_mod_idemp_r, Z.mul_comm by discriminate.
    replace (x / 256 * 256) with (x / 256 * 16 * 16) by lia. rewrite Z.mod_mul, Z.add_0_r by discriminate.
    apply orb_true_iff in HP as [HP|HP]; apply Z.eqb_eq in HP; rewrite HP; reflexivity.
  - vm_compute. reflexivity.
  - exists s. split; auto. destruct (mm_erase (judy_array Z) 256 (ms_map _ s)) eqn:E; try discriminate. injection Hs as H1 H2. split; auto. split; auto.
    exists (fst (mm_find (judy_array Z) 256 (ms_map _ s))). destruct (mm_find _ _ _) as [mm' kv]. cbn [fst snd] in *. now rewrite H1.
Qed.
Print Assumptions C40_erase_absent_refuted.

(** C40: insert of a pair (MemoryMap.inl:68-84) reports the opposite of what it did. *)
Theorem C40_insert_pair_refuted :
  exists mm', mm_insert_pair (judy_array Z) 16 5 (mm_init _) = (mm', (16, Some 5), false).
Proof.
  assert (E : (snd (fst (mm_insert_pair (judy_array Z) 16 5 (mm_init _))), snd (mm_insert_pair (judy_array Z) 16 5 (mm_init _)))
    = ((16, Some 5), false)) by (vm_compute; reflexivity).
  destruct (mm_insert_pair (judy_array Z) 16 5 (mm_init _)) as [[mm' kv] b]. cbn [fst snd] in E. injection E as E1 E2.
  exists mm'. rewrite E1, E2. reflexivity.
Qed.
Print Assumptions C40_insert_pair_refuted.

(** C40: assigning an iterator to the one that moved last does not move the cursor: the copy of an
    iterator at 16 then steps to 64, over 32 and 48. *)
Theorem C40_assigned_iterator_refuted :
  exists s : mstate (judy_array Z), mhist (judy_array Z) sparse56 s /\ dom (ms_spec _ s) 32 /\
    exists it, ms_its _ s 8 = Some it /\ it_key it = 16 /\
      it_key (snd (mi_next (judy_array Z) (mkIt 7 (it_key it) (it_val it)) (ms_map _ s))) = 64.
Proof.
  destruct (mobs_hist (fun x => x mod 16 =? 0) sparse56) with
    (l := [MInsert 16 1; MInsert 32 2; MInsert 48 3; MInsert 64 4; MBegin 8; MBegin 7; MNext 7; MNext 7])
    (f := fun s : mstate (judy_array Z) =>
       match ms_its _ s 8 with
       | Some it => Some (it_key it, ms_spec _ s 32, it_key (snd (mi_next _ (mkIt 7 (it_key it) (it_val it)) (ms_map _ s))))
       | None => None
       end)
    (x := (16, Some 2, 64)) as (s & Hh & Hs).
  - intros P HP. apply aligned16_sparse. intros x Hx. specialize (HP x Hx). apply Z.mod_divide; [discriminate|]. now apply Z.eqb_eq.
  - vm_compute. reflexivity.
  - exists s. split; auto. destruct (ms_its (judy_array Z) s 8) as [it|] eqn:E; [|discriminate]. injection Hs as H1 H2 H3.
    split; [unfold dom; rewrite H2; discriminate|]. exists it. auto.
Qed.
Print Assumptions C40_assigned_iterator_refuted.
