(** Property C85: memory that Umpire did not allocate, registered by the program.  [ehist], [filed]: ExtSpec.v; [g] are the live
    allocations of Umpire, [x] the external registrations, newest first. *)
From Verif Require Import Base HeapModel StratModel QuickPoolModel QuickPoolRun GlobalModel GlobalSpec GlobalRun MapModel MapSpec JudyModel
  MapMain MapRun SystemModel SystemSpec SystemThms SystemRun ExtModel ExtSpec ExtRun ExtFacts.

(** C85: registrations and withdrawals of external memory leave the allocators as they would be without them. *)
Theorem C85_transparent :
  forall C sw g x q t, ehist JR any_keys C sw g x q t -> exists a, shist JR any_keys C (fst sw, a) g q t.
Proof. exact (ex_without any_keys any_keys_monotone). Qed.
Print Assumptions C85_transparent.

(** C85: statistics count the allocations made through the allocator, and nothing external. *)
Theorem C85_statistics :
  forall C sw g x q t i, ehist JR any_keys C sw g x q t -> (i <= length (C ++ boot))%nat -> ~ In i q -> never_null (kind_at (C ++ boot) i) ->
    allocation_count (C ++ boot) i (fst sw) = Z.of_nat (length (mine i g)) /\
    (own_stats (kind_at (C ++ boot) i) -> current_size (C ++ boot) i (fst sw) = bytes (mine i g)).
Proof. exact (ex_statistics any_keys any_keys_monotone). Qed.
Print Assumptions C85_statistics.

(** C85: the registry holds the allocations and the external registrations together: each is found at its address (of several
    external ones the newest), all are counted and listed, and listed with the allocator their record names. *)
Theorem C85_registry :
  forall C sw g x q t, ehist JR any_keys C sw g x q t ->
    (forall r, In r g -> exists a', am_find JR (r_ptr r) (snd sw) = Ok a' r) /\
    (forall k r rs, records_at k x = r :: rs -> r_ptr r = k -> exists a', am_find JR k (snd sw) = Ok a' r) /\
    am_size JR (snd sw) = w64 (Z.of_nat (length g + length x)) /\
    forall fuel addr, (length g + length x < fuel)%nat -> addr <> 0 ->
      (exists a' l, am_records JR fuel addr (snd sw) = Ok a' l /\ Permutation l (g ++ map snd x)) /\
      forall addr' s, exists a' l, am_records_of JR fuel addr addr' s (snd sw) = Ok a' l /\
        Permutation l (filter (fun r => r_strat r =? s) (g ++ map snd x)).
Proof. exact (ex_registry any_keys any_keys_monotone). Qed.
Print Assumptions C85_registry.

(** C85: an address other than null can be registered, whatever the record says; the null pointer is refused. *)
Theorem C85_register :
  forall C sw g x q t events k r, ehist JR any_keys C sw g x q t -> addr_ok k -> ~ keyed g k -> (events = true -> r_strat r <> no_strategy) ->
    if k =? 0 then ext_register JR (C ++ boot) events k r sw = Throw sw RuntimeError
    else exists a', ext_register JR (C ++ boot) events k r sw = Ok (fst sw, a') tt /\ ehist JR any_keys C (fst sw, a') g ((k, r) :: x) q t.
Proof. intros C sw g x q t events k r H Hk Hg He. exact (ex_register any_keys any_keys_monotone C sw g x q t events k r H Hk Hg He I). Qed.
Print Assumptions C85_register.

(** C85: withdrawing gives back the record of the newest registration of the address, and uncovers the one before it; where there is
    none it throws and changes nothing. *)
Theorem C85_deregister :
  forall C sw g x q t k, ehist JR any_keys C sw g x q t -> addr_ok k -> ~ keyed g k ->
    exists a', ext_deregister JR (C ++ boot) k sw = match records_at k x with r :: _ => Ok (fst sw, a') r | [] => Throw (fst sw, a') RuntimeError end /\
      ehist JR any_keys C (fst sw, a') g (drop_newest k x) q t.
Proof. exact (ex_deregister any_keys any_keys_monotone). Qed.
Print Assumptions C85_deregister.

(** C85: an allocation is freed by its allocator among external registrations as without them; the registrations stay. *)
Theorem C85_owner :
  forall C sw g x q t r, ehist JR any_keys C sw g x q t -> In r g ->
    post (sys_deallocate JR (C ++ boot) (Z.to_nat (r_strat r)) (r_ptr r) sw)
      (fun sw' _ => ehist JR any_keys C sw' (forget (r_ptr r) g) x q (snap (C ++ boot) (fst sw') :: t))
      (fun sw' _ => coalescing (kind_at (C ++ boot) (Z.to_nat (r_strat r))) /\
         ehist JR any_keys C sw' (forget (r_ptr r) g) x q (snap (C ++ boot) (fst sw') :: t)).
Proof. exact (ex_free any_keys any_keys_monotone). Qed.
Print Assumptions C85_owner.

(** C85: if the registrations lie beside each other and beside the allocations, every address in one of them leads to it: hasAllocator,
    getSize and getAllocator see external memory as any other.  Elsewhere hasAllocator is false and getAllocator throws. *)
Theorem C85_lookup :
  forall C sw g x q t p, ehist JR sparse56 C sw g x q t -> tidy (filed g ++ x) -> addr_ok p ->
    (forall r, In r (g ++ map snd x) -> covers r p -> exists a',
       has_allocator JR (C ++ boot) p sw = Ok (fst sw, a') true /\ rm_get_size JR (C ++ boot) p sw = Ok (fst sw, a') (r_size r) /\
       find_allocator JR (C ++ boot) p sw =
         if r_strat r =? no_strategy then Throw (fst sw, a') RuntimeError else Ok (fst sw, a') (Z.to_nat (r_strat r))) /\
    ((forall r, In r (g ++ map snd x) -> ~ covers r p) -> exists a',
       has_allocator JR (C ++ boot) p sw = Ok (fst sw, a') false /\ find_allocator JR (C ++ boot) p sw = Throw (fst sw, a') UnknownPointer).
Proof. exact ex_lookup. Qed.
Print Assumptions C85_lookup.

(** C85: a record without a strategy has a size, but no allocator, and rm.deallocate refuses it. *)
Theorem C85_no_strategy :
  forall C sw g x q t k r rs, ehist JR any_keys C sw g x q t -> records_at k x = r :: rs -> r_ptr r = k -> r_strat r = no_strategy ->
    exists a', find_allocator JR (C ++ boot) k sw = Throw (fst sw, a') RuntimeError /\ rm_free JR (C ++ boot) k sw = Throw (fst sw, a') RuntimeError /\
      rm_get_size JR (C ++ boot) k sw = Ok (fst sw, a') (r_size r).
Proof. exact (ex_no_strategy any_keys any_keys_monotone). Qed.
Print Assumptions C85_no_strategy.

(** A slot pool (4) with an allocation of 64 bytes at 2080, and 100 bytes of HOST (1) at 2160. *)
Definition some_memory : list ycall := [YCreate (mkNode (KSlotPool 2) 1); YAlloc 4 64; YAlloc 1 100].

Definition seen {A} (o : outcome A bool) : option bool := match o with Ok _ b => Some b | _ => None end.
Definition got {W A} (o : outcome W A) : option A := match o with Ok _ b => Some b | _ => None end.

(** Two registrations at 8192, one without a strategy at 4096; one at 8192 is withdrawn. *)
Example C85_case :
  exists C sw g x q t, ehist JR sparse56 C sw g x q t /\ tidy (filed g ++ x) /\
    g = [mkRec 2160 100 1 0; mkRec 2080 64 4 0] /\ x = [(4096, mkRec 4096 16 no_strategy 0); (8192, mkRec 8192 32 1 7)] /\
    allocation_count (C ++ boot) 4 (fst sw) = 1 /\ am_size JR (snd sw) = 4 /\
    map (fun p => seen (has_allocator JR (C ++ boot) p sw)) [8191; 8192; 8223; 8224; 4100; 2080] =
      [Some false; Some true; Some true; Some false; Some true; Some true] /\
    got (find_allocator JR (C ++ boot) 8200 sw) = Some 1%nat /\ got (find_allocator JR (C ++ boot) 4100 sw) = None /\
    got (rm_get_size JR (C ++ boot) 4100 sw) = Some 16 /\ got (ext_deregister JR (C ++ boot) 8192 sw) = Some (mkRec 8192 32 1 7).
Proof.
  destruct (xobs_hist (fun k => k mod 16 =? 0) sparse56) with (orc := bump) (l := some_memory)
    (l' := [XRegister 8192 (mkRec 8192 32 1 7); XRegister 8192 (mkRec 8192 8 1 8); XDeregister 8192; XRegister 4096 (mkRec 4096 16 no_strategy 0)])
    (f := fun C (sw : sworld JR (C ++ boot)) (g : list arec) (x : registry) => Some ((g, x, allocation_count (C ++ boot) 4 (fst sw), am_size JR (snd sw)),
       map (fun p => seen (has_allocator JR (C ++ boot) p sw)) [8191; 8192; 8223; 8224; 4100; 2080],
       (got (find_allocator JR (C ++ boot) 8200 sw), got (find_allocator JR (C ++ boot) 4100 sw), got (rm_get_size JR (C ++ boot) 4100 sw),
        got (ext_deregister JR (C ++ boot) 8192 sw))))
    (v := (([mkRec 2160 100 1 0; mkRec 2080 64 4 0], [(4096, mkRec 4096 16 no_strategy 0); (8192, mkRec 8192 32 1 7)], 1, 4),
           [Some false; Some true; Some true; Some false; Some true; Some true], (Some 1%nat, @None nat, Some 16, Some (mkRec 8192 32 1 7))))
    as (C & sw & g & x & q & t & H & E).
  - intros P HP. apply aligned16_sparse. intros k Hk. specialize (HP k Hk). apply Z.mod_divide; [discriminate|]. now apply Z.eqb_eq.
  - intros d [Hd|[Hd|[Hd|[]]]]; inversion Hd; subst; exact I.
  - vm_compute. reflexivity.
  - injection E as E1 E2 E3 E4 F1 F2 F3 F4 F5 F6 E6 E7 E8 E9. exists C, sw, g, x, q, t. subst g x.
    split; [exact H|]. split; [|cbn [map]; rewrite F1, F2, F3, F4, F5, F6; auto 12]. split.
    + intros k r [Hi|[Hi|[Hi|[Hi|[]]]]]; injection Hi as <- <-; cbn [r_ptr r_size]; unfold M64; lia.
    + cbn [pairwise filed map app r_ptr]. split; [|split; [|split; [|split; [intros b []|exact I]]]].
      * intros b [<-|[<-|[<-|[]]]] k; unfold covers; cbn [snd r_ptr r_size]; lia.
      * intros b [<-|[<-|[]]] k; unfold covers; cbn [snd r_ptr r_size]; lia.
      * intros b [<-|[]] k; unfold covers; cbn [snd r_ptr r_size]; lia.
Qed.

(** C85 fails for "the records of an allocator are what it counts": get_allocator_records lists the external memory with the allocator
    that its record names. *)
Theorem C85_count_refuted :
  exists C sw g x q t, ehist JR any_keys C sw g x q t /\ allocation_count (C ++ boot) 4 (fst sw) = 1 /\
    got (am_records_of JR 9 77 78 4 (snd sw)) = Some [mkRec 2080 64 4 0; mkRec 8192 32 4 7].
Proof.
  destruct (xobs_hist any_addr any_keys any_addr_ok bump some_memory [XRegister 8192 (mkRec 8192 32 4 7)]
    (fun C sw g x => Some (allocation_count (C ++ boot) 4 (fst sw), got (am_records_of JR 9 77 78 4 (snd sw))))
    (1, Some [mkRec 2080 64 4 0; mkRec 8192 32 4 7])) as (C & sw & g & x & q & t & H & E).
  - intros d [Hd|[Hd|[Hd|[]]]]; inversion Hd; subst; exact I.
  - vm_compute. reflexivity.
  - injection E as E1 E2. exists C, sw, g, x, q, t. auto.
Qed.
Print Assumptions C85_count_refuted.

Definition runs_into {W A} (o : outcome W A) : bool := match o with UB => true | _ => false end.

(** C85 fails for "external memory cannot be freed through Umpire": Allocator::deallocate takes the registration for an allocation.
    A slot pool loses it silently, and says that it holds 2^64 - 32 bytes in 2^64 - 1 allocations; HOST passes it to free. *)
Theorem C85_free_refuted :
  (exists C sw g x q t, ehist JR any_keys C sw g x q t /\ g = [] /\ current_size (C ++ boot) 4 (fst sw) = 0 /\
     exists sw', sys_deallocate JR (C ++ boot) 4 8192 sw = Ok sw' tt /\
       current_size (C ++ boot) 4 (fst sw') = M64 - 32 /\ allocation_count (C ++ boot) 4 (fst sw') = M64 - 1) /\
  (exists C sw g x q t, ehist JR any_keys C sw g x q t /\ sys_deallocate JR (C ++ boot) 1 8192 sw = UB).
Proof.
  split.
  - destruct (xobs_hist any_addr any_keys any_addr_ok bump [YCreate (mkNode (KSlotPool 2) 1)] [XRegister 8192 (mkRec 8192 32 4 7)]
      (fun C sw g x => match sys_deallocate JR (C ++ boot) 4 8192 sw with
        Ok sw' _ => Some (g, current_size (C ++ boot) 4 (fst sw), (current_size (C ++ boot) 4 (fst sw'), allocation_count (C ++ boot) 4 (fst sw')))
        | _ => None end)
      ([], 0, (M64 - 32, M64 - 1))) as (C & sw & g & x & q & t & H & E).
    + intros d [Hd|[]]; inversion Hd; subst; exact I.
    + vm_compute. reflexivity.
    + destruct (sys_deallocate JR (C ++ boot) 4 8192 sw) as [sw' []| | | |] eqn:Ed; try discriminate.
      apply (f_equal (fun o => match o with Some v => v | None => ([], 0, (0, 0)) end)) in E.
      pose proof (f_equal (fun v => fst (fst v)) E) as E1. pose proof (f_equal (fun v => snd (fst v)) E) as E2.
      pose proof (f_equal (fun v => fst (snd v)) E) as E3. pose proof (f_equal (fun v => snd (snd v)) E) as E4.
      cbn [fst snd] in E1, E2, E3, E4. exists C, sw, g, x, q, t. split; [exact H|]. split; [exact E1|]. split; [exact E2|]. exists sw'. auto.
  - destruct (xobs_hist any_addr any_keys any_addr_ok bump some_memory [XRegister 8192 (mkRec 8192 32 1 7)]
      (fun C sw g x => Some (runs_into (sys_deallocate JR (C ++ boot) 1 8192 sw))) true) as (C & sw & g & x & q & t & H & E).
    + intros d [Hd|[Hd|[Hd|[]]]]; inversion Hd; subst; exact I.
    + vm_compute. reflexivity.
    + exists C, sw, g, x, q, t. split; [exact H|]. destruct (sys_deallocate JR (C ++ boot) 1 8192 sw); try discriminate. reflexivity.
Qed.
Print Assumptions C85_free_refuted.

(** C85 fails for "what was registered is found" when the record names another address than the registration (nothing checks it): at a
    higher key not even the registered address is found, at a lower key everything between counts as part of the memory. *)
Theorem C85_other_address_refuted :
  (exists C sw g x q t, ehist JR any_keys C sw g x q t /\ registered x 9000 /\
     map (fun p => seen (has_allocator JR (C ++ boot) p sw)) [9000; 8192; 8200] = [Some false; Some false; Some false]) /\
  (exists C sw g x q t, ehist JR any_keys C sw g x q t /\ x = [(8192, mkRec 9000 32 1 7)] /\
     map (fun p => seen (has_allocator JR (C ++ boot) p sw)) [8192; 8500; 9031; 9032] = [Some true; Some true; Some true; Some false]).
Proof.
  split.
  - destruct (xobs_hist any_addr any_keys any_addr_ok bump some_memory [XRegister 9000 (mkRec 8192 32 1 7)]
      (fun C sw g x => Some (x, map (fun p => seen (has_allocator JR (C ++ boot) p sw)) [9000; 8192; 8200]))
      ([(9000, mkRec 8192 32 1 7)], [Some false; Some false; Some false])) as (C & sw & g & x & q & t & H & E).
    + intros d [Hd|[Hd|[Hd|[]]]]; inversion Hd; subst; exact I.
    + vm_compute. reflexivity.
    + injection E as E1 E2 E3 E4. exists C, sw, g, x, q, t. split; [exact H|]. split; [subst x; now left|]. cbn [map]. now rewrite E2, E3, E4.
  - destruct (xobs_hist any_addr any_keys any_addr_ok bump some_memory [XRegister 8192 (mkRec 9000 32 1 7)]
      (fun C sw g x => Some (x, map (fun p => seen (has_allocator JR (C ++ boot) p sw)) [8192; 8500; 9031; 9032]))
      ([(8192, mkRec 9000 32 1 7)], [Some true; Some true; Some true; Some false])) as (C & sw & g & x & q & t & H & E).
    + intros d [Hd|[Hd|[Hd|[]]]]; inversion Hd; subst; exact I.
    + vm_compute. reflexivity.
    + injection E as E1 E2 E3 E4 E5. exists C, sw, g, x, q, t. split; [exact H|]. split; [exact E1|]. cbn [map]. now rewrite E2, E3, E4, E5.
Qed.
Print Assumptions C85_other_address_refuted.

(** C85 fails for "a refused deallocation changes nothing" for such a record: the refusal writes the address it was asked for into it. *)
Theorem C85_refusal_refuted :
  exists C sw g x q t, ehist JR any_keys C sw g x q t /\ x = [(8192, mkRec 9000 32 1 7)] /\
    exists sw', sys_deallocate JR (C ++ boot) 4 8192 sw = Throw sw' RuntimeError /\ got (ext_deregister JR (C ++ boot) 8192 sw') = Some (mkRec 8192 32 1 7).
Proof.
  destruct (xobs_hist any_addr any_keys any_addr_ok bump some_memory [XRegister 8192 (mkRec 9000 32 1 7)]
    (fun C sw g x => match sys_deallocate JR (C ++ boot) 4 8192 sw with
      Throw sw' e => Some (x, e, got (ext_deregister JR (C ++ boot) 8192 sw')) | _ => None end)
    ([(8192, mkRec 9000 32 1 7)], RuntimeError, Some (mkRec 8192 32 1 7))) as (C & sw & g & x & q & t & H & E).
  - intros d [Hd|[Hd|[Hd|[]]]]; inversion Hd; subst; exact I.
  - vm_compute. reflexivity.
  - destruct (sys_deallocate JR (C ++ boot) 4 8192 sw) as [|sw' e| | |] eqn:Ed; try discriminate.
    injection E as E1 E2 E3. subst e. exists C, sw, g, x, q, t. split; [exact H|]. split; [exact E1|]. exists sw'. auto.
Qed.
Print Assumptions C85_refusal_refuted.

(** C85 fails for "only external memory can be withdrawn": deregister_external_allocation also takes the record of an allocation.  The
    allocator goes on counting it and can no longer free it. *)
Theorem C85_own_refuted :
  exists C sw g x q t, ehist JR any_keys C sw g x q t /\ In (mkRec 2160 100 1 0) g /\
    exists sw1, ext_deregister JR (C ++ boot) 2160 sw = Ok sw1 (mkRec 2160 100 1 0) /\ current_size (C ++ boot) 1 (fst sw1) = 164 /\
      exists sw2, sys_deallocate JR (C ++ boot) 1 2160 sw1 = Throw sw2 RuntimeError /\ current_size (C ++ boot) 1 (fst sw2) = 164.
Proof.
  destruct (xobs_hist any_addr any_keys any_addr_ok bump some_memory []
    (fun C sw g x => match ext_deregister JR (C ++ boot) 2160 sw with
      | Ok sw1 r => match sys_deallocate JR (C ++ boot) 1 2160 sw1 with
                    | Throw sw2 e => Some (g, r, current_size (C ++ boot) 1 (fst sw1), e, current_size (C ++ boot) 1 (fst sw2)) | _ => None end
      | _ => None end)
    ([mkRec 2160 100 1 0; mkRec 2080 64 4 0], mkRec 2160 100 1 0, 164, RuntimeError, 164)) as (C & sw & g & x & q & t & H & E).
  - intros d [Hd|[Hd|[Hd|[]]]]; inversion Hd; subst; exact I.
  - vm_compute. reflexivity.
  - destruct (ext_deregister JR (C ++ boot) 2160 sw) as [sw1 r| | | |] eqn:E1; try discriminate.
    destruct (sys_deallocate JR (C ++ boot) 1 2160 sw1) as [|sw2 e| | |] eqn:E2; try discriminate.
    injection E as E3 E4 E5 E6 E7. subst g r e. exists C, sw, [mkRec 2160 100 1 0; mkRec 2080 64 4 0], x, q, t. split; [exact H|]. split; [now left|].
    exists sw1. split; [exact E1|]. split; [exact E5|]. exists sw2. auto.
Qed.
Print Assumptions C85_own_refuted.

(** C85 fails for "a record may have no strategy" in a build with events: the event asks the strategy for its name before anything else. *)
Theorem C85_null_event_refuted :
  exists C sw g x q t, ehist JR any_keys C sw g x q t /\
    ext_register JR (C ++ boot) true 8192 (mkRec 8192 32 no_strategy 0) sw = UB /\
    exists sw', ext_register JR (C ++ boot) false 8192 (mkRec 8192 32 no_strategy 0) sw = Ok sw' tt.
Proof.
  destruct (xobs_hist any_addr any_keys any_addr_ok bump some_memory []
    (fun C sw g x => match ext_register JR (C ++ boot) false 8192 (mkRec 8192 32 no_strategy 0) sw with Ok _ _ => Some true | _ => None end) true)
    as (C & sw & g & x & q & t & H & E).
  - intros d [Hd|[Hd|[Hd|[]]]]; inversion Hd; subst; exact I.
  - vm_compute. reflexivity.
  - exists C, sw, g, x, q, t. split; [exact H|]. split; [reflexivity|].
    destruct (ext_register JR (C ++ boot) false 8192 (mkRec 8192 32 no_strategy 0) sw) as [sw' []| | | |]; try discriminate. now exists sw'.
Qed.
Print Assumptions C85_null_event_refuted.

(** C85 fails for memory registered inside an allocation: it hides the rest of the allocation. *)
Theorem C85_part_refuted :
  exists C sw g x q t, ehist JR any_keys C sw g x q t /\ In (mkRec 2160 100 1 0) g /\ x = [(2200, mkRec 2200 8 4 7)] /\
    map (fun p => got (find_allocator JR (C ++ boot) p sw)) [2199; 2200; 2207; 2208; 2259] = [Some 1%nat; Some 4%nat; Some 4%nat; None; None].
Proof.
  destruct (xobs_hist any_addr any_keys any_addr_ok bump some_memory [XRegister 2200 (mkRec 2200 8 4 7)]
    (fun C sw g x => Some (g, x, map (fun p => got (find_allocator JR (C ++ boot) p sw)) [2199; 2200; 2207; 2208; 2259]))
    ([mkRec 2160 100 1 0; mkRec 2080 64 4 0], [(2200, mkRec 2200 8 4 7)], [Some 1%nat; Some 4%nat; Some 4%nat; None; None]))
    as (C & sw & g & x & q & t & H & E).
  - intros d [Hd|[Hd|[Hd|[]]]]; inversion Hd; subst; exact I.
  - vm_compute. reflexivity.
  - injection E as E1 E2 E3 E4 E5 E6 E7. exists C, sw, g, x, q, t. split; [exact H|]. split; [subst g; now left|]. split; [exact E2|].
    cbn [map]. now rewrite E3, E4, E5, E6, E7.
Qed.
Print Assumptions C85_part_refuted.
