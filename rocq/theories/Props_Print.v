(** Property C80: what is printed of the live allocations.
    [printout], [addresses], [blocks]: PrintSpec.v. *)
From Coq Require Import String Ascii Permutation.
From Verif Require Import Base MapModel MapSpec JudyModel AllocMapThms MapRun MapMain PrintModel PrintSpec PrintFacts.

Local Notation "a ^^ b" := (String.append a b) (at level 60, right associativity).

(** C80: AllocationMap::print: a paragraph for each address with records asked for, by address, in it a line for each record. *)
Theorem C80_print_partial :
  forall names trace g a fuel addr pred, ahist JR any_keys (g, a) -> blocks g -> ~ registered g 0 -> (length g < fuel)%nat -> addr <> 0 ->
    exists a' ks, am_print JR names trace fuel addr pred a = Ok a' (printout names trace pred g ks) /\ addresses g ks.
Proof. exact print_ok. Qed.
Print Assumptions C80_print_partial.

(** C80: AllocationMap::printAll. *)
Theorem C80_print_all_partial :
  forall names trace g a fuel addr, ahist JR any_keys (g, a) -> blocks g -> ~ registered g 0 -> (length g < fuel)%nat -> addr <> 0 ->
    exists a' ks, addresses g ks /\ am_print_all JR names trace fuel addr a =
      Ok a' ("🔍 Printing allocation map contents..." ^^ newline ^^ printout names trace (fun _ => true) g ks ^^ "done." ^^ newline)%string.
Proof. exact print_all_ok. Qed.
Print Assumptions C80_print_all_partial.

(** C80: print_allocator_records: nothing for an allocator without live allocations; else a title and the records of this allocator. *)
Theorem C80_allocator_partial :
  forall names trace g a fuel addr name s, ahist JR any_keys (g, a) -> blocks g -> ~ registered g 0 -> (length g < fuel)%nat -> addr <> 0 ->
    exists a' t, print_records JR names trace fuel addr name s a = Ok a' t /\
      ((forall k r, In (k, r) g -> r_strat r <> s) -> t = EmptyString) /\
      (forall k r, In (k, r) g -> r_strat r = s -> exists ks, addresses g ks /\
         t = ("Allocations for " ^^ name ^^ " allocator:" ^^ newline ^^ printout names trace (fun r => (r_strat r =? s)%Z) g ks ^^ newline)%string).
Proof. exact records_text_ok. Qed.
Print Assumptions C80_allocator_partial.

(** C80: to print changes nothing: printing again prints the same. *)
Theorem C80_twice :
  forall names trace g a fuel addr addr' pred a1 t,
    ahist JR any_keys (g, a) -> blocks g -> ~ registered g 0 -> (length g < fuel)%nat -> addr <> 0 -> addr' <> 0 ->
    am_print JR names trace fuel addr pred a = Ok a1 t ->
    exists a2, am_print JR names trace fuel addr' pred a1 = Ok a2 t /\ am_size JR a1 = am_size JR a.
Proof. exact print_twice. Qed.
Print Assumptions C80_twice.

Definition five : list acall :=
  [AInsert 8192 (mkRec 8192 64 1 0); AInsert 4096 (mkRec 4096 64 1 0); AInsert 4096 (mkRec 4096 32 2 5);
   AInsert 4160 (mkRec 4160 8 2 0); AInsert 65536 (mkRec 65536 8 1 0)].
Definition nm (n : Z) : string := if n =? 5 then "five"%string else EmptyString.

(** Two allocators, two records at one address. *)
Example C80_case :
  aobs (fun _ => true) five (fun _ a =>
    match am_print_all JR nm None 6 77 a, print_records JR nm (Some (fun _ => "here"%string)) 6 77 "POOL" 2 a, print_records JR nm None 6 77 "HOST" 3 a with
    | Ok _ t, Ok _ u, Ok _ v => Some (t, u, v) | _, _, _ => None end)
  = Some ("🔍 Printing allocation map contents...
0x1000 {
  size: 32, range: 0x1000 -- 0x1020, name: five, 
  size: 64, range: 0x1000 -- 0x1040, name: , 
}
0x1040 {
  size: 8, range: 0x1040 -- 0x1048, name: , 
}
0x2000 {
  size: 64, range: 0x2000 -- 0x2040, name: , 
}
0x10000 {
  size: 8, range: 0x10000 -- 0x10008, name: , 
}
done.
", "Allocations for POOL allocator:
0x1000 {
  size: 32, range: 0x1000 -- 0x1020, name: five, backtrace: here
}
0x1040 {
  size: 8, range: 0x1040 -- 0x1048, name: , backtrace: here
}

", "")%string.
Proof. vm_compute. reflexivity. Qed.

Example C80_ex_hyps : exists g a, ahist JR any_keys (g, a) /\ blocks g /\ ~ registered g 0 /\ length g = 5%nat /\
  (exists k r, In (k, r) g /\ r_strat r = 2) /\ forall k r, In (k, r) g -> r_strat r <> 3.
Proof.
  destruct (aobs_hist (fun _ => true) any_keys) with (l := five) (f := fun (g : registry) (_ : amap JR) => Some g)
    (x := [(65536, mkRec 65536 8 1 0); (4160, mkRec 4160 8 2 0); (4096, mkRec 4096 32 2 5); (4096, mkRec 4096 64 1 0); (8192, mkRec 8192 64 1 0)])
    as (g & a & Hh & Hg).
  - intros P _. exact I.
  - vm_compute. reflexivity.
  - exists g, a. injection Hg as Hg. split; [exact Hh|]. rewrite Hg. split.
    { intros k r Hi. cbn [In] in Hi. repeat destruct Hi as [Hi|Hi]; try contradiction Hi; injection Hi as <- <-; vm_compute; repeat split; discriminate. }
    split; [unfold registered; simpl; lia|]. split; [reflexivity|]. split.
    + exists 4160, (mkRec 4160 8 2 0). split; [simpl; auto|reflexivity].
    + intros k r Hi. cbn [In] in Hi. repeat destruct Hi as [Hi|Hi]; try contradiction Hi; injection Hi as <- <-; discriminate.
Qed.

(** C80 needs no record at the null address: with one, nothing is printed of the other allocations. *)
Theorem C80_null_refuted :
  exists g a, ahist JR any_keys (g, a) /\ blocks g /\ length g = 2%nat /\
    forall pred, exists a', am_print JR nm None 3 77 pred a = Ok a' EmptyString.
Proof.
  destruct (aobs_hist (fun _ => true) any_keys) with (l := [AInsert 0 (mkRec 0 8 1 0); AInsert 4096 (mkRec 4096 8 1 0)])
    (f := fun (g : registry) (a : amap JR) => match (let '(m, it) := mi_begin JR 77 (am_map JR a) in mi_walk JR 3 it m) with Some (_, []) => Some g | _ => None end)
    (x := [(4096, mkRec 4096 8 1 0); (0, mkRec 0 8 1 0)]) as (g & a & Hh & Hg).
  - intros P _. exact I.
  - vm_compute. reflexivity.
  - exists g, a. split; [exact Hh|]. destruct (mi_begin JR 77 (am_map JR a)) as [m it] eqn:Eb.
    destruct (mi_walk JR 3 it m) as [[m' [|]]|] eqn:Ew; try discriminate. injection Hg as ->. split.
    { intros k r Hi. cbn [In] in Hi. repeat destruct Hi as [Hi|Hi]; try contradiction Hi; injection Hi as <- <-; vm_compute; repeat split; discriminate. }
    split; [reflexivity|]. intros pred. unfold am_print. rewrite Eb, Ew. eexists. reflexivity.
Qed.
Print Assumptions C80_null_refuted.
