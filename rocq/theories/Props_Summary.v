(** Property C87: the summary of the replay tool. *)
From Coq Require Import String.
From Verif Require Import Base BaseFacts ReplayModel ReplaySpec ReplayFacts SummaryModel SummarySpec SummaryFacts Props_Replay.
Local Open Scope string_scope.
Local Open Scope Z_scope.

(** Of every program that the tool can replay and that recorded a version the summary is printed.  Each
    number in it other than that of reallocations and of rogue deallocations is the number of such
    calls, those inside of reallocations counted; deallocations of what is not live are the rogue
    ones; what is called leaked is the number of live allocations less the number of rogue deallocations.
    Missing: that leaked is the number of live allocations, that reallocations are counted once, and
    programs without a version (refuted below); programs that cannot be replayed (C57). *)
Theorem C87_summary_partial : forall dump_s dump_n times H, program H -> In (PMeta "version") H ->
  exists st m, summarise (file_size dump_s dump_n (records H) times) true false (records H) = Ok st (Some m) /\
    (forall k, k <> KRogue -> k <> KReallocate -> p_count m k = w64 (number k H)) /\
    p_count m KRogue = w64 (strays H) /\
    p_count m KReallocate = w64 (2 * count (counts_as KReallocate) H) /\
    (Forall even_call H -> exists L, lists_live H L /\ p_leaked m = w64 (Z.of_nat (List.length L) - strays H)).
Proof. exact printed_counts. Qed.
Print Assumptions C87_summary_partial.

(** The version is that of the last version event, whatever else the log holds. *)
Theorem C87_version : forall fsize a e b st m,
  e_oper e = false -> e_name e = "version" ->
  (forall x, In x b -> e_oper x = true \/ e_name x <> "version") ->
  summarise fsize true false (a ++ e :: b)%list = Ok st (Some m) ->
  p_version m = (s32 (nget "major" (e_num e)), s32 (nget "minor" (e_num e)), s32 (nget "patch" (e_num e))).
Proof. exact last_version_spelled. Qed.
Print Assumptions C87_version.

(** The program of C57: a pool, reallocations, a stray deallocation. *)
Definition numbers (o : outcome cstate (option summary)) : option (list Z * Z) :=
  match o with
  | Ok _ (Some m) => Some (map (p_count m) [KResource; KAllocator; KAllocate; KDeallocate; KRogue; KRegister; KDeregister;
                                             KCopy; KMove; KReallocate; KDefault; KCoalesce; KRelease; KVersion], p_leaked m)
  | _ => None
  end.
Example C87_case : In (PMeta "version") prog /\ Forall even_call prog /\
  numbers (summarise 100000 true false (records prog)) = Some ([1; 1; 4; 3; 1; 0; 0; 1; 0; 4; 1; 1; 0; 1], 1) /\
  lists_live prog [(0x7000, 0x360); (0x5000, 0x300)].
Proof.
  split; [cbn; tauto|]. split; [repeat constructor|]. split; [vm_compute; reflexivity|].
  split; [repeat constructor; cbn; intuition congruence|]. intros r p. unfold prog. cbn [holds produces consumes In].
  repeat match goal with
  | |- context [if (?a =? ?b) && (?c =? ?d) then _ else _] => destruct (Z.eqb_spec a b), (Z.eqb_spec c d); subst; cbn [andb]
  | |- context [if ?a =? ?b then _ else _] => destruct (Z.eqb_spec a b); subst
  end; (split; [intros [X|[X|[]]]; first [discriminate X | injection X; intros; subst | idtac]; first [reflexivity | exfalso; lia | exfalso; congruence] | intros X; try discriminate X; first [left; reflexivity | right; left; reflexivity | exfalso; lia | exfalso; congruence]]).
Qed.
Example C87_version_case :
  match summarise 100000 true false
    ([] ++ {| e_name := "version"; e_oper := false; e_str := []; e_num := [("major", 2024); ("minor", 7); ("patch", 1)]; e_tag := [] |}
     :: records [PMeta "other"; PMakeRes 0x5000 "HOST"])%list
  with Ok _ (Some m) => Some (p_version m) | _ => None end = Some (2024, 7, 1).
Proof. vm_compute. reflexivity. Qed.

(** Refuted: "leaked" is the number of allocations that are live.  Deallocating null, which the library
    allows, hides a leak. *)
Theorem C87_leak_hidden_refuted : exists H st m L,
  program H /\ Forall even_call H /\ summarise 100000 true false (records H) = Ok st (Some m) /\
  lists_live H L /\ List.length L = 1%nat /\ p_leaked m = 0 /\
  H = PFree 0x5000 0 :: PAlloc 0x5000 8 0x300 :: host.
Proof. exact leak_hidden. Qed.
Print Assumptions C87_leak_hidden_refuted.

(** Refuted: it is at most the number of allocations.  One that leaks nothing "leaks" 2^64 - 1. *)
Theorem C87_leak_wrap_refuted : exists H st m L,
  program H /\ Forall even_call H /\ summarise 100000 true false (records H) = Ok st (Some m) /\
  lists_live H L /\ L = [] /\ p_leaked m = 2 ^ 64 - 1 /\ H = PFree 0x5000 0 :: host.
Proof. exact leak_wrap. Qed.
Print Assumptions C87_leak_wrap_refuted.

(** Refuted: the reallocations printed are those of the program: every one is counted twice. *)
Theorem C87_reallocations_refuted : exists H st m,
  program H /\ summarise 100000 true false (records H) = Ok st (Some m) /\
  count (counts_as KReallocate) H = 1 /\ p_count m KReallocate = 2.
Proof. exact realloc_twice. Qed.
Print Assumptions C87_reallocations_refuted.

(** Refuted: every log can be summarised.  Without a version event the numbers of the version are never set. *)
Theorem C87_no_version_refuted : forall fsize H st s, tally fsize (records H) c_init s_init = Ok st s ->
  (forall c, In c H -> c <> PMeta "version" /\ inside c = []) ->
  summarise fsize true false (records H) = UB.
Proof. exact no_version. Qed.
Print Assumptions C87_no_version_refuted.
Example C87_no_version_case :
  match tally 100000 (records [PAlloc 0x5000 8 0x300; PMakeRes 0x5000 "HOST"]) c_init s_init with
  | Ok _ s => s_count s KAllocate | _ => 0 end = 1.
Proof. vm_compute. reflexivity. Qed.
