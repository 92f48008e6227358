(** Lemmas about the names a NamingShim generates. *)
From Coq Require Import String DecimalString DecimalN DecimalFacts.
From Verif Require Import Base BaseFacts NamingModel NamingSpec.

Lemma to_uint_nonnil n : N.to_uint n <> Decimal.Nil.
Proof.
  rewrite <- (Unsigned.of_to n), Unsigned.to_of. unfold Decimal.unorm.
  destruct (Decimal.nzhead (N.to_uint n)); discriminate.
Qed.

Lemma dec_inj a b : 0 <= a -> 0 <= b -> dec a = dec b -> a = b.
Proof.
  intros Ha Hb E. unfold dec in E.
  assert (HN : N.to_uint (Z.to_N a) = N.to_uint (Z.to_N b)).
  { apply (f_equal NilZero.uint_of_string) in E.
    rewrite !NilZero.usu in E; [congruence| |]; apply to_uint_nonnil. }
  apply Unsigned.to_uint_inj in HN. lia.
Qed.

Lemma append_inj (a b c : string) : (a ++ b = a ++ c)%string -> b = c.
Proof. induction a as [|x a IH]; cbn; [auto|]. intros E. injection E as E. auto. Qed.

Lemma ns_name_inj m a b : 0 <= a -> 0 <= b -> ns_name m a = ns_name m b -> a = b.
Proof. intros Ha Hb E. unfold ns_name in E. apply append_inj in E. apply append_inj in E. now apply dec_inj. Qed.

(** Names number 0 .. k-1, newest first. *)
Fixpoint first_names (m : string) (k : nat) : list string :=
  match k with O => [] | S k' => ns_name m (w64 (Z.of_nat k')) :: first_names m k' end.

Section Facts.
  Context (m : string) {W : Type} (f : string -> Z -> W -> outcome W Z) (g : Z -> Z -> W -> outcome W unit).

  Lemma shim_log s : shim_hist m f g s ->
    fst (snd s) = first_names m (length (fst (snd s))) /\ fst s = w64 (Z.of_nat (length (fst (snd s)))).
  Proof.
    induction 1 as [w|[c [log w]] n s' p H [IH1 IH2] E|[c [log w]] n s' e H [IH1 IH2] E|[c [log w]] p n s' H [IH1 IH2] E|[c [log w]] p n s' e H [IH1 IH2] E|c log w w' H [IH1 IH2]]; cbn [fst snd] in *.
    - split; reflexivity.
    - unfold ns_allocate, recording in E. cbn [fst snd] in E.
      destruct (f (ns_name m c) n w) as [w1 q|w1 e1| | |]; try discriminate. cbn in E. injection E as <- <-.
      cbn [fst snd length first_names]. rewrite IH1 at 1. rewrite IH2. split; [reflexivity|].
      unfold w64. rewrite Zplus_mod_idemp_l. f_equal. lia.
    - unfold ns_allocate, recording in E. cbn [fst snd] in E.
      destruct (f (ns_name m c) n w) as [w1 q|w1 e1| | |]; try discriminate. cbn in E. injection E as <- <-.
      cbn [fst snd length first_names]. rewrite IH1 at 1. rewrite IH2. split; [reflexivity|].
      unfold w64. rewrite Zplus_mod_idemp_l. f_equal. lia.
    - unfold ns_deallocate, recording_free in E. cbn [fst snd] in E.
      destruct (g p 0 w) as [w1 q|w1 e1| | |]; try discriminate. cbn in E. injection E as <-. auto.
    - unfold ns_deallocate, recording_free in E. cbn [fst snd] in E.
      destruct (g p 0 w) as [w1 q|w1 e1| | |]; try discriminate. cbn in E. injection E as <- <-. auto.
    - auto.
  Qed.

  Lemma first_names_in x k : In x (first_names m k) -> exists j, (j < k)%nat /\ x = ns_name m (w64 (Z.of_nat j)).
  Proof.
    induction k as [|k IH]; [intros []|]. intros [<-|Hin]; [exists k; auto|].
    destruct (IH Hin) as (j & Hj & E). exists j. auto.
  Qed.

  Lemma first_names_nodup k : Z.of_nat k <= M64 -> NoDup (first_names m k).
  Proof.
    induction k as [|k IH]; intros Hk; cbn [first_names]; constructor; [|apply IH; lia].
    intros Hin. apply first_names_in in Hin as (j & Hj & E).
    rewrite !w64_small in E by lia. apply ns_name_inj in E; lia.
  Qed.

  Lemma shim_distinct c log w : shim_hist m f g (c, (log, w)) -> Z.of_nat (length log) <= M64 -> NoDup log.
  Proof. intros H Hl. destruct (shim_log _ H) as [E _]. cbn [fst snd] in E. rewrite E. now apply first_names_nodup. Qed.

  Lemma shim_repeats c log w : shim_hist m f g (c, (log, w)) -> M64 < Z.of_nat (length log) -> ~ NoDup log.
  Proof.
    intros H Hl. destruct (shim_log _ H) as [E _]. cbn [fst snd] in E. rewrite E. clear E H w c.
    remember (length log) as k. clear Heqk. revert Hl. induction k as [|k IH]; intros Hl HN; cbn [first_names] in HN; [cbn in Hl; lia|].
    inversion HN as [|x l Hni HN']; subst.
    destruct (Z.eq_dec (Z.of_nat k) M64) as [Ek|]; [|apply IH; auto; lia].
    apply Hni. replace (w64 (Z.of_nat k)) with (w64 (Z.of_nat 0)).
    - assert (Hk : (0 < k)%nat) by (unfold M64 in Ek; lia). clear -Hk.
      induction k as [|k IH]; [lia|]. cbn [first_names]. destruct k; [left; auto|right; apply IH; lia].
    - rewrite Ek. unfold w64. rewrite Z_mod_same_full. reflexivity.
  Qed.
End Facts.

(** Over a parent that always succeeds, any number of allocations is possible. *)
Lemma shim_any_length m k : exists c log, shim_hist m (fun _ _ w => Ok w 1) (fun _ _ w => Ok w tt) (c, (log, tt)) /\ length log = k.
Proof.
  induction k as [|k (c & log & H & E)]; [exists 0, []; split; [constructor|reflexivity]|].
  exists (w64 (c + 1)), (ns_name m c :: log). split; [|cbn; lia].
  eapply (sh_alloc _ _ _ _ 1); [exact H|]. reflexivity.
Qed.
