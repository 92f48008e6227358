(** Proofs about the resources that advance a counter. *)
From Verif Require Import Base BaseFacts ConstModel ConstSpec.
Local Open Scope Z_scope.

Lemma w64_small x : 0 <= x < M64 -> w64 x = x.
Proof. intros H. apply Z.mod_small. exact H. Qed.

Lemma stacked_total b G : stacked b G -> 0 <= total G.
Proof. induction G as [|r G IH]; cbn; [lia|]. intros (A & _ & B). specialize (IH B). lia. Qed.

Lemma stacked_in b G : stacked b G -> forall r, In r G -> b <= fst r /\ 0 < snd r /\ fst r + snd r <= b + total G.
Proof.
  induction G as [|x G IH]; cbn; [tauto|]. intros (A & B & C) r [->|H].
  - pose proof (stacked_total b G C). lia.
  - specialize (IH C r H). lia.
Qed.

Lemma stacked_pairwise b G : stacked b G -> pairwise disj G.
Proof.
  induction G as [|x G IH]; [exact (fun _ => I)|]. intros (A & B & C). split; [|exact (IH C)].
  intros r H. destruct (stacked_in b G C r H) as (U & V & W). unfold disj. lia.
Qed.

Lemma stacked_good b G : 0 < b -> b + total G <= ASP -> stacked b G -> good G.
Proof.
  intros Hb. induction G as [|x G IH]; intros HT HS; [split; [intros r []|exact I]|]. cbn [stacked total] in HS, HT. destruct HS as (A & B & C).
  pose proof (stacked_total b G C) as T. destruct IH as [I1 I2]; [lia|exact C|]. split.
  - intros r [<-|H]; [|exact (I1 r H)]. unfold wf_region. lia.
  - split; [|exact I2]. intros r H. destruct (stacked_in b G C r H) as (U & V & W). unfold disj. lia.
Qed.

(** The state after any history in which the offset cannot have wrapped: nothing refused and the live allocations stacked up to
    the offset, or stuck above the end of the array. *)
Definition cinv (base : Z) (s : const) (G : list region) (t : Z) : Prop :=
  stacked base G /\ total G <= CONST /\ 0 <= t /\
  ((t = 0 /\ c_off s = total G) \/ (0 < t /\ CONST < c_off s <= CONST + t)) /\
  (c_init s = false -> G = [] /\ t = 0).

Lemma stacked_top b G1 p n G2 : stacked b (G1 ++ (p, n) :: G2) -> p + n = b + total (G1 ++ (p, n) :: G2) -> G1 = [].
Proof.
  destruct G1 as [|x G1]; [reflexivity|]. intros (A & B & C) E. exfalso.
  destruct (stacked_in b _ C (p, n)) as (U & V & W); [apply in_elt|]. cbn -[Z.add] in *. lia.
Qed.

Section Const.
  Context (base : Z) (cuda : bool) (lim : Z).
  Hypothesis Hbase : 0 < base /\ base + CONST <= ASP.

  Lemma allocate_cases found n s G t : cinv base s G t -> 0 < n <= lim -> CONST + t + lim < M64 ->
    match const_allocate base found n s with
    | Ok s' p => t = 0 /\ (c_init s || found = true) /\ total G + n <= CONST /\ p = base + total G /\ s' = mkConst true (total G + n)
    | Throw s' _ => if c_init s || found then (0 < t \/ CONST < total G + n) /\ s' = mkConst true (c_off s + n) else s' = s
    | _ => False
    end.
  Proof.
    intros (S & T & Ht & O & I) Hn Hlim. unfold const_allocate.
    assert (EC : CONST = 65536) by reflexivity. assert (EM : M64 = 18446744073709551616) by reflexivity.
    assert (EA : ASP = 9223372036854775808) by reflexivity. pose proof (stacked_total base G S) as TG.
    destruct (c_init s || found) eqn:E.
    - replace (negb (c_init s) && negb found) with false by (destruct (c_init s), found; auto; discriminate).
      rewrite (w64_small (c_off s + n)) by lia. destruct (Z.ltb_spec CONST (c_off s + n)).
      + split; [lia|reflexivity].
      + destruct O as [[-> O]|]; [|lia]. rewrite O in *. rewrite w64_small by lia. auto with zarith.
    - replace (negb (c_init s) && negb found) with true by (destruct (c_init s), found; auto; discriminate). reflexivity.
  Qed.

  Lemma deallocate_cases p n s G1 G2 t : cinv base s (G1 ++ (p, n) :: G2) t -> CONST + t < M64 ->
    match const_deallocate base p n s with
    | Ok s' _ => t = 0 /\ G1 = [] /\ s' = mkConst (c_init s) (total G2)
    | Throw s' _ => (0 < t \/ G1 <> []) /\ s' = s
    | _ => False
    end.
  Proof.
    intros (S & T & Ht & O & I) Hlim. unfold const_deallocate.
    assert (EC : CONST = 65536) by reflexivity. assert (EM : M64 = 18446744073709551616) by reflexivity.
    assert (EA : ASP = 9223372036854775808) by reflexivity.
    destruct (c_init s) eqn:Ei; [|destruct I as [E _]; [reflexivity|destruct G1; discriminate]].
    destruct (stacked_in base _ S (p, n)) as (U & V & W); [apply in_elt|]. cbn [fst snd] in U, V, W.
    rewrite (w64_small (c_off s - n)) by lia.
    destruct (Z.eqb_spec (w64 (base + (c_off s - n))) p) as [E|E].
    - assert (E2 : base + (c_off s - n) = p).
      { destruct (Z.lt_ge_cases (base + (c_off s - n)) M64); [rewrite w64_small in E; lia|].
        exfalso. revert E. unfold w64. replace (base + (c_off s - n)) with ((base + (c_off s - n) - M64) + 1 * M64) by lia.
        rewrite Z.mod_add by lia. rewrite Z.mod_small by lia. lia. }
      destruct O as [[-> O]|O]; [|lia]. split; [reflexivity|].
      assert (EG : G1 = []) by (apply (stacked_top base G1 p n G2 S); lia).
      subst G1. split; [reflexivity|]. f_equal. rewrite O. cbn. lia.
    - split; [|reflexivity]. destruct O as [[-> O]|O]; [|lia]. right. intros ->. apply E. cbn in S, O. rewrite w64_small by lia. lia.
  Qed.

  Lemma const_inv s G t : chist base cuda lim s G t -> 0 <= lim -> CONST + t + lim < M64 -> cinv base s G t.
  Proof.
    intros H Hl. assert (EC : CONST = 65536) by reflexivity. induction H as [|s G t found n s' p H IH Hn E|s G t found n s' e H IH Hn E|s G1 G2 t p n s' H IH E|s G t p n s' e H IH Hin E]; intros Ht.
    - repeat split; cbn; try lia.
    - pose proof (allocate_cases found n s G t (IH Ht) Hn Ht) as C. rewrite E in C. destruct C as (-> & Ef & F & -> & ->).
      destruct (IH Ht) as (S & T & _ & O & I). repeat split; cbn; try lia; try exact S; try discriminate; try (cbn; lia).
    - assert (Ht0 : CONST + t + lim < M64) by (destruct (c_init s || found); lia). specialize (IH Ht0).
      pose proof (allocate_cases found n s G t IH Hn Ht0) as C. rewrite E in C. destruct (c_init s || found).
      + destruct C as [C ->]. destruct IH as (S & T & T0 & O & I). unfold cinv; cbn [c_init c_off]. split; [exact S|]. split; [exact T|]. split; [lia|]. split; [right; lia|discriminate].
      + subst s'. exact IH.
    - specialize (IH Ht). pose proof (deallocate_cases p n s G1 G2 t IH ltac:(lia)) as C. rewrite E in C. destruct C as (-> & -> & ->).
      destruct IH as (S & T & _ & O & I). cbn in S, T, O, I. destruct S as (S1 & S2 & S). repeat split; cbn; try lia; try exact S.
      destruct (I H0); discriminate.
    - specialize (IH Ht). apply in_split in Hin. destruct Hin as (G1 & G2 & ->).
      pose proof (deallocate_cases p n s G1 G2 t IH ltac:(lia)) as C. rewrite E in C. destruct C as [_ ->]. exact IH.
  Qed.
End Const.

Lemma noop_inv s A : nhist s A -> noop_start + total A < M64 -> stacked noop_start A /\ s = noop_start + total A.
Proof.
  assert (E48 : 0 < noop_start) by reflexivity.
  induction 1 as [|s A n s' p H IH Hn E|s A p n s' H IH E]; intros HT.
  - split; [exact I|]. cbn [total]. lia.
  - cbn [total snd] in HT. destruct IH as [S Es]; [lia|]. pose proof (stacked_total _ _ S).
    unfold noop_allocate in E. assert (E1 : w64 (s + n) = s') by congruence. assert (E2 : s = p) by congruence.
    split; [cbn [stacked fst snd]; repeat split; [lia|lia|exact S]|]. rewrite <- E1, w64_small by lia. cbn [total snd]. lia.
  - unfold noop_deallocate in E. assert (E1 : s = s') by congruence. rewrite <- E1. exact (IH HT).
Qed.
