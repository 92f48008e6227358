(** Facts about the parser and the conversions of events. *)
From Coq Require Import String Sorted.
From Verif Require Import Base ReplayModel JsonModel StoreModel JsonSpec Utf8Facts JsonFacts.

(** ** Maps *)
Lemma bcmp_refl a : bcmp a a = Eq.
Proof. induction a as [|x a IH]; [reflexivity|]. cbn [bcmp]. rewrite Z.compare_refl. exact IH. Qed.

Lemma bcmp_eq a : forall b, bcmp a b = Eq -> a = b.
Proof.
  induction a as [|x a IH]; intros [|y b]; cbn [bcmp]; try discriminate; [reflexivity|].
  destruct (x ?= y) eqn:E; try discriminate. apply Z.compare_eq in E. intros H. apply IH in H. congruence.
Qed.

Lemma bcmp_flip a : forall b, bcmp a b = CompOpp (bcmp b a).
Proof.
  induction a as [|x a IH]; intros [|y b]; cbn [bcmp]; try reflexivity.
  rewrite (Z.compare_antisym y x). destruct (y ?= x); cbn [CompOpp]; [apply IH | reflexivity | reflexivity].
Qed.

Lemma bcmp_lt_trans a : forall b c, bcmp a b = Lt -> bcmp b c = Lt -> bcmp a c = Lt.
Proof.
  induction a as [|x a IH]; intros [|y b] [|z c]; cbn [bcmp]; try discriminate; try reflexivity.
  destruct (Z.compare_spec x y), (Z.compare_spec y z); subst; try discriminate; intros H1 H2.
  - rewrite Z.compare_refl. eauto.
  - replace (y ?= z) with Lt by (symmetry; apply Z.compare_lt_iff; lia). reflexivity.
  - replace (x ?= z) with Lt by (symmetry; apply Z.compare_lt_iff; lia). reflexivity.
  - replace (x ?= z) with Lt by (symmetry; apply Z.compare_lt_iff; lia). reflexivity.
Qed.

Lemma mset_last {A} k (v : A) m : Forall (fun kv => bcmp (fst kv) k = Lt) m -> mset k v m = m ++ [(k, v)].
Proof.
  induction 1 as [|(k', v') m H Hm IH]; [reflexivity|]. cbn [mset fst] in *.
  rewrite bcmp_flip, H. cbn [CompOpp app]. rewrite IH. reflexivity.
Qed.

(** ** Parsing *)
Fixpoint canon (j : json) : json :=
  match j with
  | JInt z | JUns z => if z <? 0 then JInt z else JUns z
  | JArr l => JArr (map canon l)
  | JObj m => JObj ((fix go (m acc : list (bytes * json)) : list (bytes * json) :=
                       match m with [] => acc | (k, x) :: t => go t (mset k (canon x) acc) end) m [])
  | _ => j
  end.
Fixpoint cmembers (m acc : list (bytes * json)) : list (bytes * json) :=
  match m with [] => acc | (k, x) :: t => cmembers t (mset k (canon x) acc) end.
Lemma canon_obj m : canon (JObj m) = JObj (cmembers m []).
Proof. reflexivity. Qed.

Lemma cmembers_app m : forall acc, sorted m -> Forall (fun a => Forall (fun b => bcmp (fst a) (fst b) = Lt) m) acc ->
  cmembers m acc = acc ++ map (fun kv => (fst kv, canon (snd kv))) m.
Proof.
  induction m as [|(k, x) m IH]; intros acc S H; cbn [cmembers map].
  - rewrite app_nil_r. reflexivity.
  - inversion S as [|? ? S' Sh]; subst. rewrite mset_last.
    + rewrite IH; [rewrite <- app_assoc; reflexivity | exact S' |].
      apply Forall_app. split.
      * eapply Forall_impl; [|exact H]. intros a Ha. inversion Ha; subst. assumption.
      * constructor; [|constructor]. exact Sh.
    + eapply Forall_impl; [|exact H]. intros a Ha. inversion Ha; subst. assumption.
Qed.

Lemma canon_sorted m : sorted m -> canon (JObj m) = JObj (map (fun kv => (fst kv, canon (snd kv))) m).
Proof. intros S. rewrite canon_obj, (cmembers_app m []); [reflexivity | exact S | constructor]. Qed.

Lemma same_canon j : good_json j -> same j (canon j).
Proof.
  induction j as [|b|z|z|z|s|l IH|m IH] using json_rec'; intros G; inversion G; subst; try (constructor; fail).
  - cbn [canon]. destruct (z <? 0); apply s_num with z; auto.
  - cbn [canon]. destruct (z <? 0); apply s_num with z; auto.
  - cbn [canon]. constructor. clear G. induction l as [|x l IHl]; [constructor|].
    inversion IH; subst. inversion H0; subst. cbn [map]. constructor; auto.
  - rewrite canon_sorted by assumption. constructor. clear G H2. induction m as [|(k, x) m IHm]; [constructor|].
    inversion IH; subst. inversion H0; subst. inversion H1; subst. cbn [map]. constructor; [split; [reflexivity | auto] | auto].
Qed.

Definition first_ok (t : token) : bool :=
  match t with
  | TBeginObj | TBeginArr | TFalse | TTrue | TNull | TInt _ | TUns _ | TStr _ => true
  | _ => false
  end.
Lemma toks_first j : raw_ok j -> exists t ts, toks j = t :: ts /\ first_ok t = true.
Proof.
  intros G. inversion G; subst; try (eexists; eexists; split; [reflexivity | reflexivity]).
  - destruct b; eexists; eexists; split; reflexivity.
  - cbn [toks]. unfold num_tok. destruct (z <? 0); eexists; eexists; split; reflexivity.
  - cbn [toks]. unfold num_tok. destruct (z <? 0); eexists; eexists; split; reflexivity.
Qed.

Section Parse.
  Variable strtod : bytes -> option Z.
  Notation prun := (prun strtod).

  Definition pcont (c : mode * list frame) (ts : list token) : pres := prun ts (fst c) (snd c).

  Lemma prun_val t ts fs c : first_ok t = true ->
    pstep strtod t MVal fs = Some c -> prun (t :: ts) MVal fs = pcont c ts.
  Proof.
    intros F E. destruct c as (md', fs'). unfold pcont. cbn [fst snd].
    destruct t; try discriminate; cbn [JsonModel.prun]; rewrite E; reflexivity.
  Qed.

  Lemma prun_toks j : raw_ok j -> forall ts fs, prun (toks j ++ ts) MVal fs = pcont (complete (canon j) fs) ts.
  Proof.
    induction j as [|b|z|z|z|s|l IH|m IH] using json_rec'; intros G ts fs; inversion G; subst.
    - apply prun_val; reflexivity.
    - destruct b; apply prun_val; reflexivity.
    - cbn [toks canon app]. unfold num_tok. destruct (z <? 0); apply prun_val; reflexivity.
    - cbn [toks canon app]. unfold num_tok. destruct (z <? 0); apply prun_val; reflexivity.
    - apply prun_val; reflexivity.
    - rewrite toks_arr. cbn [app]. rewrite (prun_val _ _ _ (MArr0, fs)) by reflexivity.
      unfold pcont at 1. cbn [fst snd].
      assert (A : l <> [] -> Forall raw_ok l -> forall acc, prun (telems l ++ ts) MVal (FArr acc :: fs) =
                 pcont (complete (JArr (rev acc ++ map canon l)) fs) ts).
      { clear G. induction l as [|x l IHl]; [congruence|]. intros _ GG acc.
        inversion IH as [|? ? IHx IHr]; subst. inversion GG as [|? ? Gx Gr]; subst. cbn [telems].
        rewrite <- app_assoc, (IHx Gx). unfold pcont at 1. cbn [complete fst snd].
        destruct l as [|y l].
        - cbn [app JsonModel.prun pstep map rev]. destruct (complete _ fs) as (md', fs') eqn:E. reflexivity.
        - cbn [app JsonModel.prun pstep]. 
          rewrite (IHl IHr Gr ltac:(congruence) Gr). cbn [rev map]. rewrite <- app_assoc. reflexivity. }
      destruct l as [|x l].
      + cbn [telems app JsonModel.prun pstep canon map]. destruct (complete _ fs) as (md', fs') eqn:E. reflexivity.
      + specialize (A ltac:(congruence) H0 []). cbn [rev app] in A. cbn [canon]. rewrite <- A.
        inversion H0 as [|? ? Gx Gr]; subst. destruct (toks_first x Gx) as (t & tt & Et & Ft).
        cbn [telems]. rewrite Et. cbn [app].
        destruct t; try discriminate; cbn [JsonModel.prun pstep]; reflexivity.
    - rewrite toks_obj. cbn [app]. rewrite (prun_val _ _ _ (MKey0, fs)) by reflexivity.
      unfold pcont at 1. cbn [fst snd]. rewrite canon_obj.
      assert (A : m <> [] -> Forall (fun kv => raw_ok (snd kv)) m -> forall acc k0, prun (tmembers m ++ ts) MKey (FObj acc k0 :: fs) =
                 pcont (complete (JObj (cmembers m acc)) fs) ts).
      { clear G. induction m as [|(k, x) m IHm]; [congruence|]. intros _ GG acc k0.
        inversion IH as [|? ? IHx IHr]; subst. inversion GG as [|? ? Gx Gr]; subst. cbn [fst snd] in *. cbn [tmembers cmembers].
        cbn [app JsonModel.prun pstep]. rewrite <- app_assoc, (IHx Gx). unfold pcont at 1. cbn [complete fst snd].
        destruct m as [|y m].
        - cbn [app JsonModel.prun pstep cmembers]. destruct (complete _ fs) as (md', fs') eqn:E. reflexivity.
        - cbn [app JsonModel.prun pstep]. rewrite (IHm IHr (Forall_inv_tail H0) Gr ltac:(congruence) Gr). reflexivity. }
      destruct m as [|(k, x) m].
      + cbn [tmembers app JsonModel.prun pstep cmembers]. destruct (complete _ fs) as (md', fs') eqn:E. reflexivity.
      + specialize (A ltac:(congruence) H1 [] k). rewrite <- A. reflexivity.
  Qed.

  (** A line: the text of a value and what follows it up to the end. *)
  Lemma lex_all_lexx t : (forall c r, t = c :: r -> c <> 239) -> lex_all t = lexx t.
  Proof.
    intros H. destruct t as [|c t]; [reflexivity|]. unfold lex_all. specialize (H c t eq_refl).
    replace (c =? 239) with false by lia. reflexivity.
  Qed.

  Lemma scan_bom t : scan (239 :: t) = (TErr, t).
  Proof. reflexivity. Qed.

  Lemma parse_line j t : raw_ok j -> dump j = DOk t -> parse strtod (t ++ [10]) = POk (canon j).
  Proof.
    intros G E. destruct (dump_lexes j G) as (t' & E' & _ & L). rewrite E in E'. injection E' as <-.
    assert (S : stop [10]) by (cbn [stop]; unfold dig; lia). specialize (L [10] S).
    unfold parse. rewrite lex_all_lexx.
    - rewrite L, prun_toks by exact G. reflexivity.
    - intros c r H ->. rewrite H in L. destruct (toks_first j G) as (t1 & ts & Et & Ft). rewrite Et in L.
      unfold lexx in L at 1. cbn [lex] in L. rewrite scan_bom in L. cbn [app] in L. injection L as <- _. discriminate.
  Qed.

  Lemma parse_dump j t : raw_ok j -> dump j = DOk t -> parse strtod t = POk (canon j).
  Proof.
    intros G E. destruct (dump_lexes j G) as (t' & E' & _ & L). rewrite E in E'. injection E' as <-.
    specialize (L [] I). rewrite app_nil_r in L.
    unfold parse. rewrite lex_all_lexx.
    - rewrite L, prun_toks by exact G. reflexivity.
    - intros c r -> ->. destruct (toks_first j G) as (t1 & ts & Et & Ft). rewrite Et in L.
      unfold lexx in L at 1. cbn [lex] in L. rewrite scan_bom in L. cbn [app] in L. injection L as <- _. discriminate.
  Qed.
End Parse.
