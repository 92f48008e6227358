(** Facts about the parser: it takes the texts of GrammarSpec.v. *)
From Coq Require Import String Sorted.
From Verif Require Import Base JsonModel StoreModel JsonSpec LexSpec GrammarSpec JsonFacts ParseFacts TornFacts LexFacts.

(** ** Objects *)
Definition put (m : list (bytes * json)) (kv : bytes * json) : list (bytes * json) := mset (fst kv) (snd kv) m.

Lemma bcmp_lt_ne a b : bcmp a b = Lt -> a <> b.
Proof. intros H ->. rewrite bcmp_refl in H. discriminate H. Qed.

Lemma keylt_all (k : bytes) (v : json) m x : sorted ((k, v) :: m) -> In x m -> bcmp k (fst x) = Lt.
Proof. intros S I. inversion S as [|? ? _ F]; subst. rewrite Forall_forall in F. exact (F x I). Qed.

Lemma mset_elems k v (m : list (bytes * json)) : sorted m -> forall k' v', In (k', v') (mset k v m) <-> (k' = k /\ v' = v) \/ (k' <> k /\ In (k', v') m).
Proof.
  induction m as [|[a b] m IH]; intros S k' v'; cbn [mset].
  - cbn [In]. split; [intros [E|[]]; injection E as <- <-; auto|intros [[-> ->]|[_ []]]; auto].
  - assert (S' : sorted m) by (inversion S; assumption). destruct (bcmp k a) eqn:C.
    + apply bcmp_eq in C. subst a. cbn [In]. split.
      * intros [E|I]; [injection E as <- <-; auto|]. right. split; [|auto]. assert (Q := keylt_all k b m (k', v') S I). cbn [fst] in Q. apply bcmp_lt_ne in Q. auto.
      * intros [[-> ->]|[N [E|I]]]; [auto|injection E as -> ->; destruct (N eq_refl)|auto].
    + cbn [In]. split.
      * intros [E|[E|I]]; [injection E as <- <-; auto|injection E as <- <-|].
        { right. split; [apply not_eq_sym, bcmp_lt_ne, C|auto]. }
        { right. split; [|auto]. assert (Q := keylt_all a b m (k', v') S I). cbn [fst] in Q. apply not_eq_sym, bcmp_lt_ne. exact (bcmp_lt_trans _ _ _ C Q). }
      * intros [[-> ->]|[N [E|I]]]; auto.
    + cbn [In]. rewrite (IH S'). split.
      * intros [E|[E|[N I]]]; [injection E as <- <-|auto|auto]. right. split; [|auto]. intros ->. rewrite bcmp_refl in C. discriminate C.
      * intros [[-> ->]|[N [E|I]]]; auto.
Qed.

Lemma put_all ms : forall m, sorted m -> sorted (fold_left put ms m) /\ forall k v, In (k, v) (fold_left put ms m) <->
  (exists a b, ms = a ++ (k, v) :: b /\ ~ In k (map fst b)) \/ (~ In k (map fst ms) /\ In (k, v) m).
Proof.
  induction ms as [|[k0 v0] ms IH]; intros m S; cbn [fold_left].
  - split; [exact S|]. intros k v. cbn [map In]. split; [auto|]. intros [(a & b & E & _)|[_ I]]; [destruct a; discriminate E|exact I].
  - destruct (IH (put m (k0, v0)) (mset_sorted k0 v0 m S)) as [S' H]. split; [exact S'|]. intros k v. rewrite H. unfold put. cbn [fst snd map In].
    rewrite (mset_elems k0 v0 m S). split.
    + intros [(a & b & -> & N)|[N [[-> ->]|[N2 I]]]].
      * left. exists ((k0, v0) :: a), b. auto.
      * left. exists [], ms. auto.
      * right. split; [intros [E|E]; [destruct (N2 (eq_sym E))|exact (N E)]|exact I].
    + intros [(a & b & E & N)|[N I]].
      * destruct a as [|x a]; cbn [app] in E.
        { injection E as E1 E2 E3. subst. right. split; [exact N|left; auto]. }
        { injection E as E1 E2. left. exists a, b. auto. }
      * right. split; [tauto|]. right. split; [|exact I]. intros ->. tauto.
Qed.

Lemma put_object ms : object_of ms (fold_left put ms []).
Proof.
  destruct (put_all ms [] (SSorted_nil _)) as [S H]. split; [exact S|]. intros k v. rewrite H. split; [|auto]. intros [Q|[_ []]]. exact Q.
Qed.

Lemma sorted_same (m : list (bytes * json)) : forall m', sorted m -> sorted m' -> (forall x, In x m <-> In x m') -> m = m'.
Proof.
  assert (A : forall (x y : bytes * json), keylt x y -> keylt y x -> False).
  { intros x y P Q. unfold keylt in *. assert (R := bcmp_lt_trans _ _ _ P Q). rewrite bcmp_refl in R. discriminate R. }
  induction m as [|x m IH]; intros m' S S' H.
  - destruct m' as [|y m']; [reflexivity|]. destruct (proj2 (H y) (or_introl eq_refl)).
  - destruct m' as [|y m']; [destruct (proj1 (H x) (or_introl eq_refl))|].
    inversion S as [|? ? S1 F]; subst. inversion S' as [|? ? S1' F']; subst. rewrite Forall_forall in F, F'.
    assert (x = y).
    { destruct (proj1 (H x) (or_introl eq_refl)) as [->|I]; [reflexivity|]. destruct (proj2 (H y) (or_introl eq_refl)) as [->|I']; [reflexivity|].
      destruct (A x y (F y I') (F' x I)). }
    subst y. f_equal. apply IH; [assumption..|]. intros z. split; intros I.
    + destruct (proj1 (H z) (or_intror I)) as [->|I']; [destruct (A z z (F z I) (F z I))|exact I'].
    + destruct (proj2 (H z) (or_intror I)) as [->|I']; [destruct (A z z (F' z I) (F' z I))|exact I'].
Qed.

Lemma object_unique ms m : object_of ms m -> m = fold_left put ms [].
Proof.
  intros [S H]. destruct (put_object ms) as [S' H']. apply sorted_same; [assumption..|]. intros [k v]. rewrite H, H'. tauto.
Qed.

(** ** The parser *)
Section P.
  Variable strtod : bytes -> option Z.
  Notation prun := (prun strtod). Notation value_of := (value_of strtod). Notation elements := (elements strtod). Notation members := (members strtod).
  Definition after (v : json) (fs : list frame) (k : list token) : pres := let '(md, fs') := complete v fs in prun k md fs'.

  Scheme value_ind := Induction for GrammarSpec.value_of Sort Prop
    with elements_ind := Induction for GrammarSpec.elements Sort Prop
    with members_ind := Induction for GrammarSpec.members Sort Prop.
  Combined Scheme grammar_ind from value_ind, elements_ind, members_ind.

  Definition opens (t : token) : bool := match t with TNull | TTrue | TFalse | TUns _ | TInt _ | TFloat _ | TStr _ | TBeginArr | TBeginObj => true | _ => false end.
  Lemma value_opens ts v : value_of ts v -> exists t ts', ts = t :: ts' /\ opens t = true.
  Proof. intros H. inversion H; subst; eexists _, _; split; reflexivity. Qed.
  Lemma elements_opens ts l : elements ts l -> exists t ts', ts = t :: ts' /\ opens t = true.
  Proof.
    intros H. inversion H as [ts' v V|ts' v ts2 l' V E]; subst; destruct (value_opens _ _ V) as (t & u & -> & O); [eauto|]. cbn [app]. eauto.
  Qed.
  Lemma arr0_val t ts fs : opens t = true -> prun (t :: ts) MArr0 fs = prun (t :: ts) MVal (FArr [] :: fs).
  Proof. destruct t; intros H; try discriminate H; reflexivity. Qed.

  Lemma parse_out :
    (forall ts v, value_of ts v -> forall fs k, prun (ts ++ k) MVal fs = after v fs k) /\
    (forall ts l, elements ts l -> forall acc fs k, prun (ts ++ TEndArr :: k) MVal (FArr acc :: fs) = after (JArr (rev acc ++ l)) fs k) /\
    (forall ts ms, members ts ms -> forall m k0 fs k, prun (ts ++ TEndObj :: k) MKey (FObj m k0 :: fs) = after (JObj (fold_left put ms m)) fs k /\
       (m = [] -> prun (ts ++ TEndObj :: k) MKey0 fs = after (JObj (fold_left put ms m)) fs k)).
  Proof.
    apply (grammar_ind strtod
      (fun ts v _ => forall fs k, prun (ts ++ k) MVal fs = after v fs k)
      (fun ts l _ => forall acc fs k, prun (ts ++ TEndArr :: k) MVal (FArr acc :: fs) = after (JArr (rev acc ++ l)) fs k)
      (fun ts ms _ => forall m k0 fs k, prun (ts ++ TEndObj :: k) MKey (FObj m k0 :: fs) = after (JObj (fold_left put ms m)) fs k /\
         (m = [] -> prun (ts ++ TEndObj :: k) MKey0 fs = after (JObj (fold_left put ms m)) fs k))).
    1-5, 7: intros; unfold after; cbn; destruct (complete _ _); reflexivity.
    - intros x z E fs k. unfold after. cbn. rewrite E. destruct (complete _ _); reflexivity.
    - intros fs k. unfold after. cbn. destruct (complete _ _); reflexivity.
    - intros ts l E IH fs k. cbn [app]. rewrite <- app_assoc. cbn [app]. cbn [JsonModel.prun pstep start_value].
      specialize (IH [] fs k). cbn [rev app] in IH. rewrite <- IH. destruct (elements_opens ts l E) as (t & u & -> & O). cbn [app]. apply arr0_val, O.
    - intros fs k. unfold after. cbn. destruct (complete _ _); reflexivity.
    - intros ts ms m M IH O fs k. cbn [app]. rewrite <- app_assoc. cbn [app]. cbn [JsonModel.prun pstep start_value].
      rewrite (object_unique ms m O). exact (proj2 (IH [] [] fs k) eq_refl).
    - intros ts v V IH acc fs k. rewrite IH. unfold after at 1. cbn [complete JsonModel.prun pstep].
      unfold after. cbn [rev]. destruct (complete _ _); reflexivity.
    - intros ts v ts' l V IH E IH2 acc fs k. rewrite <- app_assoc. cbn [app]. rewrite IH. unfold after at 1. cbn [complete JsonModel.prun pstep].
      rewrite IH2. cbn [rev]. rewrite <- app_assoc. reflexivity.
    - intros k1 ts v V IH m k0 fs k. cbn [app fold_left]. split; [|intros ->]; cbn [JsonModel.prun pstep]; rewrite IH; unfold after; cbn [complete JsonModel.prun pstep]; destruct (complete _ _); reflexivity.
    - intros k1 ts v ts' l V IH M IH2 m k0 fs k. cbn [app fold_left]. rewrite <- app_assoc. cbn [app].
      split; [|intros ->]; cbn [JsonModel.prun pstep]; rewrite IH; unfold after at 1; cbn [complete JsonModel.prun pstep]; apply IH2.
  Qed.

  Lemma prun_nofuel t ts md fs j : prun (t :: ts) md fs = POk j -> (forall v, md <> MDone v) -> exists md' fs', pstep strtod t md fs = Some (md', fs') /\ prun ts md' fs' = POk j.
  Proof.
    intros H N. destruct t; cbn [JsonModel.prun] in H; try discriminate H;
    (destruct md as [| | | | | |v]; [..|destruct (N v eq_refl)]);
    (destruct (pstep strtod _ _ fs) as [[md' fs']|]; [exists md', fs'; auto|discriminate H]).
  Qed.

  (** What may come after an element of an array and a member of an object. *)
  Definition more_elements (ts : list token) (l : list json) : Prop := (ts = [] /\ l = []) \/ exists ts', ts = TComma :: ts' /\ elements ts' l.
  Definition more_members (ts : list token) (ms : list (bytes * json)) : Prop := (ts = [] /\ ms = []) \/ exists ts', ts = TComma :: ts' /\ members ts' ms.

  Lemma elements_cons ts v ts' l : value_of ts v -> more_elements ts' l -> elements (ts ++ ts') (v :: l).
  Proof. intros V [[-> ->]|(u & -> & E)]; [rewrite app_nil_r; constructor; exact V|apply e_more; assumption]. Qed.
  Lemma members_cons k ts v ts' l : value_of ts v -> more_members ts' l -> members (TStr k :: TColon :: ts ++ ts') ((k, v) :: l).
  Proof. intros V [[-> ->]|(u & -> & E)]; [rewrite app_nil_r; constructor; exact V|apply m_more; assumption]. Qed.

  Lemma parse_in n : forall ts j, (length ts <= n)%nat ->
    (forall fs, prun ts MVal fs = POk j -> exists ts1 v ts2, ts = ts1 ++ ts2 /\ value_of ts1 v /\ after v fs ts2 = POk j) /\
    (forall acc fs, prun ts MAfter (FArr acc :: fs) = POk j -> exists ts1 l ts2, ts = ts1 ++ TEndArr :: ts2 /\ more_elements ts1 l /\ after (JArr (rev acc ++ l)) fs ts2 = POk j) /\
    (forall m k fs, prun ts MAfter (FObj m k :: fs) = POk j -> exists ts1 ms ts2, ts = ts1 ++ TEndObj :: ts2 /\ more_members ts1 ms /\ after (JObj (fold_left put ms m)) fs ts2 = POk j) /\
    (forall m k fs, prun ts MColon (FObj m k :: fs) = POk j -> exists ts1 v ts2 ms ts3, ts = TColon :: ts1 ++ ts2 ++ TEndObj :: ts3 /\ value_of ts1 v /\ more_members ts2 ms /\
       after (JObj (fold_left put ((k, v) :: ms) m)) fs ts3 = POk j).
  Proof.
    induction n as [|n IH]; intros ts j L.
    { destruct ts as [|]; [|cbn in L; lia]. repeat split; intros; discriminate. }
    destruct ts as [|t ts]; [repeat split; intros; discriminate|]. cbn [length] in L.
    assert (L1 : (length ts <= n)%nat) by lia.
    split; [|split; [|split]].
    - intros fs H. apply prun_nofuel in H; [|discriminate]. destruct H as (md & fs' & P & H). cbn [pstep] in P.
      assert (One : forall v, complete v fs = (md, fs') -> value_of [t] v -> exists ts1 v ts2, t :: ts = ts1 ++ ts2 /\ value_of ts1 v /\ after v fs ts2 = POk j).
      { intros v E V. exists [t], v, ts. split; [reflexivity|]. split; [exact V|]. unfold after. rewrite E. exact H. }
      destruct t; cbn [start_value] in P; try discriminate P.
      + injection P as <- <-. destruct ts as [|t ts]; [discriminate H|]. destruct (opens t) eqn:O.
        * rewrite arr0_val in H by exact O. destruct (proj1 (IH (t :: ts) j L1) _ H) as (ts1 & v & ts2 & E & V & A).
          unfold after in A. cbn [complete] in A. assert (L2 : (length ts2 <= n)%nat) by (rewrite E, app_length in L1; lia).
          destruct (proj1 (proj2 (IH ts2 j L2)) _ _ A) as (ts3 & l & ts4 & -> & M & A2). cbn [rev app] in A2.
          exists (TBeginArr :: (ts1 ++ ts3) ++ [TEndArr]), (JArr (v :: l)), ts4. split; [rewrite E; cbn [app]; rewrite <- !app_assoc; reflexivity|].
          split; [apply jt_arr, elements_cons; assumption|exact A2].
        * apply prun_nofuel in H; [|discriminate]. destruct H as (md & fs' & P & H). destruct t; try discriminate O; cbn in P; try discriminate P. injection P as P.
          exists [TBeginArr; TEndArr], (JArr []), ts. split; [reflexivity|]. split; [constructor|]. unfold after. rewrite P. exact H.
      + injection P as <- <-. destruct ts as [|t ts]; [discriminate H|].
        apply prun_nofuel in H; [|discriminate]. destruct H as (md & fs' & P & H). cbn [length] in L1. assert (L2 : (length ts <= n)%nat) by lia. destruct t; cbn in P; try discriminate P.
        * injection P as P. exists [TBeginObj; TEndObj], (JObj []), ts. split; [reflexivity|]. split; [constructor|]. unfold after. rewrite P. exact H.
        * injection P as <- <-. destruct (proj2 (proj2 (proj2 (IH ts j L2))) _ _ _ H) as (ts1 & v & ts2 & ms & ts3 & -> & V & M & A).
          exists (TBeginObj :: (TStr s :: TColon :: ts1 ++ ts2) ++ [TEndObj]), (JObj (fold_left put ((s, v) :: ms) [])), ts3. split; [cbn [app]; rewrite <- !app_assoc; reflexivity|].
          split; [|exact A]. apply (jt_obj strtod _ ((s, v) :: ms)); [apply members_cons; assumption|apply put_object].
      + injection P as P. exact (One _ P (jt_true _)).
      + injection P as P. exact (One _ P (jt_false _)).
      + injection P as P. exact (One _ P (jt_null _)).
      + injection P as P. exact (One _ P (jt_str _ _)).
      + injection P as P. exact (One _ P (jt_uns _ _)).
      + injection P as P. exact (One _ P (jt_int _ _)).
      + destruct (strtod text) as [z|] eqn:Q; [|discriminate P]. injection P as P. exact (One _ P (jt_real _ _ _ Q)).
    - intros acc fs H. apply prun_nofuel in H; [|discriminate]. destruct H as (md & fs' & P & H). destruct t; cbn [pstep] in P; try discriminate P; injection P as P.
      + exists [], [], ts. split; [reflexivity|]. split; [left; auto|]. rewrite app_nil_r. unfold after. rewrite P. exact H.
      + intros. destruct (proj1 (IH ts j L1) (FArr acc :: fs)) as (ts1 & v & ts2 & -> & V & A); [subst md fs'; exact H|].
        unfold after in A. cbn [complete] in A. assert (L2 : (length ts2 <= n)%nat) by (rewrite app_length in L1; lia).
        destruct (proj1 (proj2 (IH ts2 j L2)) _ _ A) as (ts3 & l & ts4 & -> & M & A2). cbn [rev] in A2. rewrite <- app_assoc in A2.
        exists (TComma :: ts1 ++ ts3), (v :: l), ts4. split; [cbn [app]; rewrite <- !app_assoc; reflexivity|]. split; [right; exists (ts1 ++ ts3); split; [reflexivity|apply elements_cons; assumption]|exact A2].
    - intros m k fs H. apply prun_nofuel in H; [|discriminate]. destruct H as (md & fs' & P & H). destruct t; cbn [pstep] in P; try discriminate P; injection P as P.
      + exists [], [], ts. split; [reflexivity|]. split; [left; auto|]. unfold after. cbn [fold_left]. rewrite P. exact H.
      + intros. subst md fs'. destruct ts as [|t ts]; [discriminate H|].
        apply prun_nofuel in H; [|discriminate]. destruct H as (md & fs' & P & H). cbn [length] in L1. assert (L2 : (length ts <= n)%nat) by lia. destruct t; cbn in P; try discriminate P.
        injection P as <- <-. destruct (proj2 (proj2 (proj2 (IH ts j L2))) _ _ _ H) as (ts1 & v & ts2 & ms & ts3 & -> & V & M & A).
        exists (TComma :: TStr s :: TColon :: ts1 ++ ts2), ((s, v) :: ms), ts3. split; [cbn [app]; rewrite <- !app_assoc; reflexivity|].
        split; [right; eexists; split; [reflexivity|apply members_cons; assumption]|exact A].
    - intros m k fs H. apply prun_nofuel in H; [|discriminate]. destruct H as (md & fs' & P & H). destruct t; cbn [pstep] in P; try discriminate P. injection P as <- <-.
      destruct (proj1 (IH ts j L1) _ H) as (ts1 & v & ts2 & -> & V & A). unfold after in A. cbn [complete] in A. assert (L2 : (length ts2 <= n)%nat) by (rewrite app_length in L1; lia).
      destruct (proj1 (proj2 (proj2 (IH ts2 j L2))) _ _ _ A) as (ts3 & ms & ts4 & -> & M & A2). exists ts1, v, ts3, ms, ts4. auto.
  Qed.

  Lemma prun_value ts j : prun ts MVal [] = POk j <-> exists ts1 ts2, ts = ts1 ++ TEnd :: ts2 /\ value_of ts1 j.
  Proof.
    split.
    - intros H. destruct (proj1 (parse_in (length ts) ts j (le_n _)) [] H) as (ts1 & v & ts2 & -> & V & A). unfold after in A. cbn [complete] in A.
      destruct ts2 as [|t ts2]; [discriminate A|]. destruct t; cbn in A; try discriminate A. injection A as ->. eauto.
    - intros (ts1 & ts2 & -> & V). rewrite (proj1 parse_out ts1 j V). reflexivity.
  Qed.
End P.

(** ** Texts *)
Definition tail_ok (z : bytes) : Prop := z = [] \/ exists r, z = 0 :: r.

Lemma number_no_zero x more t : ~ number_text (x ++ 0 :: more) t.
Proof.
  intros H. apply number_inv in H. destruct H as (neg & y & s & E & R & A & _).
  assert (Z0 : forall k s1 s2, nrun s1 k = Some s2 -> ~ In 0 k).
  { induction k as [|c k IH]; intros s1 s2 Q I; [destruct I|]. cbn [nrun] in Q. destruct (num_next s1 c) as [s3| |] eqn:N; [|discriminate Q..].
    destruct I as [->|I]; [destruct s1; discriminate N|exact (IH _ _ Q I)]. }
  assert (I : In 0 (sgn neg ++ y)) by (rewrite <- E; apply in_elt). apply in_app_or in I. destruct I as [I|I]; [destruct neg; cbn in I; lia|exact (Z0 _ _ _ R I)].
Qed.

Lemma longest_tail x r z : tail_ok z -> longest x r <-> longest x (r ++ z).
Proof.
  intros T. unfold longest. destruct r as [|c r]; cbn [app].
  - split; [|intros _ c r' more t E; discriminate E]. intros _ c r' more t E. destruct T as [->|(r & ->)]; [discriminate E|]. injection E as <- <-. apply number_no_zero.
  - split; intros H c1 r1 more t E; injection E as <- <-; exact (H c _ more t eq_refl).
Qed.

Lemma lexx_end l r : scan l = (TEnd, r) -> lexx l = [TEnd].
Proof. intros E. unfold lexx. cbn [lex]. rewrite E. reflexivity. Qed.

Lemma proper_terminal t : proper t <-> terminal t = false.
Proof. unfold proper. split; [intros (A & B & C); destruct t; try reflexivity; congruence|intros H; destruct t; try discriminate H; repeat split; discriminate]. Qed.

Lemma tokens_lex x ts : tokens x ts -> forall z, tail_ok z -> lexx (x ++ z) = ts ++ [TEnd].
Proof.
  induction 1 as [l S|ws x r t ts S T L K IH]; intros z Z.
  - destruct Z as [->|(r & ->)].
    + apply (lexx_end _ []). apply scan_end. left. rewrite app_nil_r. auto.
    + apply (lexx_end _ r). apply scan_end. right. exists l. auto.
  - rewrite <- !app_assoc. cbn [app]. rewrite <- (IH z Z). destruct (proj2 (scan_tokens (ws ++ x ++ r ++ z) t (r ++ z))) as [E P].
    + exists ws, x. repeat split; [exact S|exact T|apply longest_tail; assumption].
    + apply lexx_step; [exact E|apply proper_terminal, P].
Qed.

Lemma lex_tokens n : forall l ts u, (length l <= n)%nat -> lexx l = ts ++ TEnd :: u -> exists x z, l = x ++ z /\ tail_ok z /\ tokens x ts.
Proof.
  induction n as [|n IH]; intros l ts u L E.
  - destruct l as [|]; [|cbn in L; lia]. exists [], []. split; [reflexivity|]. split; [left; reflexivity|]. unfold lexx in E. cbn in E. destruct ts as [|t ts]; [|destruct ts; discriminate E]. repeat constructor.
  - destruct (scan l) as [t r] eqn:Q. destruct (terminal t) eqn:T.
    + assert (lexx l = [t]) as E2 by (unfold lexx; cbn [lex]; rewrite Q; destruct t; try discriminate T; reflexivity). rewrite E2 in E.
      destruct ts as [|t' ts]; [|destruct ts; discriminate E]. injection E as -> _. apply scan_end in Q. destruct Q as [[S ->]|(ws & -> & S)].
      * exists l, []. rewrite app_nil_r. split; [reflexivity|]. split; [left; reflexivity|constructor; exact S].
      * exists ws, (0 :: r). split; [reflexivity|]. split; [right; eauto|constructor; exact S].
    + rewrite (lexx_step l t r Q T) in E. assert (L2 := scan_len l t r Q T).
      destruct ts as [|t' ts]; cbn [app] in E; injection E as -> E; [discriminate T|].
      destruct (IH r ts u ltac:(lia) E) as (x & z & -> & Z & K). destruct (proj1 (scan_tokens l t' (x ++ z)) (conj Q (proj2 (proper_terminal t') T))) as (ws & y & -> & S & Y & G).
      exists (ws ++ y ++ x), z. split; [rewrite <- !app_assoc; reflexivity|]. split; [exact Z|]. apply tk_more; [exact S|exact Y|apply (longest_tail y x z Z), G|exact K].
Qed.

Lemma prun_lexx strtod l j : prun strtod (lexx l) MVal [] = POk j <-> exists x z, l = x ++ z /\ tail_ok z /\ json_text strtod x j.
Proof.
  rewrite prun_value. split.
  - intros (ts & u & E & V). destruct (lex_tokens _ l ts u (le_n _) E) as (x & z & -> & Z & K). exists x, z. split; [reflexivity|]. split; [exact Z|]. exists ts. auto.
  - intros (x & z & -> & Z & ts & K & V). exists ts, []. split; [exact (tokens_lex x ts K z Z)|exact V].
Qed.

Lemma scan_239 r : scan (239 :: r) = (TErr, r).
Proof. reflexivity. Qed.

Theorem parse_text strtod l j : parse strtod l = POk j <->
  exists b x z, l = b ++ x ++ z /\ (b = [] \/ b = [239; 187; 191]) /\ (z = [] \/ exists r, z = 0 :: r) /\ json_text strtod x j.
Proof.
  assert (B : forall r, prun strtod (lexx (239 :: r)) MVal [] <> POk j).
  { intros r. unfold lexx. cbn [lex]. rewrite scan_239. discriminate. }
  unfold parse, lex_all. split.
  - intros H. destruct l as [|c t].
    { apply (prun_lexx strtod [] j) in H. destruct H as (x & z & E & Z & T). exists [], x, z. auto. }
    destruct (Z.eqb_spec c 239) as [->|N].
    + destruct t as [|a [|b r]]; try discriminate H. destruct ((a =? 187) && (b =? 191)) eqn:Q; [|discriminate H].
      assert (a = 187) by lia. assert (b = 191) by lia. subst a b. apply (prun_lexx strtod r j) in H. destruct H as (x & z & -> & Z & T). exists [239; 187; 191], x, z. auto.
    + apply (prun_lexx strtod (c :: t) j) in H. destruct H as (x & z & E & Z & T). exists [], x, z. auto.
  - intros (b & x & z & -> & [->| ->] & Z & T).
    + assert (H : prun strtod (lexx (x ++ z)) MVal [] = POk j) by (apply prun_lexx; exists x, z; auto). cbn [app]. destruct (x ++ z) as [|c t]; [exact H|].
      destruct (Z.eqb_spec c 239) as [->|N]; [destruct (B t H)|exact H].
    + cbn [app Z.eqb Pos.eqb andb]. apply (prun_lexx strtod (x ++ z) j). exists x, z. auto.
Qed.

Lemma lexx_nofuel n : forall l, (length l <= n)%nat -> ~ In TFuel (lexx l).
Proof.
  induction n as [|n IH]; intros l L I.
  - destruct l as [|]; [|cbn in L; lia]. cbn in I. destruct I as [I|[]]. discriminate I.
  - destruct (scan l) as [t r] eqn:Q. destruct (terminal t) eqn:T.
    + assert (lexx l = [t]) as E by (unfold lexx; cbn [lex]; rewrite Q; destruct t; try discriminate T; reflexivity). rewrite E in I. destruct I as [->|[]]. exact (scan_fuel l r Q).
    + rewrite (lexx_step l t r Q T) in I. assert (L2 := scan_len l t r Q T). destruct I as [->|I]; [discriminate T|]. exact (IH r ltac:(lia) I).
Qed.

Lemma prun_fuel strtod ts : forall md fs, ~ In TFuel ts -> prun strtod ts md fs <> PFuel.
Proof.
  induction ts as [|t ts IH]; intros md fs N; [discriminate|]. cbn [In] in N.
  assert (N1 : t <> TFuel) by tauto. assert (N2 : ~ In TFuel ts) by tauto.
  destruct t; try congruence; cbn [JsonModel.prun]; (destruct md; [..|discriminate]);
  (destruct (pstep strtod _ _ fs) as [[md' fs']|]; [apply IH, N2|discriminate]).
Qed.

Theorem parse_total strtod l : parse strtod l <> PFuel.
Proof.
  unfold parse. apply prun_fuel. unfold lex_all. destruct l as [|c t]; [exact (lexx_nofuel _ [] (le_n _))|].
  destruct (c =? 239); [|exact (lexx_nofuel _ (c :: t) (le_n _))].
  destruct t as [|a [|b r]]; try (cbn [In]; intuition discriminate).
  destruct (_ && _); [exact (lexx_nofuel _ r (le_n _))|cbn [In]; intuition discriminate].
Qed.

(** ** Events *)
Lemma mfind_in (m : list (bytes * json)) k j : sorted m -> (mfind k m = Some j <-> In (k, j) m).
Proof.
  induction m as [|[a b] m IH]; intros S; cbn [mfind In]; [split; [discriminate|intros []]|].
  assert (S' : sorted m) by (inversion S; assumption). destruct (bcmp k a) eqn:C.
  - apply bcmp_eq in C. subst a. split; [intros E; injection E as ->; auto|]. intros [E|I]; [injection E as ->; reflexivity|].
    assert (Q := keylt_all k b m (k, j) S I). cbn [fst] in Q. rewrite bcmp_refl in Q. discriminate Q.
  - split; [discriminate|]. intros [E|I].
    + injection E as -> ->. rewrite bcmp_refl in C. discriminate C.
    + assert (Q := keylt_all a b m (k, j) S I). cbn [fst] in Q. assert (R := bcmp_lt_trans _ _ _ C Q). rewrite bcmp_refl in R. discriminate R.
  - rewrite (IH S'). split; [auto|]. intros [E|I]; [|exact I]. injection E as -> ->. rewrite bcmp_refl in C. discriminate C.
Qed.
Lemma mfind_none (m : list (bytes * json)) k : sorted m -> (mfind k m = None <-> ~ In k (map fst m)).
Proof.
  intros S. split.
  - intros E I. apply in_map_iff in I. destruct I as ([a b] & Q & I). cbn [fst] in Q. subst a. apply (mfind_in m k b S) in I. congruence.
  - intros N. destruct (mfind k m) as [j|] eqn:E; [|reflexivity]. apply (mfind_in m k j S) in E. destruct N. apply in_map_iff. exists (k, j). auto.
Qed.

Lemma cbind_ok {A B} (r : cres A) (f : A -> cres B) b : cbind r f = COk b <-> exists a, r = COk a /\ f a = COk b.
Proof. destruct r; cbn [cbind]; (split; [intros H|intros (x & E & H)]); try discriminate; [eauto|injection E as ->; exact H]. Qed.

Lemma get_str_ok j s : get_str j = COk s <-> str_of j s.
Proof. unfold str_of. destruct j; cbn; split; intros H; try discriminate H; congruence. Qed.
Lemma get_u64_ok j n : get_u64 j = COk n <-> word_of j n.
Proof.
  unfold word_of. destruct j; cbn [get_u64]; split; try (intros H; discriminate H); try (intros [H|[(? & H & _)|[H _]]]; discriminate H).
  - intros H. injection H as <-. right. left. exists z. split; [reflexivity|unfold w64, M64; reflexivity].
  - intros [H|[(y & H & ->)|[H _]]]; try discriminate H. injection H as ->. reflexivity.
  - intros H. injection H as <-. auto.
  - intros [H|[(y & H & ->)|[H _]]]; try discriminate H. injection H as ->. reflexivity.
  - destruct ((0 <=? z) && (z <? M64)) eqn:B; [|discriminate]. intros H. injection H as <-. right. right. split; [reflexivity|unfold M64 in B; lia].
  - intros [H|[(y & H & ->)|[H R]]]; try discriminate H. injection H as ->. replace ((0 <=? n) && (n <? M64)) with true by (unfold M64; lia). reflexivity.
Qed.
Lemma s64_ok z n : s64 z = n <-> - 2 ^ 63 <= n < 2 ^ 63 /\ (n - z) mod 2 ^ 64 = 0.
Proof.
  unfold s64, w64, M64. assert (B := Z.mod_pos_bound z (2 ^ 64) ltac:(lia)). assert (E := Z.div_mod z (2 ^ 64) ltac:(lia)). split.
  - intros <-. destruct (Z.ltb_spec (z mod 2 ^ 64) (2 ^ 63)); (split; [lia|]).
    + apply Z.mod_divide; [lia|]. exists (- (z / 2 ^ 64)). lia.
    + apply Z.mod_divide; [lia|]. exists (- (z / 2 ^ 64) - 1). lia.
  - intros [R D]. apply Z.mod_divide in D; [|lia]. destruct D as [q D]. destruct (Z.ltb_spec (z mod 2 ^ 64) (2 ^ 63)); lia.
Qed.
Lemma get_i64_ok j n : get_i64 j = COk n <-> long_of j n.
Proof.
  unfold long_of. destruct j; cbn [get_i64]; split; try (intros H; discriminate H); try (intros [(? & H & _)|[H|[H _]]]; discriminate H).
  - intros H. injection H as <-. auto.
  - intros [(y & H & _)|[H|[H _]]]; try discriminate H. injection H as ->. reflexivity.
  - intros H. left. exists z. split; [reflexivity|]. apply s64_ok. congruence.
  - intros [(y & H & Q)|[H|[H _]]]; try discriminate H. injection H as ->. f_equal. apply s64_ok, Q.
  - destruct ((- 2 ^ 63 <=? z) && (z <? 2 ^ 63)) eqn:B; [|discriminate]. intros H. injection H as <-. right. right. split; [reflexivity|lia].
  - intros [(y & H & _)|[H|[H R]]]; try discriminate H. injection H as ->. replace ((- 2 ^ 63 <=? n) && (n <? 2 ^ 63)) with true by lia. reflexivity.
Qed.

Lemma get_members_ok {A} get (P : json -> A -> Prop) (G : forall j a, get j = COk a <-> P j a) m : forall l,
  get_members get m = COk l <-> Forall2 (fun a b => fst a = fst b /\ P (snd a) (snd b)) m l.
Proof.
  induction m as [|[k j] m IH]; intros l; cbn [get_members].
  - split; [intros H; injection H as <-; constructor|intros H; inversion H; reflexivity].
  - rewrite cbind_ok. split.
    + intros (a & E & H). apply cbind_ok in H. destruct H as (t & E2 & H). injection H as <-. constructor; [cbn; split; [reflexivity|apply G, E]|apply IH, E2].
    + intros H. inversion H as [|? [k' a] ? t [K Q] F]; subst. cbn [fst snd] in *. subst k'. exists a. split; [apply G, Q|]. apply IH in F. rewrite F. reflexivity.
Qed.
Lemma get_map_ok {A} get (P : json -> A -> Prop) (G : forall j a, get j = COk a <-> P j a) j l : get_map get j = COk l <-> map_of P j l.
Proof.
  unfold map_of. destruct j; cbn [get_map]; try (split; [discriminate|intros (m' & H & _); discriminate H]).
  rewrite (get_members_ok get P G). split; [eauto|]. intros (m' & E & F). injection E as ->. exact F.
Qed.

Lemma bcmp_case a b : (bcmp a b = Eq /\ a = b) \/ (bcmp a b <> Eq /\ a <> b).
Proof. destruct (bcmp a b) eqn:C; [left; split; [reflexivity|apply bcmp_eq, C]|right..]; (split; [discriminate|intros ->; rewrite bcmp_refl in C; discriminate C]). Qed.
Lemma text_cat_ok j c : text_cat j = c <-> cat_of j c.
Proof.
  destruct j; cbn [text_cat]; try (split; [intros <-; split; discriminate|destruct c; [reflexivity|discriminate..]]).
  assert (D1 : bs "operation" <> bs "statistic") by discriminate. assert (D2 : bs "operation" <> bs "metadata") by discriminate. assert (D3 : bs "statistic" <> bs "metadata") by discriminate.
  unfold cat_of.
  destruct (bcmp_case s (bs "operation")) as [[E1 M1]|[E1 M1]]; destruct (bcmp_case s (bs "statistic")) as [[E2 M2]|[E2 M2]];
  destruct (bcmp_case s (bs "metadata")) as [[E3 M3]|[E3 M3]]; try congruence;
  destruct (bcmp s (bs "operation")); try congruence; destruct (bcmp s (bs "statistic")); try congruence; destruct (bcmp s (bs "metadata")); try congruence;
  destruct c; split; intros H; try discriminate H; try reflexivity;
  first [congruence|split; congruence|exfalso; injection H; intros; congruence|exfalso; destruct H as [H1 H2]; first [apply H1; congruence|apply H2; congruence]].
Qed.

Lemma jat_ok {A} (k : string) m get (P : json -> A -> Prop) (G : forall j a, get j = COk a <-> P j a) a : sorted m ->
  cbind (jat k m) get = COk a <-> must P (bs k) m a.
Proof.
  intros S. unfold must, jat. destruct (mfind (bs k) m) as [j|] eqn:E; cbn [cbind].
  - apply (mfind_in m _ j S) in E. rewrite G. split; [eauto|]. intros (j' & I & Q). apply (mfind_in m _ j' S) in I. apply (mfind_in m _ j S) in E. congruence.
  - split; [discriminate|]. intros (j & I & _). apply (mfind_in m _ j S) in I. congruence.
Qed.
Lemma maybe_ok {A} k m get (P : json -> list A -> Prop) (G : forall j a, get j = COk a <-> P j a) a : sorted m ->
  (match mfind k m with Some j => get j | None => COk [] end) = COk a <-> maybe P k m a.
Proof.
  intros S. unfold maybe. destruct (mfind k m) as [j|] eqn:E.
  - rewrite G. split; [intros Q; left; exists j; split; [apply mfind_in; assumption|exact Q]|].
    intros [(j' & I & Q)|[N _]]; [apply (mfind_in m _ j' S) in I; congruence|]. apply (mfind_none m k S) in N. congruence.
  - split; [intros Q; injection Q as <-; right; split; [apply mfind_none; assumption|reflexivity]|].
    intros [(j' & I & Q)|[_ ->]]; [apply (mfind_in m _ j' S) in I; congruence|reflexivity].
Qed.

Lemma from_json_ok m e : sorted m -> from_json (JObj m) = COk e <-> event_of (JObj m) e.
Proof.
  intros S. cbn [from_json]. split.
  - intros H. apply cbind_ok in H. destruct H as (n & N & H). apply cbind_ok in H. destruct H as (c & C & H). apply cbind_ok in H. destruct H as (ss & SS & H).
    apply cbind_ok in H. destruct H as (ns & NS & H). apply cbind_ok in H. destruct H as (ts & TS & H). apply cbind_ok in H. destruct H as (t & T & H). injection H as <-.
    exists m. cbn [v_name v_cat v_str v_num v_tag v_time]. split; [reflexivity|].
    split; [apply (jat_ok "name" m get_str str_of get_str_ok n S), N|].
    split. { unfold jat in C. destruct (mfind (bs "category") m) as [j|] eqn:Q; [|discriminate C]. injection C as ->. apply (mfind_in m _ c S) in Q. exists c. split; [exact Q|apply text_cat_ok; reflexivity]. }
    split; [apply (maybe_ok _ m _ _ (get_map_ok get_str str_of get_str_ok) ss S), SS|]. split; [apply (maybe_ok _ m _ _ (get_map_ok get_u64 word_of get_u64_ok) ns S), NS|].
    split; [apply (jat_ok "tags" m _ _ (get_map_ok get_str str_of get_str_ok) ts S), TS|apply (jat_ok "timestamp" m _ _ get_i64_ok t S), T].
  - intros (m' & E & N & (c & C & CC) & SS & NS & TS & T). injection E as <-.
    apply (jat_ok "name" m get_str str_of get_str_ok _ S) in N. rewrite N. cbn [cbind].
    assert (Q : jat "category" m = COk c) by (unfold jat; apply (mfind_in m _ c S) in C; rewrite C; reflexivity). rewrite Q. cbn [cbind].
    apply (maybe_ok _ m _ _ (get_map_ok get_str str_of get_str_ok) _ S) in SS. rewrite SS. cbn [cbind].
    apply (maybe_ok _ m _ _ (get_map_ok get_u64 word_of get_u64_ok) _ S) in NS. rewrite NS. cbn [cbind].
    apply (jat_ok "tags" m _ _ (get_map_ok get_str str_of get_str_ok) _ S) in TS. rewrite TS. cbn [cbind].
    apply (jat_ok "timestamp" m _ _ get_i64_ok _ S) in T. rewrite T. cbn [cbind]. apply text_cat_ok in CC. rewrite CC. destruct e; reflexivity.
Qed.

Lemma value_sorted strtod ts m : value_of strtod ts (JObj m) -> sorted m.
Proof. intros H. inversion H as [| | | | | | | | | |ts' ms m' M O]; subst; [constructor|exact (proj1 O)]. Qed.

Theorem event_text strtod x j e : json_text strtod x j -> from_json j = COk e <-> event_of j e.
Proof.
  intros (ts & _ & V). destruct j; try (split; [discriminate|intros (m' & E & _); discriminate E]). apply from_json_ok, (value_sorted strtod ts), V.
Qed.

(** ** Files *)
Lemma cstr_upto l : upto l (cstr l).
Proof.
  induction l as [|c l [N H]]; cbn [cstr]; [split; [intros []|auto]|]. destruct (Z.eqb_spec c 0) as [->|NE].
  - split; [intros []|right; exists l; reflexivity].
  - split; [intros [E|I]; auto|]. destruct H as [H|(r & H)]; [left; congruence|right; exists r; cbn [app]; congruence].
Qed.
Lemma upto_cstr l x : upto l x -> x = cstr l.
Proof.
  intros [N H]. assert (A : cstr x = x).
  { clear H. induction x as [|c x IH]; [reflexivity|]. cbn [cstr]. destruct (Z.eqb_spec c 0) as [->|]; [destruct N; left; reflexivity|]. rewrite IH; [reflexivity|]. intros I. apply N. right. exact I. }
  destruct H as [->|(r & ->)]; [symmetry; exact A|]. clear A. induction x as [|c x IH]; [reflexivity|]. cbn [app cstr].
  destruct (Z.eqb_spec c 0) as [->|]; [destruct N; left; reflexivity|]. rewrite <- IH; [reflexivity|]. intros I. apply N. right. exact I.
Qed.

Lemma parse_line strtod l j : parse strtod (cstr l) = POk j <-> exists b x, upto l (b ++ x) /\ (b = [] \/ b = [239; 187; 191]) /\ json_text strtod x j.
Proof.
  rewrite parse_text. split.
  - intros (b & x & z & E & B & [->|(r & ->)] & T).
    + rewrite app_nil_r in E. exists b, x. split; [rewrite <- E; apply cstr_upto|auto].
    + exfalso. apply (proj1 (cstr_upto l)). rewrite E. apply in_or_app. right. apply in_elt.
  - intros (b & x & U & B & T). exists b, x, []. rewrite app_nil_r. split; [symmetry; apply upto_cstr, U|auto].
Qed.

Lemma line_ok strtod l e : line_event strtod l e <-> exists j, parse strtod (cstr l) = POk j /\ from_json j = COk e.
Proof.
  unfold line_event. split.
  - intros (b & x & j & U & B & T & E). exists j. split; [apply parse_line; eauto|apply (event_text strtod x j e T), E].
  - intros (j & P & E). apply parse_line in P. destruct P as (b & x & U & B & T). exists b, x, j. split; [exact U|]. split; [exact B|]. split; [exact T|apply (event_text strtod x j e T), E].
Qed.

Lemma getline_none l : getline l = None -> l = [].
Proof. destruct l as [|c l]; [reflexivity|]. cbn [getline]. destruct (c =? 10); [discriminate|]. destruct (getline l) as [[a r]|]; discriminate. Qed.
Lemma getline_some l : forall a r, getline l = Some (a, r) -> (a <> [] /\ ~ In 10 a /\ l = a /\ r = []) \/ exists x, ~ In 10 x /\ a = x ++ [10] /\ l = x ++ 10 :: r.
Proof.
  induction l as [|c l IH]; intros a r H; cbn [getline] in H; [discriminate H|]. destruct (Z.eqb_spec c 10) as [->|N].
  - injection H as <- <-. right. exists []. auto.
  - destruct (getline l) as [[a' r']|] eqn:G.
    + injection H as <- <-. destruct (IH a' r' eq_refl) as [(A & B & -> & ->)|(x & B & -> & ->)].
      * left. split; [discriminate|]. split; [intros [E|I]; auto|auto].
      * right. exists (c :: x). split; [intros [E|I]; auto|auto].
    + injection H as <- <-. apply getline_none in G. subst l. left. split; [discriminate|]. split; [intros [E|[]]; auto|auto].
Qed.
Lemma getline_last x : x <> [] -> ~ In 10 x -> getline x = Some (x, []).
Proof.
  induction x as [|c x IH]; intros N I; [congruence|]. cbn [getline]. destruct (Z.eqb_spec c 10) as [->|]; [destruct I; left; reflexivity|].
  destruct x as [|d x]; [reflexivity|]. rewrite IH; [reflexivity|discriminate|]. intros J. apply I. right. exact J.
Qed.
Lemma getline_more x r : ~ In 10 x -> getline (x ++ 10 :: r) = Some (x ++ [10], r).
Proof.
  induction x as [|c x IH]; intros I; [reflexivity|]. cbn [app getline]. destruct (Z.eqb_spec c 10) as [->|]; [destruct I; left; reflexivity|].
  rewrite IH; [reflexivity|]. intros J. apply I. right. exact J.
Qed.

Lemma read_in strtod fuel : forall l es, read_events strtod fuel l = GOk es -> exists ls, lines_of l ls /\ Forall2 (line_event strtod) ls es.
Proof.
  induction fuel as [|fuel IH]; intros l es H; [discriminate H|]. cbn [read_events] in H. destruct (getline l) as [[a r]|] eqn:G.
  - destruct (parse strtod (cstr a)) as [j| |] eqn:P; try discriminate H. destruct (from_json j) as [e| |] eqn:E; try discriminate H.
    destruct (read_events strtod fuel r) as [t| |] eqn:R; try discriminate H. injection H as <-. destruct (IH r t R) as (ls & L & F).
    assert (LE : line_event strtod a e) by (apply line_ok; eauto).
    destruct (getline_some l a r G) as [(A & B & -> & ->)|(x & B & -> & ->)].
    + inversion L; subst; [|congruence|]. { inversion F; subst. exists [a]. split; [constructor; assumption|constructor; [exact LE|constructor]]. } destruct x; discriminate.
    + exists ((x ++ [10]) :: ls). split; [constructor; assumption|constructor; assumption].
  - injection H as <-. apply getline_none in G. subst l. exists []. split; constructor.
Qed.
Lemma read_out strtod l ls : lines_of l ls -> forall es fuel, Forall2 (line_event strtod) ls es -> (length l < fuel)%nat -> read_events strtod fuel l = GOk es.
Proof.
  induction 1 as [|x N I|x r ls I L IH]; intros es fuel F Q; (destruct fuel as [|fuel]; [lia|]); cbn [read_events].
  - inversion F; subst. reflexivity.
  - rewrite getline_last by assumption. inversion F as [|? e ? es' LE F']; subst. inversion F'; subst. apply line_ok in LE. destruct LE as (j & P & E). rewrite P, E.
    destruct fuel as [|fuel]; [destruct x; cbn [length] in Q; [congruence|lia]|]. reflexivity.
  - rewrite getline_more by exact I. inversion F as [|? e ? es' LE F']; subst. apply line_ok in LE. destruct LE as (j & P & E). rewrite P, E.
    rewrite (IH es' fuel F'); [reflexivity|]. rewrite app_length in Q. cbn [length] in Q. lia.
Qed.

Theorem file_events strtod d es : (exists w, get_events strtod (mk_store (Some d) true true) = SOk w es) <-> exists ls, lines_of d ls /\ Forall2 (line_event strtod) ls es.
Proof.
  unfold get_events, mk_store, open_store. cbn [s_open s_ro s_disk sbind s_eof s_pos skipn negb orb]. split.
  - intros (w & H). destruct (read_events strtod (S (length d)) d) as [es'| |] eqn:R; try discriminate H. injection H as _ <-. exact (read_in strtod _ d es' R).
  - intros (ls & L & F). rewrite (read_out strtod d ls L es _ F (Nat.lt_succ_diag_r _)). eexists. reflexivity.
Qed.

Theorem plain_text strtod x : ~ In 0 x -> hd 0 x <> 239 ->
  (forall j, parse strtod x = POk j <-> json_text strtod x j) /\ (parse strtod x = PThrow <-> forall j, ~ json_text strtod x j).
Proof.
  intros N H. assert (A : forall j, parse strtod x = POk j <-> json_text strtod x j).
  { intros j. rewrite parse_text. split.
    - intros (b & y & z & -> & B & Z & T). destruct Z as [->|(r & ->)]; [|destruct N; apply in_or_app; right; apply in_elt].
      destruct B as [->| ->]; [rewrite app_nil_r in *; exact T|destruct H; reflexivity].
    - intros T. exists [], x, []. rewrite app_nil_r. auto. }
  split; [exact A|]. split.
  - intros P j T. apply A in T. congruence.
  - intros Q. destruct (parse strtod x) as [j| |] eqn:P; [destruct (Q j); apply A; reflexivity|reflexivity|destruct (parse_total strtod x P)].
Qed.

Theorem text_unique strtod x j j' : json_text strtod x j -> json_text strtod x j' -> j = j'.
Proof.
  intros (ts & K & V) (ts' & K' & V'). assert (P : forall ts j, tokens x ts -> value_of strtod ts j -> prun strtod (lexx x) MVal [] = POk j).
  { intros t i T W. apply prun_lexx. exists x, []. rewrite app_nil_r. split; [reflexivity|]. split; [left; reflexivity|]. exists t. auto. }
  assert (A := P _ _ K V). assert (B := P _ _ K' V'). congruence.
Qed.
