(** Facts about the printing of allocations. *)
From Coq Require Import String Ascii HexString Permutation.
From Verif Require Import Base BaseFacts NamingModel MapModel MapSpec MapFacts MapThms JudyModel JudyFacts JudyUpdate AllocMapThms MapMain PrintModel PrintSpec.

Local Notation "a ^^ b" := (String.append a b) (at level 60, right associativity).

Lemma app_str_assoc (a b c : string) : ((a ^^ b) ^^ c)%string = (a ^^ b ^^ c)%string.
Proof. induction a as [|x a IH]; [reflexivity|]. cbn. now rewrite IH. Qed.
Lemma app_str_nil (a : string) : (a ^^ "")%string = a.
Proof. induction a as [|x a IH]; [reflexivity|]. cbn. now rewrite IH. Qed.

Lemma out_ptr_is p : 0 <= p -> out_ptr p = shown_address p.
Proof. intros H. destruct p; [reflexivity|reflexivity|lia]. Qed.

Section Lines.
  Context (names : Z -> string) (trace : option (arec -> string)) (pred : arec -> bool).

  Definition fits (r : arec) : Prop := 0 <= r_ptr r /\ 0 <= r_size r /\ r_ptr r + r_size r < M64.

  Lemma out_record_is r : fits r -> out_record names trace r = line_of names trace r.
  Proof.
    intros (H1 & H2 & H3). unfold out_record, line_of. rewrite !out_ptr_is by (auto; unfold w64; apply Z.mod_pos_bound; reflexivity).
    unfold w64. rewrite Z.mod_small by lia. reflexivity.
  Qed.

  Lemma out_list_is l : (forall r, In r l -> fits r) ->
    out_list names trace pred l = (joined (map (line_of names trace) (filter pred l)), match filter pred l with [] => false | _ => true end).
  Proof.
    induction l as [|r l IH]; intros H; [reflexivity|]. cbn [out_list filter]. rewrite IH by (intros; apply H; now right).
    destruct (pred r); [|reflexivity]. cbn [map joined]. rewrite out_record_is by (apply H; now left). reflexivity.
  Qed.

  Lemma out_pairs_is g l : blocks g -> (forall k ov, In (k, ov) l -> 0 <= k /\ registered g k /\ ov = spec_of g k) ->
    out_pairs names trace pred l = Ok tt (printout names trace pred g (map fst l)).
  Proof.
    intros Hb. induction l as [|[k ov] l IH]; intros H; [reflexivity|]. cbn [out_pairs].
    destruct (H k ov (or_introl eq_refl)) as (Hk & Hr & Ho). specialize (IH (fun k' ov' i => H k' ov' (or_intror i))).
    apply registered_dom in Hr. unfold dom in Hr. rewrite <- Ho in Hr. destruct ov as [rs|]; [|congruence]. symmetry in Ho.
    apply spec_of_some in Ho as [Ho Hne]. rewrite out_list_is.
    2:{ intros r Hi. rewrite <- Ho in Hi. apply records_at_In in Hi. apply (Hb k r Hi). }
    rewrite IH. cbn [bind]. f_equal. unfold printout. cbn [map fst joined]. rewrite Ho. unfold paragraph.
    destruct (filter pred rs); [reflexivity|]. rewrite out_ptr_is by exact Hk. rewrite !app_str_assoc. reflexivity.
  Qed.
End Lines.

Notation arepJ := (arep JR jrel).

Lemma keys_length g ks : keys_of (spec_of g) ks -> (length ks <= length g)%nat.
Proof.
  intros [Hn Hk]. rewrite <- (map_length fst g). apply NoDup_incl_length; [exact Hn|]. intros x Hx.
  apply Hk in Hx. apply registered_dom in Hx. exact Hx.
Qed.

Lemma walk_all g a fuel addr : arepJ g a -> ~ registered g 0 -> (length g < fuel)%nat -> addr <> 0 ->
  exists mm it mm' l, mi_begin JR addr (am_map JR a) = (mm, it) /\ mi_walk JR fuel it mm = Some (mm', l) /\
    arepJ g (mkAM JR mm' (am_size JR a)) /\ ascending (map fst l) /\
    (forall k ov, In (k, ov) l -> 0 <= k /\ registered g k /\ ov = spec_of g k) /\ (forall k, registered g k -> In k (map fst l)).
Proof.
  intros [[c Hr] Hs] Hg0 Hf Ha.
  destruct (mi_begin_ok JR sparse56 jrel jloc jplain judy_array_ok addr _ _ c Hr) as (mm & it & E & R1 & R2 & R3 & R4).
  pose proof Hr as (_ & ks & Hks & _). pose proof (keys_length g ks Hks) as Hlen.
  assert (H0 : ~ dom (spec_of g) 0) by (intros X; apply Hg0, registered_dom, X).
  assert (Hdom : forall k, dom (spec_of g) k -> 0 <= k).
  { intros k Hd. assert (addr_ok k) by (eapply (js_dom _ _ _ _ _ judy_array_ok); [exact (proj1 Hr)|exact Hd]). unfold addr_ok in *. lia. }
  destruct R4 as [(k & v & HL & -> & R)|(Hn & -> & R)].
  - assert (Hk0 : k <> 0) by (intros ->; apply H0; unfold dom; rewrite (proj1 HL); discriminate).
    destruct (walk_ok JR sparse56 jrel jloc jplain judy_array_ok fuel (mkIt addr k (Some v)) mm (spec_of g) (CPos k) ks R Hks H0) as (mm2 & l & c' & W1 & W2 & W3 & W4).
    + intros _ _. reflexivity.
    + intros _. cbn [it_key it_val]. destruct HL as (L1 & _). split; [unfold dom; congruence|auto].
    + left. eapply Nat.le_lt_trans; [|exact Hf]. eapply Nat.le_trans; [|exact Hlen]. clear. induction ks as [|x ks IH]; cbn [filter length]; auto. destruct (_ <=? x); cbn [length]; lia.
    + cbn [it_key] in W4. exists mm, (mkIt addr k (Some v)), mm2, l. split; [exact E|]. split; [exact W1|].
      split; [split; [exists c'; exact W2|exact Hs]|]. split; [exact W3|]. split.
      * intros x ov Hi. apply W4 in Hi as (_ & _ & Hd & Ho). split; [apply Hdom, Hd|]. split; [apply registered_dom, Hd|exact Ho].
      * intros x Hx. apply registered_dom in Hx. apply in_map_iff. exists (x, spec_of g x). split; [reflexivity|]. apply W4.
        split; [exact Hk0|]. split; [|split; [exact Hx|reflexivity]]. destruct HL as (_ & _ & L3). apply L3; [exact Hx|exact I].
  - destruct fuel as [|fuel]; [lia|]. exists mm, (mkIt addr 0 None), mm, []. split; [exact E|]. split; [reflexivity|].
    split; [split; [exists CTop; exact R|exact Hs]|]. split; [exact I|]. split; [intros k ov []|].
    intros x Hx. apply registered_dom in Hx. elim (Hn x Hx).
Qed.

Section Print.
  Context (names : Z -> string) (trace : option (arec -> string)).

  Lemma print_rep g a fuel addr pred : arepJ g a -> blocks g -> ~ registered g 0 -> (length g < fuel)%nat -> addr <> 0 ->
    exists a' ks, am_print JR names trace fuel addr pred a = Ok a' (printout names trace pred g ks) /\ addresses g ks /\ arepJ g a'.
  Proof.
    intros Hr Hb H0 Hf Ha. destruct (walk_all g a fuel addr Hr H0 Hf Ha) as (mm & it & mm' & l & E1 & E2 & Hr' & Hasc & Hin & Hall).
    unfold am_print. rewrite E1, E2, (out_pairs_is names trace pred g l Hb Hin). do 2 eexists. split; [reflexivity|]. split; [|exact Hr'].
    split; [exact Hasc|]. intros x. split; [|apply Hall]. intros Hx. apply in_map_iff in Hx as ([k ov] & <- & Hi). apply (Hin k ov Hi).
  Qed.

  Lemma ahist_arep ok g a : ahist JR ok (g, a) -> arepJ g a.
  Proof. intros H. apply (ahist_rep JR sparse56 jrel jloc jplain judy_array_ok ok _ H). Qed.

  Lemma print_ok g a fuel addr pred : ahist JR any_keys (g, a) -> blocks g -> ~ registered g 0 -> (length g < fuel)%nat -> addr <> 0 ->
    exists a' ks, am_print JR names trace fuel addr pred a = Ok a' (printout names trace pred g ks) /\ addresses g ks.
  Proof. intros Hh Hb H0 Hf Ha. destruct (print_rep g a fuel addr pred (ahist_arep _ _ _ Hh) Hb H0 Hf Ha) as (a' & ks & E & A & _). eauto. Qed.

  Lemma ascending_unique : forall l l', ascending l -> ascending l' -> (forall x, In x l <-> In x l') -> l = l'.
  Proof.
    induction l as [|x l IH]; intros [|y l'] H H' E.
    - reflexivity.
    - destruct (proj2 (E y) (or_introl eq_refl)).
    - destruct (proj1 (E x) (or_introl eq_refl)).
    - destruct H as [Hx H], H' as [Hy H'].
      assert (x = y) as <-.
      { destruct (proj1 (E x) (or_introl eq_refl)) as [X|X]; [auto|]. destruct (proj2 (E y) (or_introl eq_refl)) as [Y|Y]; [auto|].
        pose proof (Hx y Y). pose proof (Hy x X). lia. }
      f_equal. apply IH; auto. intros z. split; intros Hz.
      + destruct (proj1 (E z) (or_intror Hz)) as [<-|Q]; [pose proof (Hx x Hz); lia|exact Q].
      + destruct (proj2 (E z) (or_intror Hz)) as [<-|Q]; [pose proof (Hy x Hz); lia|exact Q].
  Qed.

  Lemma addresses_unique g ks ks' : addresses g ks -> addresses g ks' -> ks = ks'.
  Proof. intros [H1 H2] [H3 H4]. apply ascending_unique; auto. intros x. now rewrite H2, H4. Qed.

  Lemma print_twice g a fuel addr addr' pred a1 t : ahist JR any_keys (g, a) -> blocks g -> ~ registered g 0 -> (length g < fuel)%nat -> addr <> 0 -> addr' <> 0 ->
    am_print JR names trace fuel addr pred a = Ok a1 t -> exists a2, am_print JR names trace fuel addr' pred a1 = Ok a2 t /\ am_size JR a1 = am_size JR a.
  Proof.
    intros Hh Hb H0 Hf Ha Ha' E. pose proof (ahist_arep _ _ _ Hh) as Hr.
    destruct (print_rep g a fuel addr pred Hr Hb H0 Hf Ha) as (b & ks & E1 & A1 & R1). rewrite E1 in E. injection E as <- <-.
    destruct (print_rep g b fuel addr' pred R1 Hb H0 Hf Ha') as (b2 & ks2 & E2 & A2 & _). rewrite (addresses_unique _ _ _ A1 A2). exists b2. split; [exact E2|].
    destruct R1 as [_ S1], Hr as [_ S0]. congruence.
  Qed.

  Lemma print_all_ok g a fuel addr : ahist JR any_keys (g, a) -> blocks g -> ~ registered g 0 -> (length g < fuel)%nat -> addr <> 0 ->
    exists a' ks, addresses g ks /\ am_print_all JR names trace fuel addr a =
      Ok a' ("🔍 Printing allocation map contents..." ^^ newline ^^ printout names trace (fun _ => true) g ks ^^ "done." ^^ newline)%string.
  Proof.
    intros Hh Hb H0 Hf Ha. destruct (print_ok g a fuel addr (fun _ => true) Hh Hb H0 Hf Ha) as (a' & ks & E & A).
    unfold am_print_all. rewrite E. cbn [bind]. exists a', ks. split; [exact A|reflexivity].
  Qed.

  Lemma paragraph_empty k l : paragraph names trace k l = EmptyString -> l = [].
  Proof. destruct l; [reflexivity|]. unfold paragraph. destruct (shown_address k); discriminate. Qed.

  Lemma app_empty a b : (a ^^ b)%string = EmptyString -> a = EmptyString /\ b = EmptyString.
  Proof. destruct a; [auto|discriminate]. Qed.

  Lemma printout_empty pred g ks : (forall x, In x ks <-> registered g x) ->
    (printout names trace pred g ks = EmptyString <-> forall k r, In (k, r) g -> pred r = false).
  Proof.
    intros Hk. unfold printout. split.
    - intros E k r Hi. assert (Hin : In k ks) by (apply Hk; unfold registered; apply in_map_iff; exists (k, r); auto).
      clear Hk. induction ks as [|x ks IH]; [destruct Hin|]. cbn [map joined] in E. apply app_empty in E as [E1 E2]. destruct Hin as [->|Hin]; [|auto].
      apply paragraph_empty in E1. destruct (pred r) eqn:Ep; [|reflexivity]. exfalso.
      assert (X : In r (filter pred (records_at k g))) by (apply filter_In; split; [now apply records_at_In|exact Ep]). rewrite E1 in X. destruct X.
    - intros H. clear Hk. induction ks as [|x ks IH]; [reflexivity|]. cbn [map joined]. rewrite IH.
      assert (filter pred (records_at x g) = []) as ->; [|reflexivity].
      destruct (filter pred (records_at x g)) as [|r l] eqn:Ef; [reflexivity|]. exfalso.
      assert (X : In r (filter pred (records_at x g))) by (rewrite Ef; now left). apply filter_In in X as [X1 X2]. apply records_at_In in X1.
      rewrite (H x r X1) in X2. discriminate.
  Qed.

  Lemma records_text_ok g a fuel addr name s : ahist JR any_keys (g, a) -> blocks g -> ~ registered g 0 -> (length g < fuel)%nat -> addr <> 0 ->
    exists a' t, print_records JR names trace fuel addr name s a = Ok a' t /\
      ((forall k r, In (k, r) g -> r_strat r <> s) -> t = EmptyString) /\
      (forall k r, In (k, r) g -> r_strat r = s -> exists ks, addresses g ks /\
         t = ("Allocations for " ^^ name ^^ " allocator:" ^^ newline ^^ printout names trace (fun r => (r_strat r =? s)%Z) g ks ^^ newline)%string).
  Proof.
    intros Hh Hb H0 Hf Ha. destruct (print_ok g a fuel addr (fun r => r_strat r =? s) Hh Hb H0 Hf Ha) as (a' & ks & E & A).
    unfold print_records. rewrite E. cbn [bind]. do 2 eexists. split; [reflexivity|].
    pose proof (printout_empty (fun r => r_strat r =? s) g ks (proj2 A)) as [P1 P2]. split.
    - intros Hn. rewrite P2; [reflexivity|]. intros k r Hi. apply Z.eqb_neq, (Hn k r Hi).
    - intros k r Hi Hs. exists ks. split; [exact A|]. destruct (String.eqb_spec (printout names trace (fun r => r_strat r =? s) g ks) EmptyString) as [Ee|_]; [|reflexivity].
      specialize (P1 Ee k r Hi). cbn beta in P1. apply Z.eqb_neq in P1. contradiction.
  Qed.
End Print.
