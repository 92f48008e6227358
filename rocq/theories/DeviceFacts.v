(** Facts about DeviceModel.v. *)
From Coq Require Import String Ascii.
From Verif Require Import Base BaseFacts DeviceModel DeviceSpec.

Record dinv (hip : bool) (size : Z) (s : dstate) (P : list (Z * region)) (R : list region) (T : Z) : Prop := mkDinv {
  di_counter : d_counter s = T; di_lim : 0 <= T < M32;
  di_disj : pairwise disj (map snd P ++ R);
  di_in : forall r, In r (map snd P ++ R) -> 0 <= fst r /\ 0 <= snd r /\ fst r + snd r <= T;
  di_pend : forall t r, In (t, r) P -> d_pend s t = Some r;
  di_once : NoDup (map fst P);
  di_size : hip = true -> forall r, In r R -> fst r + snd r <= size
}.

Lemma pairwise_filter {A} (Q : A -> A -> Prop) f l : pairwise Q l -> pairwise Q (filter f l).
Proof.
  induction l as [|x l IH]; [auto|]. cbn [pairwise filter]. intros [H1 H2]. destruct (f x); [|auto]. cbn [pairwise]. split; [|auto]. intros y Hy. apply H1. now apply filter_In in Hy as [Hy _].
Qed.

Section Drop.
  Context (hip : bool) (size : Z).
  Lemma in_drop t P x : In x (filter (fun x : Z * region => negb (fst x =? t)) P) <-> In x P /\ fst x <> t.
  Proof. rewrite filter_In. split; intros [A B]; (split; [exact A|]); lia. Qed.
  Lemma drop_other t (P : list (Z * region)) : ~ In t (map fst P) -> filter (fun x => negb (fst x =? t)) P = P.
  Proof.
    induction P as [|x P IH]; [reflexivity|]. cbn [map filter]. intros H. destruct (fst x =? t) eqn:E; [exfalso; apply H; left; lia|]. cbn [negb]. f_equal. apply IH. intros Hi. apply H. now right.
  Qed.
  Lemma drop_mid t r (P : list (Z * region)) : NoDup (map fst P) -> In (t, r) P ->
    exists P1 P2, P = P1 ++ (t, r) :: P2 /\ filter (fun x => negb (fst x =? t)) P = P1 ++ P2.
  Proof.
    intros Hn Hi. apply in_split in Hi as (P1 & P2 & ->). exists P1, P2. split; [reflexivity|]. rewrite map_app in Hn. cbn [map fst] in Hn. apply NoDup_remove_2 in Hn.
    rewrite filter_app. cbn [filter fst]. rewrite Z.eqb_refl. cbn [negb]. rewrite !drop_other; [reflexivity| |]; intros Hi; apply Hn, in_or_app; auto.
  Qed.

  Lemma dinv_check s P R T t s' off n : dinv hip size s P R T ->
    d_pend s t = Some (off, n) -> s' = mkD (d_counter s) (fdel (d_pend s) t) (d_cas s) ->
    dinv hip size s' (filter (fun x => negb (fst x =? t)) P) R T.
  Proof.
    intros [A1 A2 A3 A4 A5 A6 A7] Hp ->. constructor; cbn [d_counter d_pend]; auto.
    - apply pairwise_app in A3 as (B1 & B2 & B3). apply pairwise_app. split; [|split; [exact B2|]].
      + clear - B1. induction P as [|x P IH]; [exact I|]. cbn [map filter pairwise] in *. destruct B1 as [C1 C2]. destruct (negb (fst x =? t)); [|auto]. cbn [map pairwise]. split; [|auto].
        intros y Hy. apply C1. apply in_map_iff in Hy as (z & <- & Hz). apply filter_In in Hz as [Hz _]. now apply in_map.
      + intros x y Hx Hy. apply B3; [|exact Hy]. apply in_map_iff in Hx as (z & <- & Hz). apply in_drop in Hz as [Hz _]. now apply in_map.
    - intros r Hr. apply A4. apply in_app_iff in Hr as [Hr|Hr]; apply in_or_app; [left|now right]. apply in_map_iff in Hr as (z & <- & Hz). apply in_drop in Hz as [Hz _]. now apply in_map.
    - intros u r Hu. apply in_drop in Hu as [Hu Hne]. cbn [fst] in Hne. unfold fdel. destruct (u =? t) eqn:E; [lia|]. now apply A5.
    - clear - A6. induction P as [|x P IH]; [constructor|]. cbn [map filter] in *. inversion A6; subst. destruct (negb (fst x =? t)); [|auto]. cbn [map]. constructor; [|auto].
      intros Hi. apply H1. apply in_map_iff in Hi as (z & E & Hz). apply in_drop in Hz as [Hz _]. rewrite <- E. now apply in_map.
  Qed.

  Lemma dhist_inv s P R T : dhist hip size s P R T -> dinv hip size s P R T.
  Proof.
    induction 1 as [|s P R T t n s' H IH Hn HT E|s P R T t off n s' H IH E Hi|s P R T t off n s' H IH E Hi|s P R T t s' H IH E|s P R T x s' H IH E|s P R T x s' H IH Hx E].
    - constructor; cbn; auto; try (intros r []); try (intros t r []); try constructor; unfold M32; try lia.
    - cbn [dexec] in E. destruct (d_pend s t) as [x|] eqn:Ep; [discriminate|]. injection E as <-. destruct IH as [A1 A2 A3 A4 A5 A6 A7].
      constructor; cbn [d_counter d_pend]; rewrite ?A1.
      + unfold w32. rewrite (Z.mod_small n) by lia. apply Z.mod_small. lia.
      + lia.
      + cbn [map app pairwise snd]. split; [|exact A3]. intros y Hy. destruct (A4 y Hy) as (B1 & B2 & B3). right. cbn [fst snd]. lia.
      + cbn [map app snd]. intros r [<-|Hr]; [cbn [fst snd]; lia|]. destruct (A4 r Hr) as (B1 & B2 & B3). lia.
      + intros u r [Hu|Hu]; [injection Hu as <- <-; unfold fset; rewrite Z.eqb_refl; reflexivity|].
        unfold fset. destruct (u =? t) eqn:Eu; [|now apply A5]. replace u with t in Hu by lia. rewrite (A5 t r Hu) in Ep. discriminate.
      + cbn [map fst]. constructor; [|exact A6]. intros Hi. apply in_map_iff in Hi as ([u r] & Eu & Hi). cbn [fst] in Eu. subst u. rewrite (A5 t r Hi) in Ep. discriminate.
      + exact A7.
    - cbn [dexec] in E. pose proof (di_pend _ _ _ _ _ _ IH t (off, n) Hi) as Hp. rewrite Hp in E. destruct (hip && (size <? d_counter s)) eqn:Eh; [discriminate|]. injection E as <-.
      destruct (dinv_check s P R T t _ off n IH Hp eq_refl) as [A1 A2 A3 A4 A5 A6 A7]. destruct IH as [B1 B2 B3 B4 B5 B6 B7]. destruct (drop_mid t (off, n) P B6 Hi) as (P1 & P2 & EP & Ef). rewrite Ef in *. subst P.
      assert (Hperm : Permutation (map snd (P1 ++ (t, (off, n)) :: P2) ++ R) (map snd (P1 ++ P2) ++ (off, n) :: R)).
      { rewrite !map_app. cbn [map snd]. transitivity ((off, n) :: (map snd P1 ++ map snd P2) ++ R); [|apply Permutation_middle].
        change ((off, n) :: (map snd P1 ++ map snd P2) ++ R) with (((off, n) :: map snd P1 ++ map snd P2) ++ R). apply Permutation_app_tail. symmetry. apply Permutation_middle. }
      constructor; auto.
      + exact (pairwise_perm disj disj_sym _ _ Hperm B3).
      + intros r Hr. apply B4. exact (Permutation_in r (Permutation_sym Hperm) Hr).
      + intros Hh r [<-|Hr]; [|now apply A7]. rewrite Hh in Eh. cbn [andb] in Eh.
        destruct (B4 (off, n)) as (C1 & C2 & C3); [apply in_or_app; left; apply in_map_iff; exists (t, (off, n)); split; [reflexivity|apply in_elt]|]. lia.
    - cbn [dexec] in E. destruct (d_pend s t) as [[o m]|] eqn:Hp; [|discriminate]. destruct (hip && (size <? d_counter s)); [discriminate|]. injection E as <- -> ->.
      pose proof (dinv_check s P R T t _ off n IH Hp eq_refl) as A. rewrite drop_other in A; [exact A|]. intros Hi2. apply in_map_iff in Hi2 as ([u r] & Eu & Hi2). cbn [fst] in Eu. subst u.
      rewrite (di_pend _ _ _ _ _ _ IH t r Hi2) in Hp. injection Hp as ->. contradiction.
    - cbn [dexec] in E. destruct (d_pend s t) as [[o m]|] eqn:Hp; [|discriminate]. destruct (hip && (size <? d_counter s)); [|discriminate]. injection E as <-. exact (dinv_check s P R T t _ o m IH Hp eq_refl).
    - assert (Hc : d_counter s' = 0).
      { destruct x as [t n|t|t|t|]; cbn [dexec] in E.
        - destruct (d_pend s t); discriminate.
        - destruct (d_pend s t) as [[o m]|]; [destruct (hip && (size <? d_counter s)); discriminate|discriminate].
        - discriminate.
        - destruct (d_cas s t) as [a|]; [|discriminate]. destruct (d_counter s =? a); [|discriminate]. injection E as <-. reflexivity.
        - injection E as <-. reflexivity. }
      constructor; cbn; auto; try (intros r []); try (intros t r []); try constructor; unfold M32; try lia.
    - assert (Hs : d_counter s' = d_counter s /\ d_pend s' = d_pend s).
      { destruct x as [t n|t|t|t|]; cbn [dexec] in E.
        - elim (Hx t n eq_refl).
        - destruct (d_pend s t) as [[o m]|]; [destruct (hip && (size <? d_counter s)); discriminate|discriminate].
        - injection E as <-. auto.
        - destruct (d_cas s t) as [a|]; [|discriminate]. destruct (d_counter s =? a); [discriminate|]. injection E as <-. auto.
        - discriminate. }
      destruct Hs as [S1 S2]. destruct IH as [A1 A2 A3 A4 A5 A6 A7]. constructor; auto; [rewrite S1; exact A1|]. intros t r Hr. rewrite S2. now apply A5.
  Qed.

  Lemma d_disjoint s P R T : dhist hip size s P R T -> pairwise disj R /\ (forall r, In r R -> 0 <= fst r /\ fst r + snd r <= T).
  Proof.
    intros H. destruct (dhist_inv _ _ _ _ H) as [A1 A2 A3 A4 A5 A6 A7]. apply pairwise_app in A3 as (_ & A3 & _). split; [exact A3|]. intros r Hr.
    destruct (A4 r) as (B1 & B2 & B3); [apply in_or_app; now right|]. lia.
  Qed.
  Lemma d_inside s P R T : hip = true -> dhist hip size s P R T -> forall r, In r R -> 0 <= fst r /\ fst r + snd r <= size.
  Proof. intros Hh H r Hr. pose proof (dhist_inv _ _ _ _ H) as I. split; [apply (proj2 (d_disjoint _ _ _ _ H) r Hr)|]. exact (di_size _ _ _ _ _ _ I Hh r Hr). Qed.
  Lemma d_current s P R T : dhist hip size s P R T -> d_counter s = T.
  Proof. intros H. apply (dhist_inv _ _ _ _ H). Qed.
  (** Nobody is refused unless more has been asked for than there is. *)
  Lemma d_refused s P R T t s' : dhist hip size s P R T -> dexec hip size (DCheck t) s = (s', DError) -> size < T.
  Proof.
    intros H E. pose proof (d_current _ _ _ _ H) as Hc. cbn [dexec] in E. destruct (d_pend s t) as [[o m]|]; [|discriminate].
    destruct (hip && (size <? d_counter s)) eqn:Eh; [|discriminate]. lia.
  Qed.
  Lemma d_full s P R T t s' off n : hip = true -> dhist hip size s P R T -> dexec hip size (DCheck t) s = (s', DGot off n) -> T <= size.
  Proof.
    intros Hh H E. pose proof (d_current _ _ _ _ H) as Hc. cbn [dexec] in E. destruct (d_pend s t) as [[o m]|]; [|discriminate]. rewrite Hh in E.
    destruct (true && (size <? d_counter s)) eqn:Eh; [discriminate|]. lia.
  Qed.
End Drop.

(** ** The table *)
Lemma set_nth_length {A} (l : list A) : forall i x, length (set_nth l i x) = length l.
Proof. induction l as [|y l IH]; intros [|i] x; cbn; auto. Qed.
Lemma set_nth_eq {A} (l : list A) : forall i x, (i < length l)%nat -> nth_error (set_nth l i x) i = Some x.
Proof. induction l as [|y l IH]; intros [|i] x H; cbn in *; try lia; auto. apply IH. lia. Qed.
Lemma set_nth_neq {A} (l : list A) : forall i j x, i <> j -> nth_error (set_nth l i x) j = nth_error l j.
Proof. induction l as [|y l IH]; intros [|i] [|j] x H; cbn; auto; try congruence. Qed.

Lemma nth_skipn {A} (l : list A) : forall n i, nth_error (skipn n l) i = nth_error l (n + i).
Proof. induction l as [|x l IH]; intros [|n] i; cbn; auto. now destruct i. Qed.

(** Entry [k] of the array is the [k]-th made. *)
Definition tinv (T : dtable) (made : list dentry) : Prop :=
  match t_array T with
  | None => made = []
  | Some l => Z.of_nat (length l) = DEV_ALLOCS /\ t_index T = Z.of_nat (length made) /\ t_index T <= DEV_ALLOCS /\
      forall k e, nth_error (rev made) k = Some e -> nth_error l k = Some e /\ e_id e = - Z.of_nat k - 1 /\ 0 < e_size e
  end.

Lemma thist_inv T made : thist T made -> tinv T made.
Proof.
  induction 1 as [|T made fresh size name T' e H IH Hf E|T made fresh size name T' e H IH E|T made T' l H IH E]; [reflexivity| | |].
  - unfold make_device_allocator in E. destruct (size <=? 0) eqn:Es; [discriminate|].
    destruct (t_array T) as [l|] eqn:Ea.
    + unfold tinv in IH. rewrite Ea in IH. destruct IH as (I1 & I2 & I3 & I4). destruct (NAME_BYTES <=? _); [discriminate|]. destruct (DEV_ALLOCS <=? t_index T) eqn:Ei; [discriminate|]. injection E as <- <-.
      unfold tinv. cbn [t_array t_index]. rewrite set_nth_length. cbn [length]. split; [exact I1|]. split; [lia|]. split; [lia|].
      intros k e Hk. cbn [rev] in Hk. destruct (Nat.eq_dec k (length made)) as [->|Hne].
      * rewrite nth_error_app2 in Hk by (rewrite rev_length; lia). rewrite rev_length, Nat.sub_diag in Hk. injection Hk as <-. rewrite I2, Nat2Z.id. split; [apply set_nth_eq; lia|]. cbn [e_id e_size]. unfold convert_to_array_index. lia.
      * assert (Hlt : (k < length made)%nat).
        { assert (k < length (rev made ++ [mkEntry name size (convert_to_array_index (t_index T))]))%nat by (apply nth_error_Some; congruence). rewrite app_length, rev_length in H0. cbn in H0. lia. }
        rewrite nth_error_app1 in Hk by (rewrite rev_length; lia). destruct (I4 k e Hk) as (J1 & J2). split; [|exact J2]. rewrite set_nth_neq; [exact J1|]. lia.
    + unfold tinv in IH. rewrite Ea in IH. subst made. destruct (NAME_BYTES <=? _); [discriminate|]. change (DEV_ALLOCS <=? 0) with false in E. injection E as <- <-.
      unfold tinv. cbn [t_array t_index length]. rewrite set_nth_length. split; [exact Hf|]. split; [reflexivity|]. split; [unfold DEV_ALLOCS; lia|].
      intros k e Hk. destruct k as [|k]; [|destruct k; discriminate]. injection Hk as <-. split; [apply set_nth_eq; unfold DEV_ALLOCS in Hf; lia|]. cbn [e_id e_size]. unfold convert_to_array_index. lia.
  - unfold make_device_allocator in E. destruct (size <=? 0); [injection E as <- _; exact IH|].
    destruct (match t_array T with Some a => (a, t_index T) | None => (fresh, 0) end) as [a i]. destruct (NAME_BYTES <=? _); [discriminate|]. destruct (DEV_ALLOCS <=? i); discriminate.
  - unfold destroy_device_allocator in E. destruct (t_array T); [|discriminate]. destruct (existsb _ _); [discriminate|]. injection E as <- _. reflexivity.
Qed.

Lemma t_by_id T made e : thist T made -> In e made -> get_by_id (e_id e) T = Ok T e.
Proof.
  intros H Hi. pose proof (thist_inv T made H) as I. unfold tinv in I. destruct (t_array T) as [l|] eqn:Ea; [|subst made; destruct Hi].
  destruct I as (I1 & I2 & I3 & I4). rewrite in_rev in Hi. apply In_nth_error in Hi as (k & Hk). destruct (I4 k e Hk) as (J1 & J2 & J3).
  assert (Hkl : (k < length (rev made))%nat) by (apply nth_error_Some; congruence). rewrite rev_length in Hkl.
  unfold get_by_id. rewrite Ea, J2. unfold convert_to_array_index. replace (- Z.of_nat k - 1) with (- (Z.of_nat k + 1)) by lia.
  replace (- (Z.of_nat k + 1) * -1 - 1) with (Z.of_nat k) by lia. destruct ((Z.of_nat k <? 0) || (DEV_ALLOCS - 1 <? Z.of_nat k)) eqn:E; [lia|]. rewrite Nat2Z.id, J1. destruct (0 <? e_size e) eqn:E2; [reflexivity|lia].
Qed.
Lemma t_ids T made : thist T made -> NoDup (map e_id made) /\ forall e, In e made -> e_id e < 0.
Proof.
  intros H. pose proof (thist_inv T made H) as I. unfold tinv in I. destruct (t_array T) as [l|] eqn:Ea; [|subst made; split; [constructor|intros e []]].
  destruct I as (I1 & I2 & I3 & I4).
  assert (Hall : forall k e, nth_error (rev made) k = Some e -> e_id e = - Z.of_nat k - 1) by (intros k e Hk; apply (I4 k e Hk)). split.
  - rewrite <- (rev_involutive made), map_rev. apply NoDup_rev. clear I4. rewrite NoDup_nth_error. intros i j Hi E.
    rewrite map_length in Hi. destruct (nth_error (rev made) i) as [a|] eqn:A; [|apply nth_error_None in A; lia].
    rewrite !nth_error_map, A in E. cbn [option_map] in E. destruct (nth_error (rev made) j) as [b|] eqn:B; [|discriminate]. injection E as E.
    rewrite (Hall i a A), (Hall j b B) in E. lia.
  - intros e He. rewrite in_rev in He. apply In_nth_error in He as (k & Hk). rewrite (Hall k e Hk). lia.
Qed.

Lemma host_index_skip name l : forall i index, (forall e, In e l -> e_name e <> name) -> host_index i name l index = index.
Proof.
  induction l as [|e l IH]; intros i index H; [reflexivity|]. cbn [host_index]. destruct (e_name e =? name)%string eqn:E; [apply String.eqb_eq in E; elim (H e (or_introl eq_refl) E)|].
  apply IH. intros x Hx. apply H. now right.
Qed.
Lemma host_index_hit name l1 e l2 : forall i index, e_name e = name -> (forall x, In x l2 -> e_name x <> name) -> host_index i name (l1 ++ e :: l2) index = i + Z.of_nat (length l1).
Proof.
  induction l1 as [|y l1 IH]; intros i index E H; cbn [app host_index length].
  - rewrite E, String.eqb_refl, host_index_skip by exact H. lia.
  - rewrite IH by assumption. lia.
Qed.
(** On the host the newest allocator of that name, unless an unused entry happens to look like it. *)
Lemma t_by_name_host T made e : thist T made ->
  In e made -> (forall x, In x made -> e_name x = e_name e -> x = e) ->
  (forall l x, t_array T = Some l -> In x (skipn (length made) l) -> e_name x <> e_name e) ->
  get_by_name false (e_name e) T = Ok T e.
Proof.
  intros H Hi Hu Hg. pose proof (thist_inv T made H) as I. unfold tinv in I. destruct (t_array T) as [l|] eqn:Ea; [|subst made; destruct Hi].
  destruct I as (I1 & I2 & I3 & I4). specialize (Hg l). apply in_rev, In_nth_error in Hi as (k & Hk). destruct (I4 k e Hk) as (J1 & J2 & J3).
  apply nth_error_split in J1 as (l1 & l2 & -> & Hl1).
  assert (Hkl : (k < length (rev made))%nat) by (apply nth_error_Some; congruence). rewrite rev_length in Hkl.
  assert (Hl2 : forall x, In x l2 -> e_name x <> e_name e).
  { intros x Hx Ex. apply In_nth_error in Hx as (j & Hj).
    assert (Hn : nth_error (l1 ++ e :: l2) (k + 1 + j) = Some x) by (rewrite nth_error_app2 by lia; replace (k + 1 + j - length l1)%nat with (S j) by lia; exact Hj).
    destruct (Nat.lt_ge_cases (k + 1 + j) (length made)) as [Hlt|Hge].
    - destruct (nth_error (rev made) (k + 1 + j)) as [y|] eqn:Ey; [|apply nth_error_None in Ey; rewrite rev_length in Ey; lia].
      destruct (I4 _ _ Ey) as (Y1 & Y2 & _). assert (y = x) by congruence. subst y.
      assert (x = e). { apply Hu; [|exact Ex]. apply in_rev. eapply nth_error_In. exact Ey. }
      subst x. lia.
    - apply (Hg x eq_refl); [|exact Ex]. apply (nth_error_In _ (k + 1 + j - length made)). rewrite nth_skipn. replace (length made + (k + 1 + j - length made))%nat with (k + 1 + j)%nat by lia. exact Hn. }
  unfold get_by_name. rewrite Ea. rewrite (host_index_hit (e_name e) l1 e l2 0 (-1) eq_refl Hl2).
  destruct (0 + Z.of_nat (length l1) =? -1) eqn:E; [lia|]. replace (Z.to_nat (0 + Z.of_nat (length l1))) with (length l1) by lia.
  rewrite nth_error_app2 by lia. rewrite Nat.sub_diag. reflexivity.
Qed.

(** On the device: the first entry whose name is a prefix. *)
Lemma device_match_iff temp : forall name, device_match temp name = true <-> prefix temp name.
Proof.
  induction temp as [|a temp IH]; intros [|b name]; cbn [device_match prefix]; try tauto; [split; [discriminate|tauto]|].
  rewrite Bool.andb_true_iff, Ascii.eqb_eq, IH. tauto.
Qed.
Lemma prefix_refl n : prefix n n.
Proof. induction n; cbn; auto. Qed.
Lemma device_index_hit name l1 e l2 : forall i, prefix (e_name e) name -> (forall x, In x l1 -> ~ prefix (e_name x) name) -> device_index i name (l1 ++ e :: l2) = i + Z.of_nat (length l1).
Proof.
  induction l1 as [|y l1 IH]; intros i E H; cbn [app device_index length].
  - rewrite (proj2 (device_match_iff _ _) E). lia.
  - destruct (device_match (e_name y) name) eqn:Ey; [apply device_match_iff in Ey; elim (H y (or_introl eq_refl) Ey)|]. rewrite IH; [lia|exact E|]. intros x Hx. apply H. now right.
Qed.
Lemma device_index_none name l : forall i, (forall x, In x l -> ~ prefix (e_name x) name) -> device_index i name l = -1.
Proof.
  induction l as [|y l IH]; intros i H; cbn [device_index]; [reflexivity|].
  destruct (device_match (e_name y) name) eqn:Ey; [apply device_match_iff in Ey; elim (H y (or_introl eq_refl) Ey)|]. apply IH. intros x Hx. apply H. now right.
Qed.
Lemma host_index_none name l : forall i d, (forall x, In x l -> e_name x <> name) -> host_index i name l d = d.
Proof.
  induction l as [|y l IH]; intros i d H; cbn [host_index]; [reflexivity|].
  destruct (String.eqb_spec (e_name y) name) as [E|_]; [elim (H y (or_introl eq_refl) E)|]. apply IH. intros x Hx. apply H. now right.
Qed.
Lemma t_absent T (device : bool) name : (forall l x, t_array T = Some l -> In x l -> if device then ~ prefix (e_name x) name else e_name x <> name) ->
  get_by_name device name T = Throw T RuntimeError.
Proof.
  intros H. unfold get_by_name. destruct (t_array T) as [l|]; [|reflexivity]. specialize (H l). destruct device.
  - rewrite device_index_none; [reflexivity|]. intros x Hx. exact (H x eq_refl Hx).
  - rewrite host_index_none; [reflexivity|]. intros x Hx. exact (H x eq_refl Hx).
Qed.
Lemma t_by_name_device T made e : thist T made ->
  In e made -> (forall x, In x made -> prefix (e_name x) (e_name e) -> x = e) -> get_by_name true (e_name e) T = Ok T e.
Proof.
  intros H Hi Hu. pose proof (thist_inv T made H) as I. unfold tinv in I. destruct (t_array T) as [l|] eqn:Ea; [|subst made; destruct Hi].
  destruct I as (I1 & I2 & I3 & I4). apply in_rev, In_nth_error in Hi as (k & Hk). destruct (I4 k e Hk) as (J1 & J2 & J3).
  apply nth_error_split in J1 as (l1 & l2 & -> & Hl1).
  assert (Hkl : (k < length (rev made))%nat) by (apply nth_error_Some; congruence). rewrite rev_length in Hkl.
  assert (H1 : forall x, In x l1 -> ~ prefix (e_name x) (e_name e)).
  { intros x Hx Ex. apply In_nth_error in Hx as (j & Hj). assert (Hjl : (j < length l1)%nat) by (apply nth_error_Some; congruence).
    destruct (nth_error (rev made) j) as [y|] eqn:Ey; [|apply nth_error_None in Ey; rewrite rev_length in Ey; lia].
    destruct (I4 _ _ Ey) as (Y1 & Y2 & _). rewrite nth_error_app1 in Y1 by lia. assert (y = x) by congruence. subst y.
    assert (x = e) by (apply Hu; [apply in_rev; eapply nth_error_In; exact Ey|exact Ex]). subst x. lia. }
  unfold get_by_name. rewrite Ea. rewrite (device_index_hit (e_name e) l1 e l2 0 (prefix_refl _) H1).
  destruct (0 + Z.of_nat (length l1) =? -1) eqn:E; [lia|]. replace (Z.to_nat (0 + Z.of_nat (length l1))) with (length l1) by lia.
  rewrite nth_error_app2 by lia. rewrite Nat.sub_diag. reflexivity.
Qed.
Lemma nth_ext_firstn {A} (m l : list A) : (forall k e, nth_error m k = Some e -> nth_error l k = Some e) -> firstn (length m) l = m.
Proof.
  revert l. induction m as [|x m IH]; intros l H; [reflexivity|]. pose proof (H 0%nat x eq_refl) as H0. destruct l as [|y l]; [discriminate|]. injection H0 as ->. cbn [length firstn]. f_equal. apply IH.
  intros k e Hk. exact (H (S k) e Hk).
Qed.
Lemma filter_all {A} (f : A -> bool) l : (forall x, In x l -> f x = true) -> filter f l = l.
Proof. induction l as [|x l IH]; intros H; [reflexivity|]. cbn [filter]. rewrite (H x (or_introl eq_refl)). f_equal. apply IH. intros y Hy. apply H. now right. Qed.
Lemma filter_none {A} (f : A -> bool) l : (forall x, In x l -> f x = false) -> filter f l = [].
Proof. induction l as [|x l IH]; intros H; [reflexivity|]. cbn [filter]. rewrite (H x (or_introl eq_refl)). apply IH. intros y Hy. apply H. now right. Qed.
Lemma t_destroy T made T' l : thist T made -> destroy_device_allocator T = Ok T' l -> l = rev made.
Proof.
  intros H E. pose proof (thist_inv T made H) as I. unfold tinv in I. unfold destroy_device_allocator in E. destruct (t_array T) as [a|] eqn:Ea; [|discriminate].
  destruct I as (I1 & I2 & I3 & I4). rewrite I2, Nat2Z.id in E. destruct (existsb _ _) eqn:Ex; [discriminate|]. injection E as _ <-.
  rewrite <- (firstn_skipn (length made) a), filter_app.
  rewrite (filter_none _ (skipn (length made) a)).
  - rewrite app_nil_r. rewrite <- (rev_length made), (nth_ext_firstn (rev made) a) by (intros k e Hk; apply (I4 k e Hk)).
    apply filter_all. intros x Hx. apply In_nth_error in Hx as (k & Hk). destruct (I4 k x Hk) as (_ & _ & J). lia.
  - intros x Hx. destruct (0 <? e_size x) eqn:E1; [|reflexivity]. assert (existsb (fun e => 0 <? e_size e) (skipn (length made) a) = true) by (apply existsb_exists; exists x; auto). congruence.
Qed.
(** Making one: the next number, unless the table or the name is too long. *)
Lemma t_make T made fresh size name : thist T made -> 0 < size -> Z.of_nat (String.length name) < NAME_BYTES -> Z.of_nat (length made) < DEV_ALLOCS ->
  exists T', make_device_allocator fresh size name T = Ok T' (mkEntry name size (- Z.of_nat (length made) - 1)).
Proof.
  intros H Hs Hn Hm. pose proof (thist_inv T made H) as I. unfold tinv in I. unfold make_device_allocator, convert_to_array_index. destruct (size <=? 0) eqn:E; [lia|]. destruct (t_array T) as [l|].
  - destruct I as (_ & I2 & _). rewrite I2. destruct (NAME_BYTES <=? _) eqn:E1; [lia|]. destruct (DEV_ALLOCS <=? _) eqn:E2; [lia|]. eexists. do 2 f_equal. lia.
  - subst made. destruct (NAME_BYTES <=? _) eqn:E1; [lia|]. cbn. eexists. reflexivity.
Qed.
