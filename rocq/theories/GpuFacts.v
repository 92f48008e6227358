(** Facts about the GPU resources. *)
From Verif Require Import Base BaseFacts GpuModel GpuSpec.

Section Facts.
  Context (v : Vendor) (count : Z).

  Lemma set_device_in d g : 0 <= d < count -> set_device count d g = mkGpu (g_time g) d (g_live g).
  Proof. intros H. unfold set_device. replace ((0 <=? d) && (d <? count)) with true by lia. reflexivity. Qed.

  Lemma apart_disj r l : apart r l = true -> forall x, In x l -> disj r (fst x).
  Proof. intros H x Hx. unfold apart in H. rewrite forallb_forall in H. specialize (H x Hx). unfold disj. apply orb_true_iff in H. destruct H as [H|H]; apply Z.leb_le in H; [left|right]; exact H. Qed.

  (** The state in which the vendor's library is called. *)
  Lemma switch_cur id g : 0 <= id < count -> 
    (if negb (g_cur g =? id) then set_device count id g else g) = mkGpu (g_time g) id (g_live g).
  Proof.
    intros H. destruct (g_cur g =? id) eqn:E; cbn [negb]; [|now apply set_device_in]. destruct g as [t c l]. cbn in *. f_equal. lia.
  Qed.

  Lemma switch_back id g0 g : 0 <= g_cur g0 < count -> g_cur g = id ->
    (if negb (g_cur g0 =? id) then set_device count (g_cur g0) g else g) = mkGpu (g_time g) (g_cur g0) (g_live g).
  Proof.
    intros H E0. destruct (g_cur g0 =? id) eqn:E; cbn [negb]; [|now apply set_device_in]. destruct g as [t c l]. cbn in *. f_equal. lia.
  Qed.

  Lemma allocate_spec id n g : 0 <= id < count -> 0 <= g_cur g < count ->
    match gpu_allocate v count id n g with
    | Ok g' p => g_cur g' = g_cur g /\ g_live g' = ((p, n), id) :: g_live g /\ 0 < n /\ 0 < p /\ p + n <= ASP /\ (forall x, In x (g_live g) -> disj (p, n) (fst x))
    | Throw g' e => g_live g' = g_live g /\ g_cur g' = id
    | _ => False
    end.
  Proof.
    intros Hi Hc. unfold gpu_allocate. rewrite (switch_cur id g Hi). unfold vendor_allocate. cbn [g_time g_cur g_live].
    destruct (v_malloc v (g_time g) id n) as [p|e]; [|cbn; auto]. destruct (_ && _) eqn:E; [|cbn; auto]. cbn [bind].
    rewrite switch_back by (auto || reflexivity). cbn [g_cur g_live g_time]. apply andb_true_iff in E. destruct E as [E A].
    split; [reflexivity|]. split; [reflexivity|]. repeat split; try lia. now apply apart_disj.
  Qed.

  Lemma deallocate_spec id p g : 0 <= id < count -> 0 <= g_cur g < count ->
    match gpu_deallocate v count id p g with
    | Ok g' _ => g_cur g' = g_cur g /\ g_live g' = filter (fun x => negb (fst (fst x) =? p)) (g_live g) /\ exists n d, In ((p, n), d) (g_live g)
    | Throw g' e => g_live g' = g_live g /\ g_cur g' = id /\ ((forall n d, ~ In ((p, n), d) (g_live g)) \/ v_free v (g_time g) = false)
    | _ => False
    end.
  Proof.
    intros Hi Hc. unfold gpu_deallocate. rewrite (switch_cur id g Hi). unfold vendor_deallocate. cbv zeta. cbn [g_time g_cur g_live].
    destruct (existsb (fun x => fst (fst x) =? p) (g_live g)) eqn:E; cbn [andb].
    - apply existsb_exists in E. destruct E as ([[p' n] d] & Hx & Ex). cbn in Ex. destruct (v_free v (g_time g)) eqn:F.
      + cbn [bind]. rewrite switch_back by (auto || reflexivity). cbn [g_cur g_live g_time]. split; [reflexivity|]. split; [reflexivity|].
        exists n, d. now replace p with p' by lia.
      + cbn. auto.
    - cbn. split; [reflexivity|]. split; [reflexivity|]. left. intros n d Hx.
      assert (Q : existsb (fun x => fst (fst x) =? p) (g_live g) = true) by (apply existsb_exists; exists ((p, n), d); split; [exact Hx|cbn; lia]).
      congruence.
  Qed.

  Definition ginv (g : gpu) (G : list (region * Z)) : Prop :=
    0 <= g_cur g < count /\ Permutation (g_live g) G /\ good (map fst G) /\ (forall r d, In (r, d) G -> 0 <= d < count).

  Lemma filter_keep {A : Type} (f : A -> bool) l : (forall x, In x l -> f x = true) -> filter f l = l.
  Proof. induction l as [|a l IH]; intros H; [reflexivity|]. cbn. rewrite (H a (or_introl eq_refl)), IH; [reflexivity|]. intros x Hx. apply H. now right. Qed.

  Lemma perm_eq {A : Type} (l l' : list A) : l = l' -> Permutation l l'.
  Proof. intros ->. apply Permutation_refl. Qed.

  Lemma filter_out (p n id : Z) (G1 G2 : list (region * Z)) : good (map fst (G1 ++ ((p, n), id) :: G2)) ->
    filter (fun x => negb (fst (fst x) =? p)) (G1 ++ ((p, n), id) :: G2) = G1 ++ G2.
  Proof.
    intros H. apply good_NoDup_fst in H. rewrite !map_app in H. cbn [map fst] in H. apply NoDup_remove_2 in H.
    rewrite filter_app. cbn [filter fst]. rewrite Z.eqb_refl. cbn [negb]. rewrite <- filter_app.
    apply filter_keep. intros x Hx. destruct (fst (fst x) =? p) eqn:E; [|reflexivity]. exfalso. apply H.
    rewrite <- map_app, <- map_app, map_map. apply in_map_iff. exists x. split; [now apply Z.eqb_eq in E|exact Hx].
  Qed.

  Lemma hist_inv strict g G c : ghist v count strict g G c -> ginv g G /\ 0 <= c < count /\ (strict = true -> g_cur g = c).
  Proof.
    induction 1 as [c Hc|g G c d H IH Hd|g G c id n g' p H IH Hi E|g G1 G2 c p n id g' H IH E|g G c id n g' e Hs H IH Hi E|g G c p n id g' e Hs H IH Hin E].
    - split; [|auto]. split; [exact Hc|]. split; [constructor|]. split; [apply good_nil|intros ? ? []].
    - destruct IH as [(I1 & I2 & I3 & I4) _]. rewrite (set_device_in d g Hd). split; [|auto]. split; [exact Hd|]. auto.
    - destruct IH as [(I1 & I2 & I3 & I4) [Hc S]]. pose proof (allocate_spec id n g Hi I1) as A. rewrite E in A. destruct A as (A1 & A2 & A3 & A4 & A5 & A6).
      split; [|rewrite A1; auto]. split; [now rewrite A1|]. split; [rewrite A2; now constructor|]. split.
      + cbn [map fst]. apply good_cons. split; [repeat split; assumption|]. split; [|exact I3]. intros r Hr. apply in_map_iff in Hr. destruct Hr as (x & <- & Hx). apply A6.
        now apply (Permutation_in x (Permutation_sym I2)).
      + intros r d [Q|Q]; [injection Q as <- <-; exact Hi|eauto].
    - destruct IH as [(I1 & I2 & I3 & I4) [Hc S]].
      assert (Hi : 0 <= id < count) by (apply (I4 (p, n)); rewrite in_app_iff; cbn; auto).
      pose proof (deallocate_spec id p g Hi I1) as A. rewrite E in A. destruct A as (A1 & A2 & _).
      split; [|rewrite A1; auto]. split; [now rewrite A1|]. split.
      { rewrite A2. eapply Permutation_trans; [apply Permutation_filter; exact I2|]. exact (perm_eq _ _ (filter_out p n id G1 G2 I3)). }
      split.
      { rewrite map_app in *. cbn [map] in I3. apply (good_perm _ (fst ((p, n), id) :: map fst G1 ++ map fst G2)) in I3; [|apply Permutation_sym, Permutation_middle].
        now apply good_cons in I3. }
      { intros r d Q. apply (I4 r d). rewrite in_app_iff in *. cbn. tauto. }
    - destruct IH as [(I1 & I2 & I3 & I4) [Hc S]]. pose proof (allocate_spec id n g Hi I1) as A. rewrite E in A. destruct A as (A1 & A2).
      split; [|split; [exact Hc|congruence]]. split; [now rewrite A2|]. split; [now rewrite A1|auto].
    - destruct IH as [(I1 & I2 & I3 & I4) [Hc S]]. pose proof (I4 _ _ Hin) as Hi. pose proof (deallocate_spec id p g Hi I1) as A. rewrite E in A. destruct A as (A1 & A2 & _).
      split; [|split; [exact Hc|congruence]]. split; [now rewrite A2|]. split; [now rewrite A1|auto].
  Qed.

  (** The resource of device [id] meets the contract between a strategy and its parent. *)
  Definition held_from (id : Z) (g : gpu) (L : list region) : Prop := exists O, ginv g (map (fun r : region => (r, id)) L ++ O).
  Definition gpu_parent (id : Z) : Parent gpu := mkParent (fun n g => gpu_allocate v count id n g) (fun p _ g => gpu_deallocate v count id p g).

  Lemma ginv_perm g G G' : Permutation G G' -> ginv g G -> ginv g G'.
  Proof.
    intros P (I1 & I2 & I3 & I4). split; [exact I1|]. split; [now transitivity G|]. split; [now apply (good_perm (map fst G)); [apply Permutation_map|]|].
    intros r d H. apply (I4 r d). now apply (Permutation_in _ (Permutation_sym P)).
  Qed.

  Lemma map_tag (id : Z) (L : list region) : map fst (map (fun r : region => (r, id)) L) = L.
  Proof. rewrite map_map. apply map_id. Qed.

  Lemma gpu_contract id : 0 <= id < count -> (forall t, v_free v t = true) -> ParentSpec (gpu_parent id) (M64 - 1) (held_from id).
  Proof.
    intros Hi Hf. constructor.
    - intros g L L' P [O H]. exists O. apply (ginv_perm g (map (fun r : region => (r, id)) L ++ O)); [|exact H]. apply Permutation_app_tail. now apply Permutation_map.
    - intros g L [O (_ & _ & H & _)]. rewrite map_app, map_tag in H. now apply good_app in H.
    - intros g L n [O (I1 & I2 & I3 & I4)] _. cbn [gpu_parent p_alloc]. pose proof (allocate_spec id n g Hi I1) as A.
      destruct (gpu_allocate v count id n g) as [g' p|g' e| | |]; try contradiction; cbn [post].
      + destruct A as (A1 & A2 & A3 & A4 & A5 & A6). exists O. cbn [map app]. split; [now rewrite A1|]. split; [rewrite A2; now constructor|]. split.
        * cbn [map fst]. apply good_cons. split; [repeat split; assumption|]. split; [|exact I3]. intros r Hr. apply in_map_iff in Hr. destruct Hr as (x & <- & Hx). apply A6.
          now apply (Permutation_in x (Permutation_sym I2)).
        * intros r d [Q|Q]; [injection Q as <- <-; exact Hi|eauto].
      + destruct A as (A1 & A2). exists O. split; [now rewrite A2|]. rewrite A1. auto.
    - intros g L p n [O (I1 & I2 & I3 & I4)]. cbn [gpu_parent p_dealloc map app]. pose proof (deallocate_spec id p g Hi I1) as A.
      destruct (gpu_deallocate v count id p g) as [g' u|g' e| | |]; try contradiction; cbn [post].
      + destruct A as (A1 & A2 & _). exists O. split; [now rewrite A1|]. split.
        * rewrite A2. eapply Permutation_trans; [apply Permutation_filter; exact I2|]. exact (perm_eq _ _ (filter_out p n id [] (map (fun r : region => (r, id)) L ++ O) I3)).
        * split; [cbn [map] in I3; now apply good_cons in I3|]. intros r d H. apply (I4 r d). now right.
      + destruct A as (_ & _ & [A|A]); [|rewrite Hf in A; discriminate]. apply (A n id). apply (Permutation_in _ (Permutation_sym I2)). now left.
  Qed.
End Facts.

(** What the library answers is what the caller gets. *)
Lemma allocate_answers v count id n g : 0 <= id < count ->
  (forall e, v_malloc v (g_time g) id n = inr e -> exists g', gpu_allocate v count id n g = Throw g' e) /\
  (forall p, v_malloc v (g_time g) id n = inl p -> 0 < n -> 0 < p -> p + n <= ASP -> (forall x, In x (g_live g) -> disj (p, n) (fst x)) ->
     exists g', gpu_allocate v count id n g = Ok g' p).
Proof.
  intros Hid. unfold gpu_allocate. set (g1 := if negb (g_cur g =? id) then set_device count id g else g).
  assert (E1 : g_cur g1 = id /\ g_time g1 = g_time g /\ g_live g1 = g_live g).
  { unfold g1, set_device. destruct (Z.eqb_spec (g_cur g) id) as [E|E]; cbn [negb]; [auto|].
    destruct (Z.leb_spec 0 id); [|lia]. destruct (Z.ltb_spec id count); [|lia]. cbn. auto. }
  clearbody g1. destruct E1 as (E1 & E2 & E3). unfold vendor_allocate. rewrite E1, E2, E3. split.
  - intros e ->. cbn [bind]. eexists. reflexivity.
  - intros p -> Hn Hp Ha Hd. destruct (Z.ltb_spec 0 n); [|lia]. destruct (Z.ltb_spec 0 p); [|lia].
    destruct (Z.leb_spec (p + n) ASP); [|lia]. cbn [andb].
    replace (apart (p, n) (g_live g)) with true; [cbn [bind]; eexists; reflexivity|].
    symmetry. apply forallb_forall. intros [[q m] d] Hx. specialize (Hd _ Hx). unfold disj in Hd. cbn [fst snd] in *.
    apply orb_true_iff. rewrite !Z.leb_le. lia.
Qed.
