(** Proofs about the leaves, SYCL devices and accessibility. *)
From Verif Require Import Base BaseFacts VendModel VendSpec.

(** ** Lists of blocks *)

Lemma apart_sym a b : apart a b -> apart b a.
Proof. intros [H1 H2]. split; [auto|now apply disj_sym]. Qed.

Lemma tidy_perm l l' : Permutation l l' -> tidy l -> tidy l'.
Proof.
  intros P [H1 H2]. split.
  - intros b Hb. apply H1. now apply (Permutation_in b (Permutation_sym P)).
  - apply (pairwise_perm apart apart_sym l); assumption.
Qed.

Lemma tidy_cons b l : tidy (b :: l) <-> ok_block b /\ (forall x, In x l -> apart b x) /\ tidy l.
Proof.
  unfold tidy. rewrite pairwise_cons. split.
  - intros [H1 [H2 H3]]. split; [apply H1; now left|]. split; [exact H2|]. split; [|exact H3]. intros x Hx. apply H1. now right.
  - intros (H1 & H2 & H3 & H4). split; [|split; assumption]. intros x [<-|Hx]; auto.
Qed.

Lemma fresh_tidy p n l b : b_region b = (p, n) -> fresh p n l = true -> tidy l -> tidy (b :: l).
Proof.
  intros Hb Hf Hl. unfold fresh in Hf. apply andb_true_iff in Hf. destruct Hf as [Hf Hall]. rewrite !andb_true_iff in Hf.
  destruct Hf as [[F1 F2] F3]. injection Hb as Hp Hn. rewrite forallb_forall in Hall. apply tidy_cons. split; [|split; [|exact Hl]].
  - unfold ok_block. lia.
  - intros x Hx. specialize (Hall x Hx). unfold apart, disj, b_region. cbn [fst snd]. lia.
Qed.

Lemma advise_absent p l : (forall b, In b l -> b_at b <> p) -> advise p l = l.
Proof.
  intros H. unfold advise. rewrite <- (map_id l) at 2. apply map_ext_in. intros b Hb. specialize (H b Hb).
  destruct (Z.eqb_spec (b_at b) p); [contradiction|reflexivity].
Qed.

Section Facts.
  Context (o : vendors) (coherence : bool).

  Lemma ask_spec c pl n w : 0 <= n -> tidy (v_live w) ->
    let '(w1, s) := ask o c pl n w in
    match s with
    | SaidMemory p => v_live w1 = mkBlock p n c pl false :: v_live w /\ tidy (v_live w1)
    | SaidNull => n = 0 /\ v_live w1 = v_live w
    | _ => v_live w1 = v_live w
    end.
  Proof.
    intros Hn Hw. unfold ask. destruct (o_alloc o (v_time w) c pl n) as [p| | |]; cbn [v_live]; auto.
    - destruct (fresh p n (v_live w)) eqn:F; cbn [v_live]; auto. split; [reflexivity|]. apply (fresh_tidy p n); auto.
    - destruct (Z.eqb_spec n 0); cbn [v_live]; auto.
  Qed.

  Definition got (k : leaf) (n : Z) (w w' : vstate) (p : Z) : Prop :=
    (p = 0 /\ n = 0 /\ v_live w' = v_live w) \/
    exists b, v_live w' = b :: v_live w /\ b_region b = (p, n) /\ of_leaf k b /\ (can_grain coherence k -> grained k b) /\ tidy (v_live w').

  Lemma coded_spec c k n w : 0 <= n -> tidy (v_live w) ->
    of_leaf k (mkBlock 1 n c 0 false) -> (can_grain coherence k -> grained k (mkBlock 1 n c 0 false)) ->
    match coded_allocate o c n w with
    | Ok w' p => got k n w w' p
    | Throw w' e => v_live w' = v_live w
    | _ => False
    end.
  Proof.
    intros Hn Hw Ho Hg. unfold coded_allocate. pose proof (ask_spec c 0 n w Hn Hw) as A.
    destruct (ask o c 0 n w) as [w1 [p| | |]]; auto.
    - destruct A as [A1 A2]. right. exists (mkBlock p n c 0 false). split; [exact A1|]. split; [reflexivity|]. split; [exact Ho|]. split; [exact Hg|exact A2].
    - destruct A as [A1 A2]. left. auto.
  Qed.

  Lemma pointer_spec c k pl n w : 0 <= n -> tidy (v_live w) ->
    of_leaf k (mkBlock 1 n c pl false) -> wants_grain k = GUnknown ->
    match pointer_allocate o c pl n w with
    | Ok w' p => got k n w w' p
    | Throw w' e => v_live w' = v_live w
    | _ => False
    end.
  Proof.
    intros Hn Hw Ho Hg. unfold pointer_allocate. pose proof (ask_spec c pl n w Hn Hw) as A.
    destruct (ask o c pl n w) as [w1 [p| | |]]; auto.
    - destruct A as [A1 A2]. right. exists (mkBlock p n c pl false). split; [exact A1|]. split; [reflexivity|]. split; [exact Ho|]. split; [now left|exact A2].
    - now destruct A.
  Qed.

  Lemma managed_spec g n w : reliable o coherence (LHipManaged g) -> 0 <= n -> tidy (v_live w) ->
    match hip_managed_allocate o coherence g n w with
    | Ok w' p => got (LHipManaged g) n w w' p
    | Throw w' e => v_live w' = v_live w
    | _ => False
    end.
  Proof.
    intros Hr Hn Hw. unfold hip_managed_allocate.
    assert (Hm : match coded_allocate o C_hipMallocManaged n w with
                 | Ok w' p => got (LHipManaged GUnknown) n w w' p
                 | Throw w' e => v_live w' = v_live w | _ => False end).
    { apply coded_spec; auto; [repeat split|left; reflexivity]. }
    unfold coded_allocate in *. pose proof (ask_spec C_hipMallocManaged 0 n w Hn Hw) as A.
    destruct (ask o C_hipMallocManaged 0 n w) as [w1 [p| | |]]; cbn [bind]; auto; clear Hm.
    - destruct A as [A1 A2]. set (b := mkBlock p n C_hipMallocManaged 0 false) in *.
      destruct g; destruct coherence eqn:Ec.
      all: try (right; exists b; split; [exact A1|]; split; [reflexivity|]; split; [repeat split|]; split; [|exact A2];
                first [now left|now right|intros Hc; specialize (Hc eq_refl); congruence]).
      destruct (Hr eq_refl eq_refl (v_time w1)) as [Hd _]. destruct (o_device o (v_time w1)); [|congruence].
      destruct (Hr eq_refl eq_refl (S (v_time w1))) as [_ Ha]. rewrite Ha.
      assert (E : advise p (v_live w1) = mkBlock p n C_hipMallocManaged 0 true :: v_live w).
      { rewrite A1 in A2 |- *. apply tidy_cons in A2. destruct A2 as (_ & A2 & _). cbn [advise map]. cbn [b b_at]. rewrite Z.eqb_refl. f_equal.
        apply advise_absent. intros x Hx. destruct (A2 x Hx) as [H _]. cbn in H. congruence. }
      right. exists (mkBlock p n C_hipMallocManaged 0 true). cbn [v_live]. split; [exact E|]. split; [reflexivity|]. split; [repeat split|].
      split; [now right|]. rewrite E. rewrite A1 in A2. apply tidy_cons in A2. apply tidy_cons. exact A2.
    - destruct A as [A1 A2]. destruct g; destruct coherence eqn:Ec; try (left; auto; fail).
      destruct (Hr eq_refl eq_refl (v_time w1)) as [Hd _]. destruct (o_device o (v_time w1)); [|congruence].
      destruct (Hr eq_refl eq_refl (S (v_time w1))) as [_ Ha]. rewrite Ha. left. cbn [v_live]. rewrite A2. split; [reflexivity|]. split; [exact A1|].
      apply advise_absent. intros b Hb. destruct (proj1 Hw b Hb). lia.
  Qed.

  Lemma allocate_spec k n w : usable k -> reliable o coherence k -> 0 <= n -> tidy (v_live w) ->
    match leaf_allocate o coherence k n w with
    | Ok w' p => got k n w w' p
    | Throw w' e => v_live w' = v_live w
    | _ => False
    end.
  Proof.
    intros Hu Hr Hn Hw. destruct k; cbn [leaf_allocate].
    - unfold malloc_allocate. pose proof (ask_spec C_malloc 0 n w Hn Hw) as A. destruct (ask o C_malloc 0 n w) as [w1 [p| | |]]; cbn [v_live]; auto.
      + destruct A as [A1 A2]. right. eexists. split; [exact A1|]. split; [reflexivity|]. split; [repeat split|]. split; [now left|exact A2].
      + now destruct A.
    - unfold memalign_allocate. pose proof (ask_spec C_memalign 0 n w Hn Hw) as A. destruct (ask o C_memalign 0 n w) as [w1 [p| | |]]; auto.
      + destruct A as [A1 A2]. right. eexists. split; [exact A1|]. split; [reflexivity|]. split; [repeat split|]. split; [now left|exact A2].
      + now destruct A.
    - apply coded_spec; auto; [repeat split|now left].
    - apply coded_spec; auto; [repeat split|now left].
    - apply coded_spec; auto; [repeat split|now left].
    - unfold hip_allocate. destruct g; [|destruct coherence; [|reflexivity]|destruct coherence; [|reflexivity]];
        (apply coded_spec; auto; [repeat split|]; first [now left|now right]).
    - now apply managed_spec.
    - unfold hip_pinned_allocate. destruct g; [|destruct coherence; [|reflexivity]|destruct coherence; [|reflexivity]];
        (apply coded_spec; auto; [repeat split|]; first [now left|now right]).
    - unfold on_queue. destruct queue; [|now apply Hu]. apply pointer_spec; auto. repeat split.
    - unfold on_queue. destruct queue; [|now apply Hu]. apply pointer_spec; auto. repeat split.
    - unfold on_queue. destruct queue; [|now apply Hu]. apply pointer_spec; auto. repeat split.
    - apply pointer_spec; auto. repeat split.
  Qed.

  (** Failures are told apart. *)
  Lemma shortage k n w : supported coherence k -> wants_maker k = System \/ wants_maker k = Cuda \/ wants_maker k = Hip ->
    (forall c pl, o_alloc o (v_time w) c pl n = VNoMemory) ->
    exists w', leaf_allocate o coherence k n w = Throw w' OutOfMemory /\ v_live w' = v_live w.
  Proof.
    intros Hs Hm H. destruct k; cbn [wants_maker supported] in *; try (destruct Hm as [Hm|[Hm|Hm]]; discriminate);
      cbn [leaf_allocate]; unfold malloc_allocate, memalign_allocate, hip_allocate, hip_managed_allocate, hip_pinned_allocate, coded_allocate, ask;
      try (destruct g; [|destruct Hs as [Hs|Hs]; [discriminate|rewrite Hs]|destruct Hs as [Hs|Hs]; [discriminate|rewrite Hs]]);
      rewrite H; cbn [bind]; eexists; split; reflexivity.
  Qed.
  Lemma other_failure k n w : usable k -> (forall c pl, o_alloc o (v_time w) c pl n = VOther) ->
    exists w', leaf_allocate o coherence k n w = Throw w' RuntimeError /\ v_live w' = v_live w.
  Proof.
    intros Hu H. destruct k; cbn [leaf_allocate]; unfold on_queue; try (destruct queue; [|now destruct Hu]);
      unfold malloc_allocate, memalign_allocate, hip_allocate, hip_managed_allocate, hip_pinned_allocate, coded_allocate, pointer_allocate, ask;
      try (destruct g; destruct coherence); rewrite ?H; cbn [bind]; eexists; split; reflexivity.
  Qed.

  (** ** Giving back *)

  Definition free_of (k : leaf) : option vfree :=
    match k with
    | LMalloc | LMemalign => Some F_free
    | LCuda | LCudaManaged => Some F_cudaFree
    | LCudaPinned => Some F_cudaFreeHost
    | LHip _ | LHipManaged _ => Some F_hipFree
    | LHipPinned _ => Some F_hipHostFree
    | LSycl q | LSyclManaged q | LSyclPinned q => option_map F_sycl q
    | LOmp d => Some (F_omp d)
    end.
  Lemma deallocate_free k p w : leaf_deallocate o k p w = match free_of k with Some f => give o f p w | None => UB end.
  Proof. destruct k; try reflexivity; destruct queue; reflexivity. Qed.

  Lemma of_leaf_takes k b : of_leaf k b -> exists f, free_of k = Some f /\ takes f b = true.
  Proof.
    intros (H1 & H2 & H3). destruct k; cbn [wants_maker wants_residence wants_place free_of] in *;
      try (destruct queue as [q|]; [|discriminate]; injection H3 as H3); try (injection H3 as H3); eexists; (split; [reflexivity|]);
      unfold takes; destruct (b_call b); cbn in H1, H2; try discriminate; try reflexivity; now apply Z.eqb_eq.
  Qed.

  Lemma take_spec f l b : tidy l -> In b l -> takes f b = true -> exists l', take f (b_at b) l = Some l' /\ Permutation l (b :: l').
  Proof.
    induction l as [|x l IH]; intros Hl Hb Ht; [destruct Hb|]. cbn [take]. apply tidy_cons in Hl. destruct Hl as (_ & Hx & Hl).
    destruct Hb as [->|Hb].
    - rewrite Z.eqb_refl, Ht. exists l. split; [reflexivity|apply Permutation_refl].
    - destruct (Hx b Hb) as [Hne _]. destruct (Z.eqb_spec (b_at x) (b_at b)); [contradiction|]. cbn [andb].
      destruct (IH Hl Hb Ht) as (l' & E & P). rewrite E. exists (x :: l'). split; [reflexivity|].
      rewrite P. apply perm_swap.
  Qed.

  Lemma deallocate_spec k w b : tidy (v_live w) -> In b (v_live w) -> of_leaf k b ->
    match leaf_deallocate o k (b_at b) w with
    | Ok w' _ => Permutation (v_live w) (b :: v_live w')
    | Throw w' e => v_live w' = v_live w /\ e = RuntimeError /\ o_free o (v_time w) = false
    | _ => False
    end.
  Proof.
    intros Hw Hb Ho. rewrite deallocate_free. destruct (of_leaf_takes k b Ho) as (f & -> & Ht). unfold give.
    destruct (proj1 Hw b Hb) as (Hp & _). destruct (Z.eqb_spec (b_at b) 0); [lia|].
    destruct (take_spec f _ b Hw Hb Ht) as (l' & -> & P).
    destruct (strict f); cbn [orb v_live]; [exact P|]. destruct (o_free o (v_time w)); cbn [v_live]; auto.
  Qed.

  Lemma deallocate_null k w : usable k -> exists w', leaf_deallocate o k 0 w = Ok w' tt /\ v_live w' = v_live w.
  Proof.
    intros Hu. rewrite deallocate_free. assert (H : exists f, free_of k = Some f).
    { destruct k; cbn [free_of]; try (eexists; reflexivity); destruct queue; try (eexists; reflexivity); now destruct Hu. }
    destruct H as [f ->]. unfold give. cbn [Z.eqb]. eexists. split; reflexivity.
  Qed.

  Lemma take_none f p l : (forall b, In b l -> b_at b = p -> takes f b = false) -> take f p l = None.
  Proof.
    induction l as [|x l IH]; intros H; [reflexivity|]. cbn [take]. destruct (Z.eqb_spec (b_at x) p) as [E|E].
    - rewrite (H x (or_introl eq_refl) E). cbn [andb]. rewrite IH; [reflexivity|]. intros b Hb. apply H. now right.
    - cbn [andb]. rewrite IH; [reflexivity|]. intros b Hb. apply H. now right.
  Qed.

  (** CUDA and HIP refuse what is not theirs. *)
  Lemma foreign k p w : wants_maker k = Cuda \/ wants_maker k = Hip -> p <> 0 ->
    (forall b, In b (v_live w) -> b_at b = p -> maker_of (b_call b) <> wants_maker k) ->
    exists w', leaf_deallocate o k p w = Throw w' RuntimeError /\ v_live w' = v_live w.
  Proof.
    intros Hm Hp H. rewrite deallocate_free.
    assert (X : exists f, free_of k = Some f /\ strict f = false /\ forall b, maker_of (b_call b) <> wants_maker k -> takes f b = false).
    { destruct k; cbn [wants_maker] in *; try (destruct Hm; discriminate); cbn [free_of]; eexists; (split; [reflexivity|]); (split; [reflexivity|]);
        intros b Hb; unfold takes; destruct (b_call b); try reflexivity; now destruct Hb. }
    destruct X as (f & -> & Hs & Hf). unfold give. destruct (Z.eqb_spec p 0); [contradiction|].
    rewrite take_none by (intros b Hb E; apply Hf; now apply H). rewrite Hs. eexists. split; reflexivity.
  Qed.

  (** ** Histories *)

  Definition held (b : block) (h : leaf * region) : Prop := of_leaf (fst h) b /\ b_region b = snd h.

  Lemma hist_inv w H : vhist o coherence w H -> tidy (v_live w) /\ exists l, Permutation (v_live w) l /\ Forall2 held l H /\ Forall (fun h => 0 < snd (snd h)) H.
  Proof.
    induction 1 as [t e|w H k n w' p _ IH Hu Hr Hn E|w H k n w' e _ IH Hu Hr Hn E|w H1 H2 k p n w' u _ IH E|w H1 H2 k p n w' e _ IH E].
    - split; [split; [intros b []|exact I]|]. exists []. repeat constructor.
    - destruct IH as [T (l & P & F & Q)]. pose proof (allocate_spec k n w Hu Hr ltac:(lia) T) as A. rewrite E in A.
      destruct A as [(_ & A & _)|(b & A1 & A2 & A3 & _ & A4)]; [lia|]. split; [exact A4|]. exists (b :: l). split; [rewrite A1; now constructor|].
      split; [constructor; [split; assumption|exact F]|]. constructor; [exact Hn|exact Q].
    - destruct IH as [T IH]. pose proof (allocate_spec k n w Hu Hr ltac:(lia) T) as A. rewrite E in A. rewrite A. auto.
    - destruct IH as [T (l & P & F & Q)]. apply Forall2_app_inv_r in F. destruct F as (l1 & l2' & F1 & F2 & ->). inversion F2 as [|b h l2 H2' [Hb1 Hb2] F2' E1 E2]. subst.
      injection Hb2 as Hp _. assert (Hin : In b (v_live w)).
      { apply (Permutation_in b (Permutation_sym P)). apply in_or_app. right. now left. }
      pose proof (deallocate_spec k w b T Hin Hb1) as A. rewrite Hp, E in A.
      assert (T' : tidy (b :: v_live w')) by (now apply (tidy_perm (v_live w))). apply tidy_cons in T'. split; [tauto|].
      exists (l1 ++ l2). split; [|split].
      + apply (Permutation_cons_inv (a := b)). rewrite <- A, P. apply Permutation_sym, Permutation_middle.
      + now apply Forall2_app.
      + apply Forall_app in Q. destruct Q as [Q1 Q2]. apply Forall_app. split; [exact Q1|]. now inversion Q2.
    - destruct IH as [T (l & P & F & Q)]. pose proof F as F0. apply Forall2_app_inv_r in F. destruct F as (l1 & l2' & F1 & F2 & ->).
      inversion F2 as [|b h l2 H2' [Hb1 Hb2] F2' E1 E2]. subst. injection Hb2 as Hp _. assert (Hin : In b (v_live w)).
      { apply (Permutation_in b (Permutation_sym P)). apply in_or_app. right. now left. }
      pose proof (deallocate_spec k w b T Hin Hb1) as A. rewrite Hp, E in A. destruct A as (A & _). rewrite A. split; [exact T|]. eauto.
  Qed.

  Lemma tidy_good l : tidy l -> (forall b, In b l -> 0 < b_size b) -> good (map b_region l).
  Proof.
    intros [H1 H2] H. split.
    - intros r Hr. apply in_map_iff in Hr. destruct Hr as (b & <- & Hb). specialize (H b Hb). destruct (H1 b Hb) as (? & ? & ?). unfold wf_region, b_region. cbn [fst snd]. lia.
    - apply pairwise_map. apply (pairwise_impl apart); [|exact H2]. intros x y _ _ [_ Hd]; exact Hd.
  Qed.

  Lemma hist_apart w H : vhist o coherence w H -> good (map snd H).
  Proof.
    intros X. destruct (hist_inv w H X) as [T (l & P & F & Q)]. apply (tidy_perm _ l P) in T. clear P X w.
    assert (E : map b_region l = map snd H) by (clear T Q; induction F as [|b h l H [_ Hb] F IH]; [reflexivity|cbn [map]; congruence]).
    rewrite <- E. apply tidy_good; [exact T|]. intros b Hb. rewrite Forall_forall in Q.
    assert (Hs : In (b_region b) (map snd H)) by (rewrite <- E; now apply in_map). apply in_map_iff in Hs. destruct Hs as (h & Eh & Hh).
    specialize (Q h Hh). change (0 < snd (b_region b)). rewrite <- Eh. exact Q.
  Qed.

  Lemma hist_held w H : vhist o coherence w H -> exists l, Permutation (v_live w) l /\
    Forall2 (fun b h => of_leaf (fst h) b /\ b_region b = snd h) l H.
  Proof. intros X. destruct (hist_inv w H X) as [_ (l & P & F & _)]. exists l. auto. Qed.

  (** What a history holds can be given back. *)
  Lemma hist_free w H1 H2 k p n : vhist o coherence w (H1 ++ (k, (p, n)) :: H2) ->
    match leaf_deallocate o k p w with
    | Ok w' _ => True
    | Throw w' e => e = RuntimeError /\ o_free o (v_time w) = false
    | _ => False
    end.
  Proof.
    intros X. destruct (hist_inv _ _ X) as [T (l & P & F & _)]. apply Forall2_app_inv_r in F. destruct F as (l1 & l2' & F1 & F2 & ->).
    inversion F2 as [|b h l2 H2' [Hb1 Hb2] F2' E1 E2]. subst. injection Hb2 as Hp _.
    assert (Hin : In b (v_live w)).
    { apply (Permutation_in b (Permutation_sym P)). apply in_or_app. right. now left. }
    pose proof (deallocate_spec k w b T Hin Hb1) as A. rewrite Hp in A. destruct (leaf_deallocate o k p w); tauto.
  Qed.

  (** ** A leaf as the parent of strategies *)

  Definition leaf_inv (k : leaf) (w : vstate) (L : list region) : Prop :=
    tidy (v_live w) /\ exists mine others, Permutation (v_live w) (mine ++ others) /\ map b_region mine = L /\
      Forall (of_leaf k) mine /\ Forall (fun b => 0 < b_size b) mine.

  Lemma leaf_contract k : usable k -> reliable o coherence k -> (forall t, o_free o t = true) ->
    ParentSpec (leaf_parent o coherence k) (M64 - 1) (leaf_inv k).
  Proof.
    intros Hu Hr Hf. constructor.
    - intros w L L' P (T & mine & others & Q & E & F1 & F2). split; [exact T|]. subst L. apply Permutation_sym in P. apply Permutation_map_inv in P.
      destruct P as (mine' & -> & P). exists mine', others. split; [|split; [reflexivity|split]].
      + rewrite Q. now apply Permutation_app_tail.
      + now rewrite <- P.
      + now rewrite <- P.
    - intros w L (T & mine & others & Q & <- & _ & F2). apply (tidy_perm _ _ Q) in T. rewrite Forall_forall in F2. apply tidy_good; [|exact F2].
      destruct T as [T1 T2]. apply pairwise_app in T2. split; [|tauto]. intros b Hb. apply T1. apply in_or_app. now left.
    - intros w L n (T & mine & others & Q & E & F1 & F2) Hn. cbn [leaf_parent p_alloc].
      pose proof (allocate_spec k n w Hu Hr ltac:(lia) T) as A. destruct (leaf_allocate o coherence k n w) as [w' p|w' e| | |]; cbn [post]; try contradiction.
      + destruct A as [(_ & A & _)|(b & A1 & A2 & A3 & _ & A4)]; [lia|]. split; [exact A4|]. exists (b :: mine), others.
        split; [rewrite A1; cbn [app]; now constructor|]. split; [cbn [map]; now rewrite A2, E|]. split; constructor; auto. injection A2 as _ A2. lia.
      + split; [now rewrite A|]. exists mine, others. rewrite A. auto.
    - intros w L p n (T & mine & others & Q & E & F1 & F2). cbn [leaf_parent p_dealloc]. destruct mine as [|b mine]; [discriminate|]. injection E as Ep En E.
      inversion F1 as [|? ? Fb F1']. inversion F2 as [|? ? Sb F2']. subst. assert (Hin : In b (v_live w)).
      { apply (Permutation_in b (Permutation_sym Q)). now left. }
      pose proof (deallocate_spec k w b T Hin Fb) as A. destruct (leaf_deallocate o k (b_at b) w) as [w' u|w' e| | |]; cbn [post]; try contradiction.
      + assert (T' : tidy (b :: v_live w')) by (now apply (tidy_perm (v_live w))). apply tidy_cons in T'. split; [tauto|].
        exists mine, others. split; [|auto]. apply (Permutation_cons_inv (a := b)). now rewrite <- A.
      + destruct A as (_ & _ & A). rewrite Hf in A. discriminate.
  Qed.
End Facts.

(** ** SYCL devices *)

Lemma seq_pick d : forall n sub id count q,
  sub_search d n sub id count q =
    (count + Z.of_nat n,
     if (count <=? id) && (id <? count + Z.of_nat n) then Some (d, (sub + Z.to_nat (id - count))%nat) else q).
Proof.
  induction n as [|n IH]; intros sub id count q; cbn [sub_search].
  - rewrite Z.add_0_r. destruct (Z.leb_spec count id); destruct (Z.ltb_spec id count); cbn [andb]; try reflexivity; lia.
  - rewrite IH. f_equal; [lia|]. destruct (Z.eqb_spec (count + 1 - 1) id).
    + destruct (Z.leb_spec (count + 1) id); [lia|]. cbn [andb]. destruct (Z.leb_spec count id); [|lia]. destruct (Z.ltb_spec id (count + Z.of_nat (S n))); [|lia].
      cbn [andb]. do 2 f_equal. lia.
    + destruct (Z.leb_spec (count + 1) id); destruct (Z.leb_spec count id); cbn [andb]; try reflexivity; try lia.
      destruct (Z.ltb_spec id (count + 1 + Z.of_nat n)); destruct (Z.ltb_spec id (count + Z.of_nat (S n))); try lia; try reflexivity. do 2 f_equal. lia.
Qed.

Definition pick (l : list (nat * nat)) (id : Z) : option (nat * nat) := if id <? 0 then None else nth_error l (Z.to_nat id).

Lemma pick_app l1 l2 id : pick (l1 ++ l2) id = if id <? Z.of_nat (length l1) then pick l1 id else pick l2 (id - Z.of_nat (length l1)).
Proof.
  unfold pick. destruct (Z.ltb_spec id (Z.of_nat (length l1))).
  - destruct (Z.ltb_spec id 0); [reflexivity|]. apply nth_error_app1. lia.
  - destruct (Z.ltb_spec id 0); [lia|]. destruct (Z.ltb_spec (id - Z.of_nat (length l1)) 0); [lia|]. rewrite nth_error_app2 by lia. f_equal. lia.
Qed.

Lemma nth_seq_map (i n j : nat) : (j < n)%nat -> nth_error (List.map (fun j => (i, j)) (seq 0 n)) j = Some (i, j).
Proof. intros H. rewrite nth_error_map. rewrite (nth_error_nth' _ 0%nat) by (now rewrite seq_length). rewrite seq_nth by exact H. reflexivity. Qed.

Lemma queue_search_spec : forall l i id count q, 0 <= count ->
  queue_search i l id count q = match pick (units_from i l) (id - count) with Some u => Some u | None => q end.
Proof.
  induction l as [|d l IH]; intros i id count q Hc; cbn [queue_search units_from].
  - unfold pick. destruct (id - count <? 0); [reflexivity|]. destruct (Z.to_nat (id - count)); reflexivity.
  - unfold units_of. destruct (sd_gpu d); [|cbn [app]; now apply IH]. rewrite pick_app, map_length, seq_length.
    assert (X : forall n, queue_search (S i) l id (count + Z.of_nat n) (if (count <=? id) && (id <? count + Z.of_nat n) then Some (i, (0 + Z.to_nat (id - count))%nat) else q) =
      match (if id - count <? Z.of_nat n then pick (List.map (fun j => (i, j)) (seq 0 n)) (id - count) else pick (units_from (S i) l) (id - count - Z.of_nat n)) with
      | Some u => Some u | None => q end).
    { intros n. rewrite IH by lia. replace (id - (count + Z.of_nat n)) with (id - count - Z.of_nat n) by lia.
      destruct (Z.ltb_spec (id - count) (Z.of_nat n)).
      - unfold pick at 1. destruct (Z.ltb_spec (id - count - Z.of_nat n) 0); [|lia]. unfold pick.
        destruct (Z.leb_spec count id); destruct (Z.ltb_spec id (count + Z.of_nat n)); destruct (Z.ltb_spec (id - count) 0); cbn [andb]; try lia; try reflexivity.
        now rewrite nth_seq_map by lia.
      - destruct (Z.ltb_spec id (count + Z.of_nat n)); [lia|]. rewrite andb_false_r. reflexivity. }
    destruct (sd_subs d) as [n|].
    + rewrite seq_pick. apply X.
    + rewrite <- (X 1%nat). cbn [Z.of_nat Pos.of_succ_nat]. f_equal. destruct (Z.eqb_spec (count + 1 - 1) id).
      * destruct (Z.leb_spec count id); [|lia]. destruct (Z.ltb_spec id (count + 1)); [|lia]. cbn [andb]. do 2 f_equal. lia.
      * destruct (Z.leb_spec count id); destruct (Z.ltb_spec id (count + 1)); cbn [andb]; try reflexivity. lia.
Qed.

Lemma queue_is l id : sycl_queue l id = if id <? 0 then None else nth_error (units l) (Z.to_nat id).
Proof.
  unfold sycl_queue. rewrite queue_search_spec by lia. rewrite Z.sub_0_r. fold (units l). unfold pick.
  destruct (id <? 0); [reflexivity|]. destruct (nth_error (units l) (Z.to_nat id)); reflexivity.
Qed.

Lemma units_length : forall l i, length (units_from i l) = fold_left (fun acc d => acc + sd_units d)%nat l 0%nat.
Proof.
  assert (X : forall l n, fold_left (fun acc d => acc + sd_units d)%nat l n = (n + fold_left (fun acc d => acc + sd_units d)%nat l 0)%nat).
  { induction l as [|d l IH]; intros n; cbn [fold_left]; [lia|]. rewrite IH, (IH (0 + sd_units d)%nat). lia. }
  induction l as [|d l IH]; intros i; [reflexivity|]. cbn [units_from fold_left]. rewrite app_length, X, (IH (S i)). f_equal.
  unfold units_of, sd_units. destruct (sd_gpu d); [|reflexivity]. rewrite map_length, seq_length. destruct (sd_subs d); reflexivity.
Qed.

Lemma count_is ps : sycl_count ps = list_sum (List.map (fun l => length (units l)) ps).
Proof.
  assert (X : forall l n, fold_left (fun acc d => acc + sd_units d)%nat l n = (n + length (units l))%nat).
  { intros l. unfold units. rewrite (units_length l 0). induction l as [|d l IH]; intros n; cbn [fold_left]; [lia|]. rewrite IH, (IH (0 + sd_units d)%nat). lia. }
  unfold sycl_count. assert (Y : forall n, fold_left (fun acc l => fold_left (fun acc d => acc + sd_units d)%nat l acc) ps n = (n + list_sum (List.map (fun l => length (units l)) ps))%nat).
  { induction ps as [|l ps IH]; intros n; cbn [fold_left List.map list_sum fold_right]; [lia|]. rewrite IH, X. unfold list_sum. lia. }
  rewrite Y. reflexivity.
Qed.

(** With one platform every device that is offered has its queue, and different numbers have different units. *)
Lemma num_sum l : forall acc, fold_left (fun acc x => if sd_gpu (fst x) then acc + (if Nat.ltb 0 (snd x) then snd x else 1) else acc)%nat l acc =
  (acc + list_sum (map (fun x => if sd_gpu (fst x) then (if Nat.ltb 0 (snd x) then snd x else 1) else 0) l))%nat.
Proof.
  induction l as [|x l IH]; intros acc; [cbn; lia|]. cbn [fold_left map]. rewrite IH. change (list_sum (?a :: ?b)) with (a + list_sum b)%nat. destruct (sd_gpu (fst x)); lia.
Qed.
Lemma count_one l : sycl_count [l] = list_sum (map sd_units l).
Proof.
  unfold sycl_count. cbn [fold_left]. enough (H : forall acc, fold_left (fun acc d => acc + sd_units d)%nat l acc = (acc + list_sum (map sd_units l))%nat) by apply H.
  induction l as [|d l IH]; intros acc; [cbn; lia|]. cbn [fold_left map]. rewrite IH. change (list_sum (?a :: ?b)) with (a + list_sum b)%nat. lia.
Qed.
Lemma num_devices l : Forall bounded l ->
  (sycl_count [map fst l] <= sycl_num_devices l)%nat /\
  (sycl_num_devices l = sycl_count [map fst l] <-> Forall (fun x => sd_gpu (fst x) = true -> exhausted x) l).
Proof.
  rewrite count_one. unfold sycl_num_devices. rewrite num_sum, Nat.add_0_l, map_map. induction l as [|x l IH]; intros H.
  - split; [reflexivity|]. split; [constructor|reflexivity].
  - inversion H as [|? ? Hx Hl]; subst. destruct (IH Hl) as [IH1 IH2]. cbn [map]. change (list_sum (?a :: ?b)) with (a + list_sum b)%nat.
    set (A := list_sum (map (fun x => if sd_gpu (fst x) then (if Nat.ltb 0 (snd x) then snd x else 1) else 0)%nat l)) in *. set (B := list_sum (map (fun x => sd_units (fst x)) l)) in *.
    assert (U : forall n, sd_units (fst x) = n -> n = (if sd_gpu (fst x) then match sd_subs (fst x) with Some n => n | None => 1 end else 0)%nat) by (intros n <-; reflexivity). specialize (U _ eq_refl). set (V := sd_units (fst x)) in *. unfold bounded in Hx. destruct (sd_gpu (fst x)) eqn:Eg.
    + destruct (sd_subs (fst x)) as [n|] eqn:Es.
      * destruct Hx as [H1 H2]. destruct (Nat.ltb 0 (snd x)) eqn:El; [|apply Nat.ltb_ge in El; lia]. split; [lia|]. split.
        -- intros E. constructor; [intros _; right; rewrite Es; f_equal; lia|]. apply IH2. lia.
        -- intros F. inversion F as [|? ? F1 F2]; subst. apply IH2 in F2. destruct (F1 Eg) as [F3|F3]; rewrite Es in F3; [discriminate|]. injection F3 as F3. lia.
      * rewrite Hx. cbn [Nat.ltb Nat.leb]. split; [lia|]. split.
        -- intros E. constructor; [intros _; left; exact Es|]. apply IH2. lia.
        -- intros F. inversion F as [|? ? F1 F2]; subst. apply IH2 in F2. lia.
    + split; [lia|]. split.
      * intros E. constructor; [congruence|]. apply IH2. lia.
      * intros F. inversion F as [|? ? F1 F2]; subst. apply IH2 in F2. lia.
Qed.

Lemma queue_offered l id : 0 <= id < Z.of_nat (sycl_count [l]) -> exists u, sycl_queue l id = Some u.
Proof.
  rewrite count_is, queue_is. cbn [List.map list_sum fold_right]. intros H. destruct (Z.ltb_spec id 0); [lia|].
  destruct (nth_error (units l) (Z.to_nat id)) as [u|] eqn:E; [eauto|]. apply nth_error_None in E. lia.
Qed.

Lemma units_nodup : forall l i, NoDup (units_from i l) /\ forall u, In u (units_from i l) -> (i <= fst u)%nat.
Proof.
  induction l as [|d l IH]; intros i; cbn [units_from]; [split; [constructor|intros u []]|]. destruct (IH (S i)) as [H1 H2]. unfold units_of. destruct (sd_gpu d).
  2: { split; [exact H1|]. intros u Hu. specialize (H2 u Hu). lia. }
  set (n := match sd_subs d with Some n => n | None => 1%nat end). assert (Hm : forall u, In u (List.map (fun j => (i, j)) (seq 0 n)) -> fst u = i).
  { intros u Hu. apply in_map_iff in Hu. now destruct Hu as (j & <- & _). }
  split.
  - assert (Y : forall a : list (nat * nat), NoDup a -> (forall u, In u a -> fst u = i) -> NoDup (a ++ units_from (S i) l)).
    { induction a as [|u a IHa]; intros Ha Hi; [exact H1|]. cbn [app]. inversion Ha. subst. constructor.
      - rewrite in_app_iff. intros [Hu|Hu]; [contradiction|]. specialize (H2 u Hu). rewrite (Hi u) in H2; [lia|now left].
      - apply IHa; [assumption|]. intros v Hv. apply Hi. now right. }
    apply Y; [|exact Hm]. apply FinFun.Injective_map_NoDup; [|apply seq_NoDup]. intros a b E. now injection E.
  - intros u Hu. apply in_app_or in Hu. destruct Hu as [Hu|Hu]; [rewrite (Hm u Hu); lia|]. specialize (H2 u Hu). lia.
Qed.

Lemma queue_apart l a b u : sycl_queue l a = Some u -> sycl_queue l b = Some u -> a = b.
Proof.
  rewrite !queue_is. destruct (Z.ltb_spec a 0); [discriminate|]. destruct (Z.ltb_spec b 0); [discriminate|]. intros Ha Hb.
  destruct (units_nodup l 0) as [N _]. rewrite NoDup_nth_error in N. assert (Z.to_nat a = Z.to_nat b); [|lia].
  apply N; [|unfold units in *; congruence]. apply nth_error_Some. unfold units in Ha. congruence.
Qed.

(** ** Access *)

Lemma rests_root s r : rests_on s r -> root s = r.
Proof. induction 1; auto. Qed.

Lemma platform_eqb_eq p q : platform_eqb p q = true <-> p = q.
Proof. destruct p, q; cbn; split; congruence. Qed.

Definition claim_ok (m : machine) (numa : bool) (r : rkind) (p : platform) : Prop :=
  (r = RHipDevice -> p = PHost -> m_hip_host m = true) /\ (r = RHost -> p = POmp -> numa = false -> m_omp_unified m = true).

Lemma access_sound m numa s r p : rests_on s r -> claim_ok m numa r p -> is_accessible (m_cuda_pageable m) numa p s = true -> can_reach m p (where_is r).
Proof.
  intros Hs [H1 H2] H. unfold is_accessible in H. rewrite (rests_root s r Hs) in H. destruct r, p; cbn in *; auto; try discriminate;
    try (destruct numa; try discriminate; auto; fail).
Qed.

(** What can be reached from its own device and, for memory of both, from the host, is reported. *)
Lemma access_complete pageable numa s r p : rests_on s r ->
  (match where_is r with Nowhere => False | InHost => p = PHost | OnlyDevice q => p = q | Shared q => p = q \/ p = PHost end) ->
  is_accessible pageable numa p s = true.
Proof.
  intros Hs H. unfold is_accessible. rewrite (rests_root s r Hs).
  destruct r; cbn in H |- *; try contradiction; try (destruct H as [H|H]); subst p; try reflexivity; destruct numa; reflexivity.
Qed.

Lemma platform_is gpu s r : rests_on s r -> host_nodes s -> constructible gpu s = true -> get_platform gpu s = resource_platform r.
Proof.
  intros Hs. induction 1 as [r'|x Hx IH|i x Hx IH] in r, Hs |- *; intros Hc; inversion Hs; subst; cbn [get_platform constructible] in *.
  - reflexivity.
  - apply andb_true_iff in Hc. destruct Hc as [Hc1 Hc2]. apply platform_eqb_eq in Hc2. rewrite <- Hc2. now apply IH.
  - now apply IH.
Qed.

Lemma own_platform pageable numa gpu s r : rests_on s r -> host_nodes s -> constructible gpu s = true ->
  r <> RNoOp -> r <> RNull -> r <> RFile -> is_accessible pageable numa (get_platform gpu s) s = true.
Proof.
  intros Hs Hh Hc N1 N2 N3. rewrite (platform_is gpu s r Hs Hh Hc). unfold is_accessible. rewrite (rests_root s r Hs).
  destruct r; try reflexivity; try congruence; destruct numa; reflexivity.
Qed.
