(** Facts about MirrorModel.v. *)
From Coq Require Import String Ascii.
From Verif Require Import Base BaseFacts DeviceModel DeviceSpec DeviceFacts MirrorModel MirrorSpec.

Lemma drop_pair (p i : Z) (live R : list (Z * Z)) : NoDup (map fst live) -> Permutation live ((p, i) :: R) ->
  Permutation (filter (fun x => negb (fst x =? p)) live) R.
Proof.
  intros Hn Hp. assert (Hi : In (p, i) live) by (apply (Permutation_in _ (Permutation_sym Hp)); now left).
  apply in_split in Hi as (l1 & l2 & ->). rewrite map_app in Hn. cbn [map fst] in Hn. apply NoDup_remove_2 in Hn.
  assert (K : forall l, ~ In p (map fst l) -> filter (fun x : Z * Z => negb (fst x =? p)) l = l).
  { intros l Hl. apply filter_all. intros x Hx. destruct (fst x =? p) eqn:E; [|reflexivity]. exfalso. apply Hl. replace p with (fst x) by lia. now apply in_map. }
  rewrite filter_app. cbn [filter fst]. rewrite Z.eqb_refl. cbn [negb]. rewrite !K by (intros H; apply Hn, in_or_app; auto). apply (Permutation_cons_inv (a := (p, i))).
  transitivity (l1 ++ (p, i) :: l2); [apply Permutation_middle|exact Hp].
Qed.

Section Facts.
  Context (place : nat -> option Z) (fresh : Z -> list dalloc) (copy_ok : nat -> bool).
  Context (Hfresh : blank_arrays fresh).
  Notation mk := (make place fresh copy_ok).
  Notation hist := (mhist place fresh copy_ok).

  Record minv (w : dworld) (made : list dalloc) (old : list Z) (k : nat) : Prop := mkMinv {
    mi_apart : apart w;
    mi_live : exists lost, Permutation (dw_live w) (flat_map memory_of made ++ um (arrays_at (dw_host w) ++ old) ++ lost) /\ (length lost <= k)%nat;
    mi_host : match dw_host w with
              | None => made = []
              | Some a => dw_exit w = true /\ dw_arrays w a = Some (rev made ++ skipn (length made) (fresh a)) /\
                          dw_index w = Z.of_nat (length made) /\ Z.of_nat (length made) <= DEV_ALLOCS
              end;
    mi_made : forall d, In d made -> 0 < e_size (da_entry d);
    mi_ids : forall j d, nth_error (rev made) j = Some d -> e_id (da_entry d) = - Z.of_nat j - 1
  }.

  Lemma minv_set_up t w made old k : minv w made old k -> minv (set_up copy_ok t w) made old k.
  Proof. intros [A B C D E]. unfold set_up. destruct (dw_track w t); constructor; auto. Qed.

  Lemma apart_cons w w1 x : dw_live w1 = x :: dw_live w -> apart w1 -> apart w.
  Proof. unfold apart. intros ->. cbn [map In]. intros [A B]. inversion A; subst. split; [assumption|tauto]. Qed.

  Lemma take_inv i w o : take place i w = o ->
    (exists p, place (dw_calls w) = Some p /\
       o = Ok (mkDW (S (dw_calls w)) ((p, i) :: dw_live w) (dw_arrays w) (dw_host w) (dw_index w) (dw_exit w) (dw_dev w) (dw_track w) (dw_copies w)) p) \/
    (place (dw_calls w) = None /\
       o = Throw (mkDW (S (dw_calls w)) (dw_live w) (dw_arrays w) (dw_host w) (dw_index w) (dw_exit w) (dw_dev w) (dw_track w) (dw_copies w)) OutOfMemory).
  Proof. unfold take. intros <-. destruct (place (dw_calls w)) as [p|]; [left; now exists p|now right]. Qed.

  Lemma ensure_ok w w1 a : ensure_array place fresh w = Ok w1 a ->
    (dw_host w = Some a /\ w1 = w) \/
    (dw_host w = None /\ w1 = mkDW (S (dw_calls w)) ((a, UM) :: dw_live w) (fset (dw_arrays w) a (fresh a)) (Some a) 0 true (dw_dev w) (dw_track w) (dw_copies w)).
  Proof.
    unfold ensure_array. destruct (dw_host w) as [b|] eqn:Eh.
    - intros E. injection E as <- <-. now left.
    - destruct (take_inv UM (mkDW (dw_calls w) (dw_live w) (dw_arrays w) None 0 true (dw_dev w) (dw_track w) (dw_copies w)) _ eq_refl) as [(p & Ep & ->)|(Ep & ->)]; cbn; intros E; [|discriminate].
      injection E as <- <-. right. split; reflexivity.
  Qed.
  Lemma ensure_throw w w1 e : ensure_array place fresh w = Throw w1 e ->
    dw_host w = None /\ w1 = mkDW (S (dw_calls w)) (dw_live w) (dw_arrays w) None 0 true (dw_dev w) (dw_track w) (dw_copies w).
  Proof.
    unfold ensure_array. destruct (dw_host w) as [b|] eqn:Eh; [discriminate|].
    destruct (take_inv UM (mkDW (dw_calls w) (dw_live w) (dw_arrays w) None 0 true (dw_dev w) (dw_track w) (dw_copies w)) _ eq_refl) as [(p & Ep & ->)|(Ep & ->)]; cbn; intros E; [discriminate|].
    injection E as <- <-. split; reflexivity.
  Qed.

  Lemma ensure_inv w made old k w1 a : minv w made old k -> ensure_array place fresh w = Ok w1 a -> apart w1 -> minv w1 made old k /\ dw_host w1 = Some a.
  Proof.
    intros I E Ha. apply ensure_ok in E as [(Eh & ->)|(Eh & ->)]; [now split|]. split; [|reflexivity]. destruct I as [A (lost & B1 & B2) C D F].
    rewrite Eh in *. subst made. constructor; cbn [dw_live dw_host dw_exit dw_arrays dw_index dw_calls].
    - exact Ha.
    - exists lost. split; [|exact B2]. cbn [flat_map arrays_at app um map] in *. now apply perm_skip.
    - split; [reflexivity|]. split; [|split; [reflexivity|unfold DEV_ALLOCS; cbn [length]; lia]]. unfold fset. rewrite Z.eqb_refl. reflexivity.
    - exact D.
    - exact F.
  Qed.

  (** What a call of make does. *)
  Lemma make_ok i size name w w' d : mk i size name w = Ok w' d ->
    exists w1 a p c l, 0 < size /\ ensure_array place fresh w = Ok w1 a /\ dw_index w1 < DEV_ALLOCS /\ dw_arrays w1 a = Some l /\
      d = mkDA (mkEntry name size (convert_to_array_index (dw_index w1))) i p c /\
      w' = set_up copy_ok 0 (mkDW (S (S (dw_calls w1))) ((c, UM) :: (p, i) :: dw_live w1) (fset (dw_arrays w1) a (set_nth l (Z.to_nat (dw_index w1)) d)) (dw_host w1)
                            (dw_index w1 + 1) (dw_exit w1) (dw_dev w1) (dw_track w1) (dw_copies w1)).
  Proof.
    unfold make. destruct (size <=? 0) eqn:Es; [discriminate|]. destruct (ensure_array place fresh w) as [w1 a|? ?| | |] eqn:Ee; cbn [bind]; try discriminate.
    destruct (take_inv i w1 _ eq_refl) as [(p & Ep & ->)|(Ep & ->)]; cbn [bind]; [|discriminate].
    match goal with |- context [take place UM ?x] => destruct (take_inv UM x _ eq_refl) as [(c & Ec & ->)|(Ec & ->)] end; cbn [bind dw_calls dw_live dw_arrays dw_host dw_index dw_exit dw_dev dw_track dw_copies]; [|discriminate].
    destruct (NAME_BYTES <=? _); [discriminate|]. destruct (DEV_ALLOCS <=? dw_index w1) eqn:Ei; [discriminate|]. destruct (dw_arrays w1 a) as [l|] eqn:El; [|discriminate].
    intros E. apply (f_equal (fun o => match o with Ok w d => Some (w, d) | _ => None end)) in E. injection E as <- <-.
    exists w1, a, p, c, l. repeat (split; [first [reflexivity|assumption|lia]|]). reflexivity.
  Qed.

  (** A refused call: nothing, or the array, or also the memory of the allocator. *)
  Lemma make_throw i size name w w' e : mk i size name w = Throw w' e ->
    w' = w \/ ensure_array place fresh w = Throw w' e \/
    exists w1 a n live, ensure_array place fresh w = Ok w1 a /\ (live = dw_live w1 \/ exists p, live = (p, i) :: dw_live w1) /\
      w' = mkDW n live (dw_arrays w1) (dw_host w1) (dw_index w1) (dw_exit w1) (dw_dev w1) (dw_track w1) (dw_copies w1).
  Proof.
    unfold make. destruct (size <=? 0) eqn:Es; [intros E; injection E as <- <-; now left|]. destruct (ensure_array place fresh w) as [w1 a|w1 e1| | |] eqn:Ee; cbn [bind]; try discriminate.
    2: { intros E. right. left. injection E as <- <-. reflexivity. }
    intros E. right. right.
    destruct (take_inv i w1 _ eq_refl) as [(p & Ep & Ew)|(Ep & Ew)]; rewrite Ew in E; cbn [bind] in E.
    2: { injection E as <- <-. do 4 eexists. split; [reflexivity|]. split; [left; reflexivity|reflexivity]. }
    match type of E with context [take place UM ?x] => destruct (take_inv UM x _ eq_refl) as [(c & Ec & Ew2)|(Ec & Ew2)]; rewrite Ew2 in E end; cbn [bind dw_calls dw_live dw_arrays dw_host dw_index dw_exit dw_dev dw_track dw_copies] in E.
    - destruct (NAME_BYTES <=? _); [discriminate|]. destruct (DEV_ALLOCS <=? dw_index w1); [discriminate|]. destruct (dw_arrays w1 a); discriminate.
    - injection E as <- <-. do 4 eexists. split; [reflexivity|]. split; [right; exists p; reflexivity|reflexivity].
  Qed.

  Lemma set_nth_end {A} (l1 l2 : list A) x y : set_nth (l1 ++ x :: l2) (length l1) y = l1 ++ y :: l2.
  Proof. induction l1 as [|z l1 IH]; [reflexivity|]. cbn [app length set_nth]. now rewrite IH. Qed.
  Lemma skipn_cons {A} (l : list A) : forall n, (n < length l)%nat -> exists x, skipn n l = x :: skipn (S n) l.
  Proof. induction l as [|y l IH]; intros [|n] H; cbn [length] in H; try lia; [exists y; reflexivity|]. destruct (IH n ltac:(lia)) as (x & E). exists x. exact E. Qed.

  Lemma make_inv i size name w made old k w' d : minv w made old k -> mk i size name w = Ok w' d -> apart w' -> minv w' (d :: made) old k.
  Proof.
    intros I E Ha. apply make_ok in E as (w1 & a & p & c & l & Hs & Ee & Hi & El & Ed & ->).
    assert (Ha1 : apart w1).
    { unfold set_up in Ha. destruct (dw_track _ 0); unfold apart in *; cbn [dw_live map] in Ha; destruct Ha as [A B]; inversion A as [|? ? ? A1]; inversion A1; subst; (split; [assumption|intros H0; apply B; right; right; exact H0]). }
    destruct (ensure_inv w made old k w1 a I Ee Ha1) as [J Eh]. apply minv_set_up. destruct J as [A (lost & B1 & B2) C D F]. rewrite Eh in *. destruct C as (C1 & C2 & C3 & C4).
    rewrite El in C2. injection C2 as ->. constructor; cbn [dw_live dw_host dw_exit dw_arrays dw_index dw_calls].
    - unfold set_up in Ha. destruct (dw_track _ 0); exact Ha.
    - exists lost. split; [|exact B2]. cbn [flat_map]. rewrite Ed at 1. unfold memory_of at 1. cbn [da_ptr da_owner da_counter app]. cbn [arrays_at app] in *. etransitivity; [apply perm_swap|]. now repeat apply perm_skip.
    - split; [exact C1|]. cbn [length]. split; [|split; lia]. unfold fset. rewrite Z.eqb_refl. f_equal. rewrite C3, Nat2Z.id.
      destruct (Hfresh a) as [Hl _]. destruct (skipn_cons (fresh a) (length made)) as (x & Ex); [lia|]. rewrite Ex. pose proof (set_nth_end (rev made) (skipn (S (length made)) (fresh a)) x d) as Q. rewrite rev_length in Q. rewrite Q. cbn [rev]. now rewrite <- app_assoc.
    - intros x [<-|Hx]; [rewrite Ed; exact Hs|now apply D].
    - intros j x Hj. cbn [rev] in Hj. destruct (Nat.lt_ge_cases j (length (rev made))) as [Hlt|Hge].
      + rewrite nth_error_app1 in Hj by exact Hlt. now apply F.
      + rewrite nth_error_app2 in Hj by exact Hge. destruct (j - length (rev made))%nat as [|m] eqn:Em; [|destruct m; discriminate]. injection Hj as <-. rewrite rev_length in *. rewrite Ed. cbn [da_entry e_id]. unfold convert_to_array_index. lia.
  Qed.

  Lemma throw_inv i size name w made old k w' e : minv w made old k -> mk i size name w = Throw w' e -> apart w' -> minv w' made old (S k).
  Proof.
    intros I E Ha. apply make_throw in E as [->|[E|(w1 & a & n & live & Ee & Hl & ->)]].
    - destruct I as [A (lost & B1 & B2) C D F]. constructor; auto. exists lost. split; [exact B1|lia].
    - apply ensure_throw in E as (Eh & ->). destruct I as [A (lost & B1 & B2) C D F]. rewrite Eh in *. constructor; cbn [dw_live dw_host]; auto. exists lost. split; [exact B1|lia].
    - assert (Ha1 : apart w1). { destruct Hl as [->|(p & ->)]; [exact Ha|]. eapply apart_cons; [|exact Ha]. reflexivity. }
      destruct (ensure_inv w made old k w1 a I Ee Ha1) as [J Eh]. destruct J as [A (lost & B1 & B2) C D F]. constructor; cbn [dw_live dw_host dw_exit dw_arrays dw_index]; auto.
      destruct Hl as [->|(p & ->)]; [exists lost; split; [exact B1|lia]|]. exists ((p, i) :: lost). split; [|cbn [length]; lia].
      rewrite !app_assoc in *. apply Permutation_cons_app. exact B1.
  Qed.

  (** Giving memory back. *)
  Definition same_but_live (w w' : dworld) : Prop :=
    w' = mkDW (dw_calls w) (dw_live w') (dw_arrays w) (dw_host w) (dw_index w) (dw_exit w) (dw_dev w) (dw_track w) (dw_copies w).
  Lemma same_refl w : same_but_live w w.
  Proof. now destruct w. Qed.
  Lemma same_trans w1 w2 w3 : same_but_live w1 w2 -> same_but_live w2 w3 -> same_but_live w1 w3.
  Proof. unfold same_but_live. intros -> ->. reflexivity. Qed.

  Lemma apart_perm w R : apart w -> Permutation (dw_live w) R -> NoDup (map fst R) /\ ~ In 0 (map fst R).
  Proof.
    intros [A B] P. apply (Permutation_map fst) in P. split; [exact (Permutation_NoDup P A)|]. intros H. apply B. exact (Permutation_in _ (Permutation_sym P) H).
  Qed.

  Lemma give_ok i p w R : apart w -> Permutation (dw_live w) ((p, i) :: R) ->
    exists w', give i p w = Ok w' tt /\ Permutation (dw_live w') R /\ same_but_live w w' /\ apart w'.
  Proof.
    intros Ha P. unfold give. assert (Hx : existsb (fun x => (fst x =? p) && (snd x =? i)) (dw_live w) = true).
    { apply existsb_exists. exists (p, i). split; [apply (Permutation_in _ (Permutation_sym P)); now left|]. cbn [fst snd]. lia. }
    rewrite Hx. eexists. split; [reflexivity|]. pose proof (drop_pair p i _ R (proj1 Ha) P) as Q. split; [exact Q|]. split; [reflexivity|].
    destruct (apart_perm w _ Ha P) as [N Z0]. cbn [map fst] in N, Z0. inversion N as [|? ? ? N1]; subst. unfold apart. cbn [dw_live]. split.
    - exact (Permutation_NoDup (Permutation_map fst (Permutation_sym Q)) N1).
    - intros HH. apply Z0. right. exact (Permutation_in _ (Permutation_map fst Q) HH).
  Qed.

  Lemma destroy_one_ok d w R : apart w -> Permutation (dw_live w) (memory_of d ++ R) ->
    exists w', destroy_one d w = Ok w' tt /\ Permutation (dw_live w') R /\ same_but_live w w' /\ apart w'.
  Proof.
    intros Ha P. destruct (apart_perm w _ Ha P) as [_ Z0]. cbn [memory_of map app fst In] in Z0. unfold destroy_one.
    replace (da_counter d =? 0) with false by (destruct (da_counter d =? 0) eqn:E; [exfalso; apply Z0; right; left; lia|reflexivity]).
    replace (da_ptr d =? 0) with false by (destruct (da_ptr d =? 0) eqn:E; [exfalso; apply Z0; left; lia|reflexivity]).
    destruct (give_ok UM (da_counter d) w ((da_ptr d, da_owner d) :: R) Ha) as (w1 & E1 & P1 & S1 & A1); [etransitivity; [exact P|]; cbn [memory_of app]; apply perm_swap|].
    rewrite E1. cbn [bind]. destruct (give_ok (da_owner d) (da_ptr d) w1 R A1 P1) as (w2 & E2 & P2 & S2 & A2). exists w2. split; [exact E2|]. split; [exact P2|]. split; [exact (same_trans _ _ _ S1 S2)|exact A2].
  Qed.

  Lemma destroy_each_ok l : forall w R, (forall d, In d l -> 0 < e_size (da_entry d)) -> apart w -> Permutation (dw_live w) (flat_map memory_of l ++ R) ->
    exists w', destroy_each l w = Ok w' tt /\ Permutation (dw_live w') R /\ same_but_live w w' /\ apart w'.
  Proof.
    induction l as [|d l IH]; intros w R Hd Ha P.
    - exists w. split; [reflexivity|]. split; [exact P|]. split; [apply same_refl|exact Ha].
    - cbn [flat_map] in P. rewrite <- app_assoc in P. destruct (destroy_one_ok d w _ Ha P) as (w1 & E1 & P1 & S1 & A1). cbn [destroy_each].
      replace (0 <? e_size (da_entry d)) with true by (symmetry; apply Z.ltb_lt, Hd; now left). rewrite E1. cbn [bind].
      destruct (IH w1 R (fun x Hx => Hd x (or_intror Hx)) A1 P1) as (w2 & E2 & P2 & S2 & A2). exists w2. split; [exact E2|]. split; [exact P2|]. split; [exact (same_trans _ _ _ S1 S2)|exact A2].
  Qed.
  Lemma destroy_each_blank l : forall w, (forall d, In d l -> e_size (da_entry d) <= 0) -> destroy_each l w = Ok w tt.
  Proof.
    induction l as [|d l IH]; intros w H; [reflexivity|]. cbn [destroy_each]. replace (0 <? e_size (da_entry d)) with false by (symmetry; apply Z.ltb_ge, H; now left). cbn [bind]. apply IH. intros x Hx. apply H. now right.
  Qed.
  Lemma destroy_each_app l1 l2 : forall w, destroy_each (l1 ++ l2) w = bind (destroy_each l1 w) (fun w1 _ => destroy_each l2 w1).
  Proof.
    induction l1 as [|d l1 IH]; intros w; [reflexivity|]. cbn [app destroy_each]. destruct (if 0 <? e_size (da_entry d) then destroy_one d w else Ok w tt) as [w1 u| | | |]; cbn [bind]; [apply IH|reflexivity..].
  Qed.
  Lemma skipn_in {A} (l : list A) : forall n x, In x (skipn n l) -> In x l.
  Proof. induction l as [|y l IH]; intros [|n] x H; try exact H. right. exact (IH n x H). Qed.

  Lemma destroy_inv w made old k a : minv w made old k -> dw_host w = Some a ->
    exists w', destroy_all w = Ok w' tt /\ minv w' [] (a :: old) k /\ dw_exit w' = true /\ dw_host w' = None /\ dw_dev w' = dw_dev w /\ dw_track w' = dw_track w /\
      exists lost, Permutation (dw_live w) (flat_map memory_of made ++ um (a :: old) ++ lost) /\ Permutation (dw_live w') (um (a :: old) ++ lost) /\ (length lost <= k)%nat.
  Proof.
    intros [A (lost & B1 & B2) C D F] Eh. rewrite Eh in *. destruct C as (C1 & C2 & C3 & C4). unfold destroy_all. rewrite Eh, C2. rewrite destroy_each_app.
    assert (P : Permutation (dw_live w) (flat_map memory_of (rev made) ++ um (a :: old) ++ lost)).
    { etransitivity; [exact B1|]. apply Permutation_app_tail. apply Permutation_flat_map, Permutation_rev. }
    destruct (destroy_each_ok (rev made) w _ (fun d Hd => D d (proj2 (in_rev _ _) Hd)) A P) as (w1 & E1 & P1 & S1 & A1). rewrite E1. cbn [bind].
    rewrite destroy_each_blank; [|intros d Hd; apply (proj2 (Hfresh a)); exact (skipn_in _ _ _ Hd)]. cbn [bind]. unfold same_but_live in S1.
    eexists. split; [reflexivity|]. cbn [dw_exit dw_host dw_dev dw_track dw_live]. rewrite S1. cbn [dw_exit dw_host dw_dev dw_track dw_live dw_arrays dw_index dw_calls dw_copies].
    split; [|split; [exact C1|split; [reflexivity|split; [reflexivity|split; [reflexivity|exists lost; split; [exact B1|split; [exact P1|exact B2]]]]]]].
    constructor; cbn [dw_live dw_host].
    - exact A1.
    - exists lost. split; [exact P1|exact B2].
    - reflexivity.
    - intros d [].
    - intros [|j] d H; discriminate.
  Qed.

  Lemma mhist_inv w made old k : hist w made old k -> minv w made old k.
  Proof.
    induction 1 as [|w made old k i size name w' d H IH E Ha|w made old k i size name w' e H IH E Ha|w made old k w' a H IH Eh E|w made old k t H IH Ht].
    - constructor; cbn.
      + split; [constructor|intros []].
      + exists []. split; [apply perm_nil|apply le_n].
      + reflexivity.
      + intros d [].
      + intros [|j] d Hd; discriminate.
    - exact (make_inv i size name w made old k w' d IH E Ha).
    - exact (throw_inv i size name w made old k w' e IH E Ha).
    - destruct (destroy_inv w made old k a IH Eh) as (w2 & E2 & I2 & _). rewrite E2 in E. injection E as <-. exact I2.
    - now apply minv_set_up.
  Qed.

  Lemma m_memory w made old k : hist w made old k ->
    exists lost, Permutation (dw_live w) (flat_map memory_of made ++ um (arrays_at (dw_host w) ++ old) ++ lost) /\ (length lost <= k)%nat.
  Proof. intros H. exact (mi_live _ _ _ _ (mhist_inv _ _ _ _ H)). Qed.

  Lemma m_destroy w made old k a : hist w made old k -> dw_host w = Some a ->
    exists w' lost, destroy_all w = Ok w' tt /\ at_exit w = Ok w' tt /\ dw_host w' = None /\
      Permutation (dw_live w) (flat_map memory_of made ++ um (a :: old) ++ lost) /\ Permutation (dw_live w') (um (a :: old) ++ lost) /\ (length lost <= k)%nat.
  Proof.
    intros H Eh. pose proof (mhist_inv _ _ _ _ H) as I. destruct (destroy_inv w made old k a I Eh) as (w' & E & J & X & Y & _ & _ & lost & P1 & P2 & P3).
    exists w', lost. split; [exact E|]. split; [|auto]. unfold at_exit. pose proof (mi_host _ _ _ _ I) as C. rewrite Eh in C. destruct C as (-> & _). rewrite Eh, E. reflexivity.
  Qed.

  Lemma get_by w made old k d dv : hist w made old k -> In d made -> (if dv : bool then dw_dev w else dw_host w) = dw_host w ->
    get_id dv (e_id (da_entry d)) w = Ok w d.
  Proof.
    intros H Hd Ev. pose proof (mhist_inv _ _ _ _ H) as [A B C D F]. apply in_rev in Hd as Hr. apply In_nth_error in Hr as (j & Hj). pose proof (F j d Hj) as Eid.
    assert (Hlt : (j < length made)%nat) by (rewrite <- (rev_length made); apply nth_error_Some; congruence).
    unfold get_id. rewrite Ev. destruct (dw_host w) as [a|]; [|subst made; destruct Hd]. destruct C as (C1 & C2 & C3 & C4).
    assert (Ec : convert_to_array_index (e_id (da_entry d)) = Z.of_nat j) by (unfold convert_to_array_index; lia). rewrite Ec.
    replace ((Z.of_nat j <? 0) || (DEV_ALLOCS - 1 <? Z.of_nat j)) with false by (unfold DEV_ALLOCS in *; lia). rewrite C2, Nat2Z.id, nth_error_app1 by (rewrite rev_length; exact Hlt). rewrite Hj.
    replace (0 <? e_size (da_entry d)) with true by (symmetry; apply Z.ltb_lt, D, Hd). reflexivity.
  Qed.

  Lemma m_host_id w made old k d : hist w made old k -> In d made -> get_id false (e_id (da_entry d)) w = Ok w d.
  Proof. intros H Hd. now apply (get_by w made old k d false). Qed.

  (** Until the first destruction the device has the host's array. *)
  Lemma set_up_fields t w : dw_host (set_up copy_ok t w) = dw_host w /\ (dw_track w t = true -> set_up copy_ok t w = w) /\
    (dw_track w t = false -> dw_dev (set_up copy_ok t w) = (if copy_ok (dw_copies w) then dw_host w else dw_dev w) /\ dw_track (set_up copy_ok t w) t = true) /\
    (forall u, u <> t -> dw_track (set_up copy_ok t w) u = dw_track w u).
  Proof.
    unfold set_up. destruct (dw_track w t) eqn:E; cbn [dw_host dw_dev dw_track].
    - split; [reflexivity|]. split; [reflexivity|]. split; [discriminate|reflexivity].
    - split; [reflexivity|]. split; [discriminate|]. split; [intros _; rewrite Nat.eqb_refl; split; reflexivity|]. intros u Hu. apply Nat.eqb_neq in Hu. now rewrite Hu.
  Qed.

  Lemma ensure_fields w w1 a : ensure_array place fresh w = Ok w1 a -> dw_host w1 = Some a /\ (forall b, dw_host w = Some b -> b = a) /\ dw_dev w1 = dw_dev w /\ dw_track w1 = dw_track w.
  Proof. intros E. apply ensure_ok in E as [(Eh & ->)|(Eh & ->)]; (split; [auto|split; [intros b Hb; congruence|split; reflexivity]]). Qed.

  Lemma make_dev i size name w w' d : mk i size name w = Ok w' d ->
    exists a, dw_host w' = Some a /\ (forall b, dw_host w = Some b -> b = a) /\ dw_track w' 0%nat = true /\
      (dw_track w 0%nat = true -> dw_dev w' = dw_dev w /\ dw_track w' = dw_track w) /\
      (dw_track w 0%nat = false -> (forall n, copy_ok n = true) -> dw_dev w' = Some a).
  Proof.
    intros E. apply make_ok in E as (w1 & a & p & c & l & _ & Ee & _ & _ & _ & ->). destruct (ensure_fields w w1 a Ee) as (H1 & H2 & H3 & H4). exists a.
    match goal with |- context [set_up copy_ok 0 ?x] => destruct (set_up_fields 0 x) as (S1 & S2 & S3 & _) end. cbn [dw_host dw_dev dw_track] in *. rewrite H4 in *.
    split; [congruence|]. split; [exact H2|]. split; [destruct (dw_track w 0%nat) eqn:Et; [rewrite S2 by reflexivity; cbn [dw_track]; exact Et|exact (proj2 (S3 eq_refl))]|].
    split; [intros Et; rewrite (S2 Et); cbn [dw_dev dw_track]; now split|]. intros Et Hc. rewrite (proj1 (S3 Et)), Hc. exact H1.
  Qed.
  Lemma throw_dev i size name w w' e : mk i size name w = Throw w' e ->
    (forall b, dw_host w = Some b -> dw_host w' = Some b) /\ dw_dev w' = dw_dev w /\ dw_track w' = dw_track w.
  Proof.
    intros E. apply make_throw in E as [->|[E|(w1 & a & n & live & Ee & _ & ->)]]; [auto| |].
    - apply ensure_throw in E as (Eh & ->). split; [congruence|split; reflexivity].
    - destruct (ensure_fields w w1 a Ee) as (H1 & H2 & H3 & H4). cbn [dw_host dw_dev dw_track]. split; [intros b Hb; rewrite H1; f_equal; symmetry; now apply H2|auto].
  Qed.

  Lemma view_inv w made old k : (forall n, copy_ok n = true) -> hist w made old k -> old = [] ->
    (made <> [] -> dw_track w 0%nat = true) /\ (dw_track w 0%nat = true -> dw_dev w = dw_host w /\ dw_host w <> None).
  Proof.
    intros Hc. induction 1 as [|w made old k i size name w' d H IH E Ha|w made old k i size name w' e H IH E Ha|w made old k w' a H IH Eh E|w made old k t H IH Ht]; intros Ho.
    - split; [intros X; now elim X|discriminate].
    - destruct (IH Ho) as [I1 I2]. destruct (make_dev _ _ _ _ _ _ E) as (a & H1 & H2 & H3 & H4 & H5). split; [auto|]. intros _. rewrite H1. split; [|discriminate].
      destruct (dw_track w 0%nat) eqn:Et; [|auto]. destruct (H4 eq_refl) as [-> _]. destruct (I2 eq_refl) as [I3 I4]. rewrite I3. destruct (dw_host w) as [b|]; [|now elim I4]. now rewrite (H2 b eq_refl).
    - destruct (IH Ho) as [I1 I2]. destruct (throw_dev _ _ _ _ _ _ E) as (H1 & -> & ->). split; [exact I1|]. intros Et. destruct (I2 Et) as [I3 I4]. rewrite I3. destruct (dw_host w) as [b|]; [|now elim I4]. rewrite (H1 b eq_refl). split; [reflexivity|discriminate].
    - discriminate.
    - destruct (IH Ho) as [I1 I2]. destruct (set_up_fields t w) as (S1 & S2 & S3 & S4). rewrite S1, (S4 0%nat) by lia. split; [exact I1|]. intros Et. destruct (I2 Et) as [I3 I4]. split; [|exact I4].
      destruct (dw_track w t) eqn:Ett; [rewrite S2 by reflexivity; exact I3|]. rewrite (proj1 (S3 eq_refl)), Hc. reflexivity.
  Qed.

  Lemma m_view w made k : (forall n, copy_ok n = true) -> hist w made [] k -> made <> [] -> exists a, dw_host w = Some a /\ dw_dev w = Some a.
  Proof.
    intros Hc H Hm. destruct (view_inv w made [] k Hc H eq_refl) as [V1 V2]. destruct (V2 (V1 Hm)) as [V3 V4]. rewrite V3. destruct (dw_host w) as [a|]; [|now elim V4]. now exists a.
  Qed.
  Lemma m_device_id w made k d : (forall n, copy_ok n = true) -> hist w made [] k -> In d made -> get_id true (e_id (da_entry d)) w = Ok w d.
  Proof.
    intros Hc H Hd. apply (get_by w made [] k d true H Hd). destruct (m_view w made k Hc H) as (a & -> & ->); [now intros ->|reflexivity].
  Qed.

  (** A translation unit that has not used the macro sets the device right. *)
  Lemma m_repair w made old k t d : hist w made old k -> t <> 0%nat -> dw_track w t = false -> copy_ok (dw_copies w) = true -> In d made ->
    get_id true (e_id (da_entry d)) (set_up copy_ok t w) = Ok (set_up copy_ok t w) d.
  Proof.
    intros H Ht E Hc Hd. apply (get_by (set_up copy_ok t w) made old k d true); [now apply mh_set_up|exact Hd|].
    destruct (set_up_fields t w) as (S1 & _ & S3 & _). rewrite S1, (proj1 (S3 E)), Hc. reflexivity.
  Qed.

  Lemma destroy_each_fields l : forall w w', destroy_each l w = Ok w' tt -> dw_dev w' = dw_dev w /\ dw_track w' = dw_track w.
  Proof.
    assert (G : forall i p w w', give i p w = Ok w' tt -> dw_dev w' = dw_dev w /\ dw_track w' = dw_track w).
    { intros i p w w'. unfold give. destruct (existsb _ _); [|discriminate]. intros E. injection E as <-. split; reflexivity. }
    induction l as [|d l IH]; intros w w' E; [injection E as <-; split; reflexivity|]. cbn [destroy_each] in E.
    destruct (if 0 <? e_size (da_entry d) then destroy_one d w else Ok w tt) as [w1 []| | | |] eqn:E1; cbn [bind] in E; try discriminate.
    destruct (IH w1 w' E) as [-> ->]. destruct (0 <? e_size (da_entry d)); [|injection E1 as <-; split; reflexivity]. unfold destroy_one in E1.
    destruct (if da_counter d =? 0 then Ok w tt else give UM (da_counter d) w) as [w2 []| | | |] eqn:E2; cbn [bind] in E1; try discriminate.
    assert (dw_dev w2 = dw_dev w /\ dw_track w2 = dw_track w) as [<- <-] by (destruct (da_counter d =? 0); [injection E2 as <-; split; reflexivity|exact (G _ _ _ _ E2)]).
    destruct (da_ptr d =? 0); [injection E1 as <-; split; reflexivity|exact (G _ _ _ _ E1)].
  Qed.

  Lemma m_kept w w' : dw_track w 0%nat = true -> later place fresh copy_ok w w' -> dw_dev w' = dw_dev w.
  Proof.
    intros Ht H. enough (dw_dev w' = dw_dev w /\ dw_track w' = dw_track w) by tauto. induction H as [|w1 i size name w2 d H [I1 I2] E|w1 i size name w2 e H [I1 I2] E|w1 w2 H [I1 I2] E|w1 t H [I1 I2] E].
    - split; reflexivity.
    - destruct (make_dev _ _ _ _ _ _ E) as (a & _ & _ & _ & H4 & _). destruct H4 as [-> ->]; [congruence|]. now split.
    - destruct (throw_dev _ _ _ _ _ _ E) as (_ & -> & ->). now split.
    - unfold destroy_all in E. destruct (dw_host w1) as [a|]; [|discriminate]. destruct (dw_arrays w1 a) as [l|]; [|discriminate]. destruct (destroy_each l w1) as [w3 []| | | |] eqn:E3; cbn [bind] in E; try discriminate.
      injection E as <-. cbn [dw_dev dw_track]. destruct (destroy_each_fields l w1 w3 E3) as [-> ->]. now split.
    - destruct (set_up_fields t w1) as (_ & S2 & _). rewrite (S2 E). now split.
  Qed.

  Lemma m_abandoned w made old k a : hist w made old k -> In a old -> dw_host w <> Some a.
  Proof.
    intros H Ha Eh. pose proof (mhist_inv _ _ _ _ H) as [A (lost & P & _) _ _ _]. rewrite Eh in P. cbn [arrays_at app um map] in P. destruct (apart_perm w _ A P) as [N _].
    rewrite map_app in N. cbn [map fst] in N. apply NoDup_remove_2 in N. apply N. apply in_or_app. right. rewrite map_app. apply in_or_app. left. unfold um. rewrite map_map. cbn [fst]. rewrite map_id. exact Ha.
  Qed.

  (** When a device allocator can be made. *)
  Lemma m_make w made old k i size name : hist w made old k -> 0 < size -> Z.of_nat (String.length name) < NAME_BYTES -> Z.of_nat (length made) < DEV_ALLOCS ->
    (forall n, place n <> None) ->
    exists w' p c, mk i size name w = Ok w' (mkDA (mkEntry name size (- Z.of_nat (length made) - 1)) i p c) /\
      exists a, dw_host w' = Some a /\ (dw_host w = Some a /\ dw_live w' = (c, UM) :: (p, i) :: dw_live w \/ dw_host w = None /\ dw_live w' = (c, UM) :: (p, i) :: (a, UM) :: dw_live w).
  Proof.
    intros H Hs Hn Hl Hp. pose proof (mhist_inv _ _ _ _ H) as [A _ C _ _]. unfold make. replace (size <=? 0) with false by lia.
    assert (T : forall i w, exists p, take place i w = Ok (mkDW (S (dw_calls w)) ((p, i) :: dw_live w) (dw_arrays w) (dw_host w) (dw_index w) (dw_exit w) (dw_dev w) (dw_track w) (dw_copies w)) p).
    { intros j u. unfold take. destruct (place (dw_calls u)) as [p|] eqn:E; [|now elim (Hp (dw_calls u))]. now exists p. }
    assert (Ee : exists w1 a, ensure_array place fresh w = Ok w1 a /\ dw_index w1 = Z.of_nat (length made) /\ (exists l, dw_arrays w1 a = Some l) /\ dw_host w1 = Some a /\
      (dw_host w = Some a /\ dw_live w1 = dw_live w \/ dw_host w = None /\ dw_live w1 = (a, UM) :: dw_live w)).
    { unfold ensure_array. destruct (dw_host w) as [a|] eqn:Eh.
      - exists w, a. destruct C as (C1 & C2 & C3 & C4). split; [reflexivity|]. split; [exact C3|]. split; [eexists; exact C2|]. split; [exact Eh|left; split; reflexivity].
      - subst made. match goal with |- context [take place UM ?x] => destruct (T UM x) as (a & ->) end. cbn [bind]. do 2 eexists. split; [reflexivity|]. cbn [dw_index dw_arrays dw_host dw_live].
        split; [reflexivity|]. split; [exists (fresh a); unfold fset; now rewrite Z.eqb_refl|]. split; [reflexivity|right; split; reflexivity]. }
    destruct Ee as (w1 & a & -> & Ei & (l & El) & Eh & Hlive). cbn [bind]. destruct (T i w1) as (p & ->). cbn [bind]. match goal with |- context [take place UM ?x] => destruct (T UM x) as (c & ->) end.
    cbn [bind dw_calls dw_live dw_arrays dw_host dw_index dw_exit dw_dev dw_track dw_copies]. replace (NAME_BYTES <=? Z.of_nat (String.length name)) with false by lia. rewrite Ei. replace (DEV_ALLOCS <=? Z.of_nat (length made)) with false by lia. rewrite El.
    do 3 eexists. split; [f_equal; f_equal; f_equal; unfold convert_to_array_index; lia|]. exists a. unfold set_up. destruct (dw_track _ 0%nat); cbn [dw_host dw_live]; (split; [exact Eh|]); (destruct Hlive as [(X & ->)|(X & ->)]; [left|right]; split; [exact X|reflexivity|exact X|reflexivity]).
  Qed.

  (** Names. *)
  Lemma array_of w made old k d : hist w made old k -> In d made -> exists a, dw_host w = Some a /\ dw_arrays w a = Some (rev made ++ skipn (length made) (fresh a)).
  Proof.
    intros H Hd. pose proof (mi_host _ _ _ _ (mhist_inv _ _ _ _ H)) as C. destruct (dw_host w) as [a|]; [|subst made; destruct Hd]. exists a. split; [reflexivity|tauto].
  Qed.
  Lemma nth_mid {A} (l1 l2 : list A) x : nth_error (l1 ++ x :: l2) (length l1) = Some x.
  Proof. rewrite nth_error_app2 by lia. now rewrite Nat.sub_diag. Qed.

  Lemma m_device_name w k newer d older name : (forall n, copy_ok n = true) -> hist w (newer ++ d :: older) [] k ->
    prefix (e_name (da_entry d)) name -> (forall x, In x older -> ~ prefix (e_name (da_entry x)) name) -> get_name true name w = Ok w d.
  Proof.
    intros Hc H Hp Ho. destruct (array_of w _ [] k d H (in_elt _ _ _)) as (a & Eh & El). destruct (m_view w _ k Hc H) as (b & Eb & Ed); [destruct newer; discriminate|]. assert (b = a) by congruence. subst b.
    unfold get_name. rewrite Ed, El. rewrite rev_app_distr. cbn [rev]. rewrite <- !app_assoc. cbn [app]. rewrite map_app. cbn [map].
    rewrite device_index_hit; [|exact Hp|intros x Hx; apply in_map_iff in Hx as (y & <- & Hy); apply Ho; now apply in_rev]. rewrite map_length. replace (0 + Z.of_nat (length (rev older)) =? -1) with false by lia.
    rewrite Z.add_0_l, Nat2Z.id, nth_mid. reflexivity.
  Qed.
  Lemma m_host_name w old k newer d older : hist w (newer ++ d :: older) old k ->
    (forall x, In x newer -> e_name (da_entry x) <> e_name (da_entry d)) -> (forall a x, In x (fresh a) -> e_name (da_entry x) <> e_name (da_entry d)) ->
    get_name false (e_name (da_entry d)) w = Ok w d.
  Proof.
    intros H Hn Hf. destruct (array_of w _ old k d H (in_elt _ _ _)) as (a & Eh & El). unfold get_name. rewrite Eh, El. rewrite rev_app_distr. cbn [rev]. rewrite <- !app_assoc. cbn [app]. rewrite map_app. cbn [map].
    rewrite host_index_hit; [|reflexivity|intros x Hx; apply in_map_iff in Hx as (y & <- & Hy); apply in_app_iff in Hy as [Hy|Hy]; [apply Hn; now apply in_rev|apply (Hf a); exact (skipn_in _ _ _ Hy)]].
    rewrite map_length. replace (0 + Z.of_nat (length (rev older)) =? -1) with false by lia. rewrite Z.add_0_l, Nat2Z.id, nth_mid. reflexivity.
  Qed.

  (** What is not there. *)
  Lemma m_no_size i size name w : size <= 0 -> mk i size name w = Throw w RuntimeError.
  Proof. intros H. unfold make. now replace (size <=? 0) with true by lia. Qed.

  Lemma absent_by w made old k a id dv : hist w made old k -> dw_host w = Some a -> (forall d, In d made -> e_id (da_entry d) <> id) ->
    (if dv : bool then dw_dev w else dw_host w) = dw_host w -> get_id dv id w = Throw w RuntimeError.
  Proof.
    intros H Eh Hn Ev. pose proof (mhist_inv _ _ _ _ H) as [_ _ C _ F]. rewrite Eh in C. destruct C as (_ & C2 & _ & C4). unfold get_id. rewrite Ev, Eh, C2.
    destruct ((convert_to_array_index id <? 0) || (DEV_ALLOCS - 1 <? convert_to_array_index id)) eqn:Er; [reflexivity|]. set (n := Z.to_nat (convert_to_array_index id)).
    assert (En : Z.of_nat n = - id - 1) by (unfold n, convert_to_array_index in *; lia).
    destruct (Nat.ltb n (length made)) eqn:El.
    - apply Nat.ltb_lt in El. destruct (nth_error (rev made) n) as [d|] eqn:Ed; [|apply nth_error_None in Ed; rewrite rev_length in Ed; lia].
      elim (Hn d); [apply in_rev; exact (nth_error_In _ _ Ed)|]. pose proof (F n d Ed). lia.
    - apply Nat.ltb_ge in El. rewrite nth_error_app2 by (rewrite rev_length; exact El). destruct (nth_error (skipn (length made) (fresh a)) (n - length (rev made))) as [d|] eqn:Ed.
      + destruct (Hfresh a) as [_ Hb]. apply nth_error_In, skipn_in in Ed. specialize (Hb d Ed). now replace (0 <? e_size (da_entry d)) with false by lia.
      + apply nth_error_None in Ed. destruct (Hfresh a) as [Hl _]. rewrite skipn_length, rev_length in Ed. unfold DEV_ALLOCS in *. lia.
  Qed.
  Lemma m_absent_id w made old k a id : hist w made old k -> dw_host w = Some a -> (forall d, In d made -> e_id (da_entry d) <> id) ->
    get_id false id w = Throw w RuntimeError.
  Proof. intros H Eh Hn. now apply (absent_by w made old k a id false). Qed.
  Lemma m_absent_dev w made k id : (forall n, copy_ok n = true) -> hist w made [] k -> made <> [] -> (forall d, In d made -> e_id (da_entry d) <> id) ->
    get_id true id w = Throw w RuntimeError.
  Proof. intros Hc H Hm Hn. destruct (m_view w made k Hc H Hm) as (a & Eh & Ed). apply (absent_by w made [] k a id true H Eh Hn). congruence. Qed.
  Lemma m_absent_name w made old k name : hist w made old k -> (forall d, In d made -> e_name (da_entry d) <> name) ->
    (forall a x, In x (fresh a) -> e_name (da_entry x) <> name) -> get_name false name w = Throw w RuntimeError.
  Proof.
    intros H Hn Hf. pose proof (mi_host _ _ _ _ (mhist_inv _ _ _ _ H)) as C. unfold get_name. destruct (dw_host w) as [a|]; [|reflexivity]. destruct C as (_ & -> & _).
    rewrite host_index_skip; [reflexivity|]. intros e He. apply in_map_iff in He as (x & <- & Hx). apply in_app_iff in Hx as [Hx|Hx]; [apply Hn; now apply in_rev|apply (Hf a); exact (skipn_in _ _ _ Hx)].
  Qed.
  (** Not there, as to the device: no entry whose name begins that name. *)
  Lemma m_absent_dev_name w made k name : (forall n, copy_ok n = true) -> hist w made [] k -> (forall d, In d made -> ~ prefix (e_name (da_entry d)) name) ->
    (forall a x, In x (fresh a) -> ~ prefix (e_name (da_entry x)) name) -> made <> [] -> get_name true name w = Throw w RuntimeError.
  Proof.
    intros Hc H Hn Hf Hm. destruct (m_view w made k Hc H Hm) as (a & Eh & Ed). pose proof (mi_host _ _ _ _ (mhist_inv _ _ _ _ H)) as C. rewrite Eh in C. destruct C as (_ & C2 & _).
    unfold get_name. rewrite Ed, C2. rewrite device_index_none; [reflexivity|]. intros e He. apply in_map_iff in He as (x & <- & Hx). apply in_app_iff in Hx as [Hx|Hx]; [apply Hn; now apply in_rev|apply (Hf a); exact (skipn_in _ _ _ Hx)].
  Qed.
End Facts.
