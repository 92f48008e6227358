(** Facts about FileModel.v. *)
From Verif Require Import Base BaseFacts FileModel FileSpec.

Definition entry : Type := (Z * (Z * Z))%type.
Definition e_ptr (t : entry) : Z := fst t.
Definition e_file (t : entry) : Z := fst (snd t).
Definition e_len (t : entry) : Z := snd (snd t).
Definition e_reg (t : entry) : region := (e_ptr t, e_len t).
Definition e_map (t : entry) : region * Z := (e_reg t, e_file t).

Lemma rounded_ok page n : 0 < page < 2 ^ 63 -> 0 <= n < M64 -> 0 < rounded page n -> rounded page n mod page = 0 /\ n <= rounded page n < n + page.
Proof.
  intros Hp Hn. unfold rounded. set (x := w64 (n + (page - 1))).
  assert (Hx : 0 <= x < M64) by (unfold x, w64; apply Z.mod_pos_bound; reflexivity).
  pose proof (Z.div_mod x page ltac:(lia)) as D. pose proof (Z.mod_pos_bound x page ltac:(lia)) as B. pose proof (Z.div_pos x page ltac:(lia) ltac:(lia)) as B2.
  assert (E : w64 (x / page * page) = x / page * page) by (unfold w64; apply Z.mod_small; nia). rewrite E. intros H.
  split; [apply Z.mod_mul; lia|].
  destruct (Z_lt_ge_dec (n + (page - 1)) M64) as [L|G].
  - assert (x = n + (page - 1)) by (unfold x, w64; apply Z.mod_small; lia). nia.
  - exfalso. assert (x = n + (page - 1) - M64).
    { unfold x, w64. rewrite <- (Z.mod_small (n + (page - 1) - M64) M64) by (unfold M64 in *; lia).
      replace (n + (page - 1)) with (n + (page - 1) - M64 + 1 * M64) at 1 by lia. apply Z_mod_plus_full. }
    assert (x / page = 0) by (apply Z.div_small; lia). nia.
Qed.

Lemma cut_apart a l t : 0 <= l -> 0 < e_len t -> disj (a, l) (e_reg t) -> cut a l (e_map t) = [e_map t].
Proof.
  destruct t as [p [c n]]. unfold disj, e_map, e_reg, e_ptr, e_len, e_file. cbn [fst snd]. intros Hl Hn [H|H]; unfold cut.
  - destruct (p <? Z.min a (p + n)) eqn:E1; [lia|]. destruct (Z.max (a + l) p <? p + n) eqn:E2; [|lia]. replace (Z.max (a + l) p) with p by lia. cbn [app]. replace (p + n - p) with n by lia. reflexivity.
  - destruct (p <? Z.min a (p + n)) eqn:E1; [|lia]. destruct (Z.max (a + l) p <? p + n) eqn:E2; [lia|]. replace (Z.min a (p + n)) with (p + n) by lia. cbn [app]. replace (p + n - p) with n by lia. reflexivity.
Qed.
Lemma cut_self t : 0 < e_len t -> cut (e_ptr t) (e_len t) (e_map t) = [].
Proof.
  destruct t as [p [c n]]. unfold e_map, e_reg, e_ptr, e_len, e_file. cbn [fst snd]. intros H. unfold cut.
  destruct (p <? Z.min p (p + n)) eqn:E1; [lia|]. destruct (Z.max (p + n) p <? p + n) eqn:E2; [lia|]. reflexivity.
Qed.
Lemma cut_all t (l : list entry) : 0 < e_len t -> (forall x, In x l -> 0 < e_len x) ->
  (forall x, In x l -> e_ptr x <> e_ptr t -> disj (e_reg t) (e_reg x)) -> (forall x, In x l -> e_ptr x = e_ptr t -> x = t) ->
  flat_map (cut (e_ptr t) (e_len t)) (map e_map l) = map e_map (filter (fun x => negb (fst x =? e_ptr t)) l).
Proof.
  intros Ht. induction l as [|x l IH]; intros H1 H2 H3; [reflexivity|]. cbn [map flat_map filter]. rewrite IH.
  - destruct (fst x =? e_ptr t) eqn:E; cbn [negb].
    + rewrite (H3 x (or_introl eq_refl)) by (unfold e_ptr in *; lia). rewrite cut_self by exact Ht. reflexivity.
    + rewrite cut_apart; [reflexivity|lia|apply H1; now left|]. apply H2; [now left|unfold e_ptr in *; lia].
  - intros y Hy. apply H1. now right.
  - intros y Hy. apply H2. now right.
  - intros y Hy. apply H3. now right.
Qed.

Lemma table_find_in p l v : table_find p l = Some v -> In (p, v) l.
Proof. induction l as [|[k u] l IH]; [discriminate|]. cbn [table_find]. destruct (k =? p) eqn:E; [intros [= ->]; left; f_equal; lia|]. intros H. right. auto. Qed.
Lemma table_find_none p l : table_find p l = None -> forall v, ~ In (p, v) l.
Proof. induction l as [|[k u] l IH]; [intros _ v []|]. cbn [table_find]. destruct (k =? p) eqn:E; [discriminate|]. intros H v [H1|H1]; [injection H1 as -> _; lia|]. exact (IH H v H1). Qed.
Lemma apart_ok r m : apart r m = true -> forall x, In x m -> disj r (fst x).
Proof. unfold apart. rewrite forallb_forall. intros H x Hx. specialize (H x Hx). cbv beta in H. unfold disj. apply Bool.orb_true_iff in H as [H|H]; apply Z.leb_le in H; auto. Qed.
Lemma Forall2_filter {A B} (Q : A -> B -> Prop) f g l m : (forall a b, Q a b -> f a = g b) -> Forall2 Q l m -> Forall2 Q (filter f l) (filter g m).
Proof. intros H. induction 1 as [|a b l m Hab _ IH]; [constructor|]. cbn [filter]. rewrite (H a b Hab). destruct (g b); [constructor; auto|exact IH]. Qed.
Lemma Forall2_in_l {A B} (Q : A -> B -> Prop) l m a : Forall2 Q l m -> In a l -> exists b, In b m /\ Q a b.
Proof. induction 1 as [|x y l m Hxy _ IH]; [intros []|]. intros [->|H]; [exists y; split; [now left|exact Hxy]|]. destruct (IH H) as (b & H1 & H2). exists b. split; [now right|exact H2]. Qed.

Section Facts.
  Context (os : OS) (page : Z) (files : fmap Z) (Hpage : 0 < page < 2 ^ 63) (Hrm : forall t, o_remove os t = true).

  Definition suits (g : region) (t : entry) : Prop := fst g = e_ptr t /\ e_len t mod page = 0 /\ snd g <= e_len t < snd g + page.
  Record finv (w : fworld) (G : list region) : Prop := mkFinv {
    fi_maps : f_maps w = map e_map (f_table w);
    fi_live : Forall2 suits G (f_table w);
    fi_entry : forall t, In t (f_table w) -> 0 < e_ptr t /\ e_ptr t mod page = 0 /\ 0 < e_len t /\ e_ptr t + e_len t <= ASP /\ e_file t < f_counter w /\ f_files w (e_file t) = Some (e_len t);
    fi_disj : pairwise disj (map e_reg (f_table w));
    fi_once : NoDup (map e_file (f_table w))
  }.

  Lemma finv_same w w' G : finv w G -> f_maps w' = f_maps w -> f_table w' = f_table w -> f_counter w <= f_counter w' ->
    (forall c, c < f_counter w -> f_files w' c = f_files w c) -> finv w' G.
  Proof.
    intros [A1 A2 A3 A4 A5] E1 E2 E3 E4. constructor; rewrite ?E2; auto; [congruence|]. intros t Ht. destruct (A3 t Ht) as (B1 & B2 & B3 & B4 & B5 & B6).
    rewrite E4 by exact B5. repeat split; auto. lia.
  Qed.

  Lemma entries_apart w G : finv w G -> forall x y, In x (f_table w) -> In y (f_table w) -> x = y \/ disj (e_reg x) (e_reg y).
  Proof.
    intros [_ _ _ A4 _] x y Hx Hy. revert Hx Hy. induction (f_table w) as [|t l IH]; [intros []|]. cbn [map pairwise] in A4. destruct A4 as [B1 B2].
    intros [->|Hx] [->|Hy]; [now left| | |exact (IH B2 Hx Hy)]; right; [|apply disj_sym]; apply B1; now apply in_map.
  Qed.
  Lemma entries_ptr w G : finv w G -> forall x y, In x (f_table w) -> In y (f_table w) -> e_ptr x = e_ptr y -> x = y.
  Proof.
    intros H x y Hx Hy E. destruct (entries_apart w G H x y Hx Hy) as [F|F]; [exact F|]. destruct (fi_entry _ _ H x Hx) as (_ & _ & L1 & _), (fi_entry _ _ H y Hy) as (_ & _ & L2 & _).
    unfold disj, e_reg in F. cbn [fst snd] in F. lia.
  Qed.

  Lemma os_remove_ok c w v : f_files w c = Some v -> os_remove os c w = (tick (with_files w (fdel (f_files w) c)), true).
  Proof. intros E. unfold os_remove. now rewrite E, Hrm. Qed.
  Lemma os_remove_frame c w : let w' := fst (os_remove os c w) in
    f_maps w' = f_maps w /\ f_table w' = f_table w /\ f_counter w' = f_counter w /\ f_fds w' = f_fds w /\ (forall d, d <> c -> f_files w' d = f_files w d) /\ f_files w' c = None.
  Proof.
    unfold os_remove. destruct (f_files w c) as [v|] eqn:E.
    - rewrite Hrm. cbn. repeat split; auto; unfold fdel; [intros d Hd; destruct (d =? c) eqn:F; [lia|reflexivity]|]. now rewrite Z.eqb_refl.
    - cbn. auto 10.
  Qed.

  (** What an allocation does. *)
  Definition alloc_post (w : fworld) (G : list region) (n : Z) (o : outcome fworld Z) : Prop :=
    match o with
    | Ok w' p => finv w' ((p, n) :: G) /\ f_counter w' = f_counter w + 1 /\ f_fds w' = f_fds w /\ f_files w' (f_counter w) = Some (rounded page n) /\
        (forall d, d <> f_counter w -> f_files w' d = f_files w d) /\ f_maps w' = ((p, rounded page n), f_counter w) :: f_maps w
    | Throw w' e => finv w' G /\ e = RuntimeError /\ f_counter w' = f_counter w + 1 /\ f_fds w <= f_fds w' <= f_fds w + 1 /\
        f_maps w' = f_maps w /\ f_table w' = f_table w /\ (forall d, d <> f_counter w -> f_files w' d = f_files w d) /\ (f_files w' (f_counter w) = None \/ f_files w' = f_files w)
    | UB => f_counter w >= INT_MAX
    | _ => False
    end.
  Lemma file_allocate_ok w G n : finv w G -> 0 <= n < M64 -> alloc_post w G n (file_allocate os page n w).
  Proof.
    intros H Hn. unfold file_allocate. destruct (INT_MAX <=? f_counter w) eqn:Ec; [cbn [alloc_post]; lia|].
    destruct (negb (o_open os _)) eqn:Eo.
    - cbn [alloc_post tick f_counter f_fds f_maps f_table f_files]. split; [apply (finv_same w); [exact H|reflexivity|reflexivity|cbn [tick f_counter]; lia|reflexivity]|].
      split; [reflexivity|]. split; [reflexivity|]. split; [lia|]. auto.
    - cbn [f_time f_counter f_files f_maps f_table f_fds].
      set (w1 := with_files (with_fds _ _) _).
      assert (M1 : f_maps w1 = f_maps w) by reflexivity. assert (T1 : f_table w1 = f_table w) by reflexivity. assert (C1 : f_counter w1 = f_counter w + 1) by reflexivity.
      assert (D1 : f_fds w1 = f_fds w + 1) by reflexivity.
      assert (F1 : forall d, d <> f_counter w -> f_files w1 d = f_files w d).
      { intros d Hd. unfold w1. cbn. destruct (f_files w (f_counter w)); [reflexivity|]. unfold fset. destruct (d =? f_counter w) eqn:E; [lia|reflexivity]. }
      clearbody w1.
      destruct (negb (o_trunc os _) || (2 ^ 63 <=? rounded page n)) eqn:Et.
      + destruct (os_remove_frame (f_counter w) (tick w1)) as (R1 & R2 & R3 & R4 & R5 & R6). cbn [alloc_post]. set (w2 := fst (os_remove os (f_counter w) (tick w1))) in *. clearbody w2.
        cbn [tick f_maps f_table f_counter f_fds f_files] in *. split; [|split; [reflexivity|]; split; [lia|]; split; [lia|]; split; [congruence|]; split; [congruence|]; split; [|left; exact R6]].
        * apply (finv_same w); [exact H|congruence|congruence|lia|]. intros c Hc. rewrite R5 by lia. apply F1. lia.
        * intros d Hd. rewrite R5 by exact Hd. now apply F1.
      + set (w2 := tick (with_files w1 _)).
        assert (M2 : f_maps w2 = f_maps w) by exact M1. assert (T2 : f_table w2 = f_table w) by exact T1. assert (C2 : f_counter w2 = f_counter w + 1) by exact C1.
        assert (D2 : f_fds w2 = f_fds w + 1) by exact D1.
        assert (F2 : forall d, d <> f_counter w -> f_files w2 d = f_files w d).
        { intros d Hd. unfold w2. cbn. unfold fset. destruct (d =? f_counter w) eqn:E; [lia|]. now apply F1. }
        assert (F3 : f_files w2 (f_counter w) = Some (rounded page n)) by (unfold w2; cbn; unfold fset; now rewrite Z.eqb_refl).
        clearbody w2. clear F1 M1 T1 C1 D1.
        assert (Hfail : forall w3, f_maps w3 = f_maps w2 -> f_table w3 = f_table w2 -> f_counter w3 = f_counter w2 -> f_fds w3 = f_fds w2 -> f_files w3 = f_files w2 ->
                  alloc_post w G n (Throw (fst (os_remove os (f_counter w) w3)) RuntimeError)).
        { intros w3 G1 G2 G3 G4 G5. destruct (os_remove_frame (f_counter w) w3) as (R1 & R2 & R3 & R4 & R5 & R6). cbn [alloc_post]. set (w4 := fst (os_remove os (f_counter w) w3)) in *. clearbody w4.
          split; [|split; [reflexivity|]; split; [lia|]; split; [lia|]; split; [congruence|]; split; [congruence|]; split; [|left; exact R6]].
          - apply (finv_same w); [exact H|congruence|congruence|lia|]. intros c Hc. rewrite R5 by lia. rewrite G5. apply F2. lia.
          - intros d Hd. rewrite R5 by exact Hd. rewrite G5. now apply F2. }
        unfold os_mmap. destruct (o_mmap os (f_time w2) (rounded page n)) as [p|]; [|apply Hfail; reflexivity].
        destruct ((0 <? rounded page n) && (0 <? p) && (p mod page =? 0) && (p + rounded page n <=? ASP) && apart (p, rounded page n) (f_maps w2)) eqn:El; [|apply Hfail; reflexivity].
        clear Hfail. apply Bool.andb_true_iff in El as [El Ha]. pose proof (apart_ok _ _ Ha) as Hap. clear Ha.
        destruct (rounded_ok page n Hpage Hn ltac:(lia)) as (K1 & K2).
        destruct H as [A1 A2 A3 A4 A5].
        assert (Hnone : table_find p (f_table w) = None).
        { destruct (table_find p (f_table w)) as [v|] eqn:Ev; [|reflexivity]. exfalso. apply table_find_in in Ev. destruct (A3 _ Ev) as (_ & _ & L & _).
          assert (Hi : In (e_map (p, v)) (f_maps w2)) by (rewrite M2, A1; now apply in_map). specialize (Hap _ Hi). unfold disj, e_map, e_reg, e_ptr in Hap. cbn [fst snd] in Hap. lia. }
        cbn [alloc_post tick with_maps with_table with_fds f_time f_counter f_files f_maps f_table f_fds]. rewrite T2. unfold table_insert. rewrite Hnone.
        split; [|split; [exact C2|]; split; [lia|]; split; [exact F3|]; split; [exact F2|]; now rewrite M2].
        constructor; cbn [tick with_table with_files with_maps with_fds f_time f_counter f_files f_maps f_table f_fds].
        * cbn [map]. rewrite M2, A1. reflexivity.
        * constructor; [|exact A2]. unfold suits, e_ptr, e_len. cbn [fst snd]. auto.
        * intros t [<-|Ht].
          -- unfold e_ptr, e_len, e_file. cbn [fst snd]. repeat split; try lia. exact F3.
          -- destruct (A3 t Ht) as (B1 & B2 & B3 & B4 & B5 & B6). rewrite F2 by lia. repeat split; auto. lia.
        * cbn [map pairwise]. split; [|exact A4]. intros y Hy. apply in_map_iff in Hy as (t & <- & Ht). apply (Hap (e_map t)). rewrite M2, A1. now apply in_map.
        * cbn [map]. constructor; [|exact A5]. intros Hi. apply in_map_iff in Hi as (t & E & Ht). destruct (A3 t Ht) as (_ & _ & _ & _ & B5 & _). unfold e_file in E at 2. cbn [fst snd] in E. lia.
  Qed.

  (** What a deallocation does. *)
  Definition gone (p : Z) (G : list region) : list region := filter (fun x => negb (fst x =? p)) G.
  Definition free_post (w : fworld) (G : list region) (t : entry) (o : outcome fworld unit) : Prop :=
    match o with
    | Ok w' _ => finv w' (gone (e_ptr t) G) /\ f_maps w' = map e_map (table_erase (e_ptr t) (f_table w)) /\ f_table w' = table_erase (e_ptr t) (f_table w) /\
        f_files w' = fdel (f_files w) (e_file t) /\ f_fds w' = f_fds w /\ f_counter w' = f_counter w
    | Throw w' e => e = RuntimeError /\ w' = tick w /\ o_munmap os (f_time w) = false
    | _ => False
    end.
  Lemma file_deallocate_ok w G t : finv w G -> In t (f_table w) -> free_post w G t (file_deallocate os (e_ptr t) w).
  Proof.
    intros H Ht. unfold file_deallocate.
    assert (E : table_find (e_ptr t) (f_table w) = Some (e_file t, e_len t)).
    { destruct (table_find (e_ptr t) (f_table w)) as [[c n]|] eqn:E.
      - apply table_find_in in E. assert (Et : (e_ptr t, (c, n)) = t) by (apply (entries_ptr w G H); auto). rewrite <- Et. reflexivity.
      - elim (table_find_none _ _ E (snd t)). destruct t; exact Ht. }
    rewrite E. unfold os_munmap. destruct (o_munmap os (f_time w)) eqn:Em; [|cbn; auto]. cbn [negb].
    destruct (fi_entry _ _ H t Ht) as (B1 & B2 & B3 & B4 & B5 & B6).
    set (w1 := tick _). assert (F1 : f_files w1 (e_file t) = Some (e_len t)) by exact B6. rewrite (os_remove_ok _ _ _ F1). cbn [negb].
    assert (Hm : flat_map (cut (e_ptr t) (e_len t)) (f_maps w) = map e_map (table_erase (e_ptr t) (f_table w))).
    { rewrite (fi_maps _ _ H). apply cut_all; auto.
      - intros x Hx. apply (fi_entry _ _ H x Hx).
      - intros x Hx Hne. destruct (entries_apart w G H t x Ht Hx) as [->|F]; [congruence|exact F].
      - intros x Hx He. exact (entries_ptr w G H x t Hx Ht He). }
    cbn [free_post]. unfold w1. cbn [tick with_table with_files with_maps f_time f_counter f_files f_maps f_table f_fds]. rewrite Hm.
    split; [|repeat split; reflexivity]. destruct H as [A1 A2 A3 A4 A5].
    assert (Hin : forall x, In x (table_erase (e_ptr t) (f_table w)) -> In x (f_table w) /\ e_ptr x <> e_ptr t).
    { intros x Hx. apply filter_In in Hx as [Hx He]. split; [exact Hx|]. unfold e_ptr at 1. lia. }
    constructor; cbn [tick with_table with_files with_maps with_fds f_time f_counter f_files f_maps f_table f_fds].
    - reflexivity.
    - apply Forall2_filter; [|exact A2]. intros a b (S1 & _). rewrite S1. reflexivity.
    - intros x Hx. destruct (Hin x Hx) as [Hx1 Hx2]. destruct (A3 x Hx1) as (C1 & C2 & C3 & C4 & C5 & C6). repeat split; auto.
      unfold fdel. destruct (e_file x =? e_file t) eqn:Ef; [|exact C6]. exfalso. apply Hx2. f_equal. clear - A5 Hx1 Ht Ef.
      induction (f_table w) as [|y l IH]; [destruct Ht|]. cbn [map] in A5. inversion A5; subst. destruct Hx1 as [->|Hx1], Ht as [->|Ht]; auto.
      + elim H1. replace (e_file x) with (e_file t) by lia. now apply in_map.
      + elim H1. replace (e_file t) with (e_file x) by lia. now apply in_map.
    - clear - A4. unfold table_erase. induction (f_table w) as [|y l IH]; [exact I|]. cbn [map filter pairwise] in *. destruct A4 as [B1 B2]. destruct (negb _); [|auto]. cbn [map pairwise]. split; [|auto].
      intros z Hz. apply B1. apply in_map_iff in Hz as (u & <- & Hu). apply filter_In in Hu as [Hu _]. now apply in_map.
    - clear - A5. unfold table_erase. induction (f_table w) as [|y l IH]; [constructor|]. cbn [map filter] in *. inversion A5; subst. destruct (negb _); [|auto]. cbn [map]. constructor; [|auto].
      intros Hz. apply H1. apply in_map_iff in Hz as (u & <- & Hu). apply filter_In in Hu as [Hu _]. now apply in_map.
  Qed.

  Lemma finv_start : finv (f_init files) [].
  Proof. constructor; [reflexivity|constructor|intros t []|exact I|constructor]. Qed.
  Lemma live_entry w G p n : finv w G -> In (p, n) G -> exists t, In t (f_table w) /\ e_ptr t = p /\ suits (p, n) t.
  Proof. intros H Hi. destruct (Forall2_in_l _ _ _ _ (fi_live _ _ H) Hi) as (t & Ht & S). exists t. split; [exact Ht|]. split; [symmetry; apply S|exact S]. Qed.

  Lemma fhist_inv w G : fhist os page files w G -> finv w G.
  Proof.
    induction 1 as [|w G n w' p H IH Hn E|w G n w' e H IH Hn E|w G p n w' H IH Hi E|w G p n w' e H IH Hi E].
    - apply finv_start.
    - pose proof (file_allocate_ok w G n IH Hn) as K. rewrite E in K. apply K.
    - pose proof (file_allocate_ok w G n IH Hn) as K. rewrite E in K. apply K.
    - destruct (live_entry w G p n IH Hi) as (t & Ht & <- & _). pose proof (file_deallocate_ok w G t IH Ht) as K. rewrite E in K. apply K.
    - destruct (live_entry w G p n IH Hi) as (t & Ht & <- & _). pose proof (file_deallocate_ok w G t IH Ht) as K. rewrite E in K. destruct K as (_ & -> & _).
      apply (finv_same w); auto; reflexivity.
  Qed.

  (** The theorems. *)
  Lemma backed_entry w G p n t : finv w G -> In t (f_table w) -> suits (p, n) t -> backed page w (p, n) (e_len t) (e_file t).
  Proof.
    intros H Ht (S1 & S2 & S3). cbn [fst snd] in *. destruct (fi_entry _ _ H t Ht) as (B1 & B2 & B3 & B4 & B5 & B6). unfold backed. cbn [fst snd]. rewrite S1. repeat split; auto; try lia.
    rewrite (fi_maps _ _ H). change (e_ptr t, e_len t, e_file t) with (e_map t). now apply in_map.
  Qed.
  Lemma file_live w G e : fhist os page files w G -> In e G -> exists len c, backed page w e len c /\ c < f_counter w.
  Proof.
    intros Hh Hi. pose proof (fhist_inv w G Hh) as H. destruct e as [p n]. destruct (live_entry w G p n H Hi) as (t & Ht & _ & S). exists (e_len t), (e_file t). split; [exact (backed_entry w G p n t H Ht S)|].
    apply (fi_entry _ _ H t Ht).
  Qed.
  Lemma backed_is w G e len c : finv w G -> backed page w e len c -> In (fst e, (c, len)) (f_table w).
  Proof.
    intros H (_ & _ & _ & _ & _ & _ & Hi & _). rewrite (fi_maps _ _ H) in Hi. apply in_map_iff in Hi as ([p [d m]] & E & Ht). unfold e_map, e_reg, e_ptr, e_len, e_file in E. cbn [fst snd] in E. injection E as -> -> ->. exact Ht.
  Qed.
  Lemma file_live_apart w G e len c e' len' c' : fhist os page files w G -> backed page w e len c -> backed page w e' len' c' -> fst e <> fst e' ->
    disj (fst e, len) (fst e', len') /\ c <> c'.
  Proof.
    intros Hh Hb Hb' Hne. pose proof (fhist_inv w G Hh) as H. pose proof (backed_is w G _ _ _ H Hb) as I1. pose proof (backed_is w G _ _ _ H Hb') as I2. split.
    - destruct (entries_apart w G H _ _ I1 I2) as [E|D]; [injection E as E _; congruence|exact D].
    - intros ->. apply Hne. pose proof (fi_once _ _ H) as N. clear - I1 I2 N. induction (f_table w) as [|y l IH]; [destruct I1|]. cbn [map] in N. inversion N; subst.
      destruct I1 as [->|I1], I2 as [E|I2]; auto.
      + injection E as ->. reflexivity.
      + elim H1. apply in_map_iff. exists (fst e', (c', len')). split; [reflexivity|exact I2].
      + subst y. elim H1. apply in_map_iff. exists (fst e, (c', len)). split; [reflexivity|exact I1].
  Qed.
  Lemma live_distinct w G : fhist os page files w G -> NoDup (map fst G).
  Proof.
    intros Hh. pose proof (fhist_inv w G Hh) as H. assert (E : map fst G = map e_ptr (f_table w)).
    { pose proof (fi_live _ _ H) as L. clear - L. induction L as [|a b l m (S1 & _) _ IH]; [reflexivity|]. cbn [map]. rewrite S1. f_equal. exact IH. }
    rewrite E. pose proof (fi_disj _ _ H) as D. pose proof (fi_entry _ _ H) as En. clear - D En. assert (Hl : forall t, In t (f_table w) -> 0 < e_len t) by (intros t Ht; apply (En t Ht)). clear En.
    induction (f_table w) as [|y l IH]; [constructor|]. cbn [map pairwise] in *. destruct D as [D1 D2]. constructor; [|apply IH; [exact D2|intros t Ht; apply Hl; now right]].
    intros Hi. apply in_map_iff in Hi as (t & Et & Ht). specialize (D1 (e_reg t) (in_map e_reg l t Ht)). pose proof (Hl y (or_introl eq_refl)). pose proof (Hl t (or_intror Ht)). unfold disj, e_reg in D1. cbn [fst snd] in D1. lia.
  Qed.

  Lemma file_alloc w G n : fhist os page files w G -> 0 <= n < M64 -> f_counter w < INT_MAX ->
    match file_allocate os page n w with
    | Ok w' p => exists len, backed page w' (p, n) len (f_counter w) /\ f_fds w' = f_fds w /\ forall x c, mapped w' x c <-> mapped w x c \/ (p <= x < p + len /\ c = f_counter w)
    | Throw w' e => e = RuntimeError /\ (forall x c, mapped w' x c <-> mapped w x c) /\ (forall d, d <> f_counter w -> f_files w' d = f_files w d)
    | _ => False
    end.
  Proof.
    intros Hh Hn Hc. pose proof (fhist_inv w G Hh) as H. pose proof (file_allocate_ok w G n H Hn) as K. destruct (file_allocate os page n w) as [w' p|w' e| | |]; cbn [alloc_post] in K; try contradiction.
    - destruct K as (K1 & K2 & K3 & K4 & K5 & K6). exists (rounded page n). split; [|split; [exact K3|]].
      + destruct (live_entry w' _ p n K1 (or_introl eq_refl)) as (t & Ht & Ep & S). pose proof (backed_entry w' _ p n t K1 Ht S) as Bk.
        assert (Hi : In (p, rounded page n, f_counter w) (f_maps w')) by (rewrite K6; now left). rewrite (fi_maps _ _ K1) in Hi. apply in_map_iff in Hi as (u & Eu & Hu).
        assert (u = t) by (apply (entries_ptr w' _ K1); auto; unfold e_map, e_reg in Eu; injection Eu as E1 _ _; congruence). subst u. unfold e_map, e_reg in Eu. injection Eu as _ E2 E3. rewrite <- E2, <- E3. exact Bk.
      + intros x c. unfold mapped. rewrite K6. split.
        * intros (r & [Hr|Hr] & Hx); [injection Hr as <- <-; right; cbn [fst snd] in Hx; auto|left; exists r; auto].
        * intros [(r & Hr & Hx)|[Hx ->]]; [exists r; split; [now right|exact Hx]|]. exists (p, rounded page n). split; [now left|exact Hx].
    - destruct K as (K1 & K2 & K3 & K4 & K5 & K6 & K7 & K8). split; [exact K2|]. split; [|exact K7]. intros x c. unfold mapped. now rewrite K5.
  Qed.

  Lemma file_free w G e len c : fhist os page files w G -> In e G -> backed page w e len c ->
    match file_deallocate os (fst e) w with
    | Ok w' _ => (forall x d, mapped w' x d <-> mapped w x d /\ ~ (fst e <= x < fst e + len)) /\ f_files w' = fdel (f_files w) c /\ f_fds w' = f_fds w
    | Throw w' ex => ex = RuntimeError /\ w' = tick w /\ o_munmap os (f_time w) = false
    | _ => False
    end.
  Proof.
    intros Hh Hi Hb. pose proof (fhist_inv w G Hh) as H. pose proof (backed_is w G _ _ _ H Hb) as Ht. pose proof (file_deallocate_ok w G _ H Ht) as K. cbn [e_ptr fst] in K.
    destruct (file_deallocate os (fst e) w) as [w' []|w' ex| | |]; cbn [free_post] in K; try contradiction; [|exact K].
    destruct K as (K1 & K2 & K3 & K4 & K5 & K6). split; [|split; [exact K4|exact K5]]. intros x d. unfold mapped. rewrite K2, (fi_maps _ _ H). change (e_ptr (fst e, (c, len))) with (fst e). split.
    - intros (r & Hr & Hx). apply in_map_iff in Hr as (t & Et & Htt). apply filter_In in Htt as [Htt Hne]. split; [exists r; split; [rewrite <- Et; now apply in_map|exact Hx]|].
      destruct (entries_apart w G H _ _ Ht Htt) as [E|D]; [rewrite <- E in Hne; cbn [fst] in Hne; lia|]. unfold e_map in Et. injection Et as Er _. rewrite Er in D. unfold disj, e_reg, e_ptr, e_len in D. cbn [fst snd] in D. lia.
    - intros [(r & Hr & Hx) Hn]. apply in_map_iff in Hr as (t & Et & Htt). exists r. split; [|exact Hx]. rewrite <- Et. apply in_map. apply filter_In. split; [exact Htt|].
      destruct (fst t =? fst e) eqn:E; [|reflexivity]. exfalso. apply Hn. assert (t = (fst e, (c, len))) by (apply (entries_ptr w G H); auto; unfold e_ptr; cbn [fst]; lia). subst t.
      unfold e_map, e_reg, e_ptr, e_len, e_file in Et. cbn [fst snd] in Et. injection Et as <- _. exact Hx.
  Qed.

  (** The destructor. *)
  Lemma free_all w G : finv w G -> (forall t, o_munmap os t = true) ->
    exists w', file_free_all os (map fst (f_table w)) w = Ok w' tt /\ f_maps w' = [] /\ f_table w' = [] /\ f_fds w' = f_fds w /\
      forall d, f_files w' d = if existsb (fun t => e_file t =? d) (f_table w) then None else f_files w d.
  Proof.
    intros H Hm. remember (f_table w) as l eqn:El. revert w G H El. induction l as [|t l IH]; intros w G H El.
    - exists w. cbn. split; [reflexivity|]. split; [rewrite (fi_maps _ _ H), <- El; reflexivity|]. auto.
    - cbn [map file_free_all]. pose proof (file_deallocate_ok w G t H ltac:(rewrite <- El; now left)) as K. change (e_ptr t) with (fst t) in K.
      destruct (file_deallocate os (fst t) w) as [w1 []|w1 e| | |]; cbn [free_post] in K; try contradiction; [|destruct K as (_ & _ & K); rewrite Hm in K; discriminate].
      destruct K as (K1 & K2 & K3 & K4 & K5 & K6). cbn [bind].
      assert (E1 : l = f_table w1).
      { rewrite K3, <- El. unfold table_erase. change (e_ptr t) with (fst t). cbn [filter]. rewrite Z.eqb_refl. cbn [negb]. symmetry. pose proof (entries_ptr w G H) as Hp. rewrite <- El in Hp. pose proof (fi_once _ _ H) as N. rewrite <- El in N. cbn [map] in N. inversion N as [|? ? N1 _]; subst.
        assert (Hx : forall x, In x l -> negb (fst x =? fst t) = true).
        { intros x Hx. destruct (fst x =? fst t) eqn:E; [|reflexivity]. exfalso. apply N1. rewrite <- (Hp x t (or_intror Hx) (or_introl eq_refl) ltac:(unfold e_ptr; lia)). now apply in_map. }
        clear - Hx. induction l as [|x l IH]; [reflexivity|]. cbn [filter]. rewrite (Hx x (or_introl eq_refl)). f_equal. apply IH. intros y Hy. apply Hx. now right. }
      destruct (IH w1 _ K1 E1) as (w' & J1 & J2 & J3 & J4 & J5). exists w'. split; [exact J1|]. split; [exact J2|]. split; [exact J3|]. split; [congruence|].
      intros d. rewrite J5. cbn [existsb]. rewrite K4. unfold fdel. rewrite (Z.eqb_sym d). destruct (e_file t =? d), (existsb (fun t : entry => e_file t =? d) l); reflexivity.
  Qed.
  Lemma file_destructor w G : fhist os page files w G -> (forall t, o_munmap os t = true) ->
    exists w', file_destroy os w = Ok w' tt /\ (forall x c, ~ mapped w' x c) /\ (forall e len c, backed page w e len c -> f_files w' c = None) /\
      (forall d, (forall e len, ~ backed page w e len d) -> f_files w' d = f_files w d).
  Proof.
    intros Hh Hm. pose proof (fhist_inv w G Hh) as H. destruct (free_all w G H Hm) as (w' & E1 & E2 & E3 & E4 & E5). exists w'. unfold file_destroy. rewrite E1. split; [reflexivity|]. split; [|split].
    - intros x c (r & Hr & _). rewrite E2 in Hr. destruct Hr.
    - intros e len c Hb. rewrite E5. replace (existsb (fun t => e_file t =? c) (f_table w)) with true; [reflexivity|]. symmetry. apply existsb_exists. exists (fst e, (c, len)). split; [exact (backed_is w G _ _ _ H Hb)|]. unfold e_file. cbn [fst snd]. apply Z.eqb_refl.
    - intros d Hd. rewrite E5. destruct (existsb (fun t => e_file t =? d) (f_table w)) eqn:E; [|reflexivity]. apply existsb_exists in E as (t & Ht & E). exfalso.
      assert (Hg : exists g, In g G /\ suits g t).
      { pose proof (fi_live _ _ H) as L. clear - L Ht. induction L as [|a b l m S _ IH]; [destruct Ht|]. destruct Ht as [->|Ht]; [exists a; split; [now left|exact S]|]. destruct (IH Ht) as (g & G1 & G2). exists g. split; [now right|exact G2]. }
      destruct Hg as ([p n] & _ & S). apply (Hd (p, n) (e_len t)). replace d with (e_file t) by lia. exact (backed_entry w G p n t H Ht S).
  Qed.
End Facts.
