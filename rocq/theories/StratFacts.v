(** What it means for a strategy to be a correct client of its parent and a
    correct parent of its own clients. *)
From Verif Require Import Base BaseFacts StratModel.

(** Every region of [U] lies within a region of [L]. *)
Definition covered (U L : list region) : Prop :=
  forall u, In u U -> exists l, In l L /\ inside u l.

Lemma covered_perm U U' L L' : Permutation U U' -> Permutation L L' -> covered U L -> covered U' L'.
Proof.
  intros H1 H2 H u Hu. destruct (H u) as (l & Hl & Hi).
  - eapply Permutation_in; [apply Permutation_sym, H1|exact Hu].
  - exists l. split; auto. eapply Permutation_in; eauto.
Qed.

Lemma inside_refl r : inside r r.
Proof. unfold inside. lia. Qed.

Lemma covered_refl L : covered L L.
Proof. intros u Hu. exists u. split; auto. apply inside_refl. Qed.

(** [rel s U L]: in state [s] the clients hold [U] and the strategy holds [L]
    from its parent.  [limP]: largest request its parent accepts, [lim]:
    largest request the strategy itself accepts. *)
Record StratOk (S : Strat) (rel : st_ty S -> list region -> list region -> Prop)
  (limP lim : Z) : Prop := mkStratOk {
  so_perm : forall s U U' L L', Permutation U U' -> Permutation L L' -> rel s U L -> rel s U' L';
  so_inside : forall s U L, rel s U L -> good L -> good U /\ covered U L;
  so_make : forall W (P : Parent W) Inv w, ParentSpec P limP Inv -> Inv w [] ->
    post (st_make S W P w)
         (fun w' s => exists L, rel s [] L /\ Inv w' L)
         (fun w' _ => Inv w' []);
  so_alloc : forall W (P : Parent W) Inv s w U L n, ParentSpec P limP Inv ->
    rel s U L -> Inv w L -> 0 < n <= lim ->
    post (st_alloc S W P n (s, w))
         (fun sw p => exists L', rel (fst sw) ((p, n) :: U) L' /\ Inv (snd sw) L')
         (fun sw _ => exists L', rel (fst sw) U L' /\ Inv (snd sw) L');
  so_dealloc : forall W (P : Parent W) Inv s w U L p n cur, ParentSpec P limP Inv ->
    rel s ((p, n) :: U) L -> Inv w L ->
    post (st_dealloc S W P cur p n (s, w))
         (fun sw _ => exists L', rel (fst sw) U L' /\ Inv (snd sw) L')
         (fun _ _ => False);
  so_release : forall W (P : Parent W) Inv s w U L, ParentSpec P limP Inv ->
    rel s U L -> Inv w L ->
    post (st_release S W P (s, w))
         (fun sw _ => exists L', rel (fst sw) U L' /\ Inv (snd sw) L')
         (fun sw _ => exists L', rel (fst sw) U L' /\ Inv (snd sw) L');
  so_coalesce : forall W (P : Parent W) Inv s w U L cur, ParentSpec P limP Inv ->
    rel s U L -> Inv w L ->
    post (st_coalesce S W P cur (s, w))
         (fun sw _ => exists L', rel (fst sw) U L' /\ Inv (snd sw) L')
         (fun sw _ => exists L', rel (fst sw) U L' /\ Inv (snd sw) L')
}.

(** The weaker contract of strategies that are only used directly by the program:
    requests are restricted by a state-dependent [guard], the result may be
    null, and a [loud] strategy may throw out of a deallocation, the memory having been
    given back all the same. *)
Record LeafOk (S : Strat) (rel : st_ty S -> list region -> list region -> Prop)
  (guard : st_ty S -> Z -> Prop) (loud : Prop) (limP : Z) : Prop := mkLeafOk {
  lo_perm : forall s U U' L L', Permutation U U' -> Permutation L L' -> rel s U L -> rel s U' L';
  lo_inside : forall s U L, rel s U L -> good L -> good U /\ covered U L;
  lo_make : forall W (P : Parent W) Inv w, ParentSpec P limP Inv -> Inv w [] ->
    post (st_make S W P w)
         (fun w' s => exists L, rel s [] L /\ Inv w' L)
         (fun w' _ => Inv w' []);
  lo_alloc : forall W (P : Parent W) Inv s w U L n, ParentSpec P limP Inv ->
    rel s U L -> Inv w L -> guard s n ->
    post (st_alloc S W P n (s, w))
         (fun sw p => exists L', rel (fst sw) (if p =? 0 then U else (p, n) :: U) L' /\ Inv (snd sw) L')
         (fun sw _ => exists L', rel (fst sw) U L' /\ Inv (snd sw) L');
  lo_dealloc : forall W (P : Parent W) Inv s w U L p n cur, ParentSpec P limP Inv ->
    rel s ((p, n) :: U) L -> Inv w L ->
    post (st_dealloc S W P cur p n (s, w))
         (fun sw _ => exists L', rel (fst sw) U L' /\ Inv (snd sw) L')
         (fun sw _ => loud /\ exists L', rel (fst sw) U L' /\ Inv (snd sw) L');
  lo_release : forall W (P : Parent W) Inv s w U L, ParentSpec P limP Inv ->
    rel s U L -> Inv w L ->
    post (st_release S W P (s, w))
         (fun sw _ => exists L', rel (fst sw) U L' /\ Inv (snd sw) L')
         (fun sw _ => exists L', rel (fst sw) U L' /\ Inv (snd sw) L');
  lo_coalesce : forall W (P : Parent W) Inv s w U L cur, ParentSpec P limP Inv ->
    rel s U L -> Inv w L ->
    post (st_coalesce S W P cur (s, w))
         (fun sw _ => exists L', rel (fst sw) U L' /\ Inv (snd sw) L')
         (fun sw _ => exists L', rel (fst sw) U L' /\ Inv (snd sw) L')
}.

Lemma good_nonnull p n L : good ((p, n) :: L) -> (p =? 0) = false.
Proof. intros H. apply good_cons in H as ((H & _) & _). cbn in H. lia. Qed.

Lemma StratOk_Leaf S rel limP lim :
  StratOk S rel limP lim -> LeafOk S rel (fun _ n => 0 < n <= lim) False limP.
Proof.
  intros [H1 H2 H3 H4 H5 H6 H7]. constructor; auto.
  2: { intros W P Inv s w U L p n cur HP HR HI. eapply post_impl; [| |apply (H5 W P Inv s w U L p n cur HP HR HI)]; tauto. }
  intros W P Inv s w U L n HP HR HI Hn.
  eapply post_impl; [| |apply (H4 W P Inv s w U L n HP HR HI Hn)]; auto.
  intros [s' w'] p (L' & HR' & HI'). exists L'. split; auto. cbn [fst snd] in *.
  rewrite (good_nonnull p n U); auto.
  apply (H2 s' _ L' HR'). eapply ps_good; eauto.
Qed.

(** A correct strategy over a conforming parent is a conforming parent, with or
    without statistics. *)
Definition lift_inv {S : Strat} (rel : st_ty S -> list region -> list region -> Prop)
  {W : Type} (Inv : W -> list region -> Prop) (sw : st_ty S * W) (U : list region) : Prop :=
  exists L, rel (fst sw) U L /\ Inv (snd sw) L.

Lemma strat_parent S rel limP lim W (P : Parent W) Inv cur :
  StratOk S rel limP lim -> ParentSpec P limP Inv ->
  ParentSpec (st_parent S P cur) lim (lift_inv rel Inv).
Proof.
  intros H HP. constructor.
  - intros [s w] U U' Hp (L & HR & HI). exists L. split; auto. eapply so_perm; eauto.
  - intros [s w] U (L & HR & HI). eapply so_inside; eauto. eapply ps_good; eauto.
  - intros [s w] U n (L & HR & HI) Hn. apply (so_alloc _ _ _ _ H W P Inv s w U L n HP HR HI Hn).
  - intros [s w] U p n (L & HR & HI). apply (so_dealloc _ _ _ _ H W P Inv s w U L p n cur HP HR HI).
Qed.

Lemma post_omap {W W' A A'} (fw : W -> W') (fa : A -> A') (o : outcome W A) ok thr :
  post o (fun w a => ok (fw w) (fa a)) (fun w e => thr (fw w) e) -> post (omap fw fa o) ok thr.
Proof. destruct o; auto. Qed.

Lemma no_release_ok (S W : Type) (rel : S -> list region -> list region -> Prop) (P : Parent W)
  (Inv : W -> list region -> Prop) s w U L :
  rel s U L -> Inv w L ->
  post (no_release W P (s, w))
       (fun sw _ => exists L', rel (fst sw) U L' /\ Inv (snd sw) L')
       (fun sw _ => exists L', rel (fst sw) U L' /\ Inv (snd sw) L').
Proof. cbn. eauto. Qed.

Lemma no_coalesce_ok (S W : Type) (rel : S -> list region -> list region -> Prop) (P : Parent W)
  (Inv : W -> list region -> Prop) s w U L cur :
  rel s U L -> Inv w L ->
  post (no_coalesce W P cur (s, w))
       (fun sw _ => exists L', rel (fst sw) U L' /\ Inv (snd sw) L')
       (fun sw _ => exists L', rel (fst sw) U L' /\ Inv (snd sw) L').
Proof. cbn. eauto. Qed.
