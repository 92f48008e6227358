(** Every strategy treats the state of its parent as opaque: run over two parents whose calls go alike, it goes alike. *)
From Verif Require Import Base AlignedModel StratModel WrapModel QuickPoolModel QuickPoolStrat FixedPoolModel MixedPoolModel
  DynPoolModel GlobalModel IsoSpec.

Definition both {S W1 W2 : Type} (R : W1 -> W2 -> Prop) (a : S * W1) (b : S * W2) : Prop := fst a = fst b /\ R (snd a) (snd b).

Record prel {W1 W2 : Type} (R : W1 -> W2 -> Prop) (P1 : Parent W1) (P2 : Parent W2) : Prop := mkPrel {
  pr_alloc : forall n w1 w2, R w1 w2 -> alike R (p_alloc P1 n w1) (p_alloc P2 n w2);
  pr_dealloc : forall p n w1 w2, R w1 w2 -> alike R (p_dealloc P1 p n w1) (p_dealloc P2 p n w2)
}.

Lemma alike_ok W1 W2 A (R : W1 -> W2 -> Prop) w1 w2 (a : A) : R w1 w2 -> alike R (Ok w1 a) (Ok w2 a).
Proof. cbn; auto. Qed.
Lemma alike_throw W1 W2 A (R : W1 -> W2 -> Prop) w1 w2 e : R w1 w2 -> @alike W1 W2 A R (Throw w1 e) (Throw w2 e).
Proof. cbn; auto. Qed.

Lemma alike_bind W1 W2 A B (R : W1 -> W2 -> Prop) (o1 : outcome W1 A) o2 (k1 : W1 -> A -> outcome W1 B) k2 :
  alike R o1 o2 -> (forall w1 w2 a, R w1 w2 -> alike R (k1 w1 a) (k2 w2 a)) -> alike R (bind o1 k1) (bind o2 k2).
Proof.
  destruct o1, o2; cbn; try tauto; intros [H ->] K; auto.
Qed.

Lemma alike_omap W1 W2 V1 V2 A B (R : W1 -> W2 -> Prop) (Q : V1 -> V2 -> Prop) (o1 : outcome W1 A) o2 f1 f2 (g : A -> B) :
  alike R o1 o2 -> (forall w1 w2, R w1 w2 -> Q (f1 w1) (f2 w2)) -> alike Q (omap f1 g o1) (omap f2 g o2).
Proof. destruct o1, o2; cbn; try tauto; intros [H ->] K; auto. Qed.

Lemma alike_noexcept W1 W2 A (R : W1 -> W2 -> Prop) (o1 : outcome W1 A) (o2 : outcome W2 A) :
  alike R o1 o2 -> alike R (noexcept o1) (noexcept o2).
Proof. destruct o1, o2; cbn; tauto. Qed.

(** Destruct two outcomes known to be alike. *)
Ltac both_of H :=
  match type of H with
  | alike _ ?x ?y => destruct x, y; cbn [alike] in H; try contradiction; try exact I;
                     try (let R := fresh "R" in destruct H as [R H]; subst)
  end.

Section Param.
  Context {W1 W2 : Type} (R : W1 -> W2 -> Prop) (P1 : Parent W1) (P2 : Parent W2).
  Context (PR : prel R P1 P2).

  (** The interface of one strategy. *)
  Record srel (S : Strat) : Prop := mkSrel {
    sr_make : forall w1 w2, R w1 w2 -> alike R (st_make S W1 P1 w1) (st_make S W2 P2 w2);
    sr_alloc : forall n s w1 w2, R w1 w2 -> alike (both R) (st_alloc S W1 P1 n (s, w1)) (st_alloc S W2 P2 n (s, w2));
    sr_dealloc : forall c p n s w1 w2, R w1 w2 ->
      alike (both R) (st_dealloc S W1 P1 c p n (s, w1)) (st_dealloc S W2 P2 c p n (s, w2));
    sr_release : forall s w1 w2, R w1 w2 -> alike (both R) (st_release S W1 P1 (s, w1)) (st_release S W2 P2 (s, w2));
    sr_coalesce : forall c s w1 w2, R w1 w2 -> alike (both R) (st_coalesce S W1 P1 c (s, w1)) (st_coalesce S W2 P2 c (s, w2))
  }.

  Lemma both_pair S (s : S) w1 w2 : R w1 w2 -> both R (s, w1) (s, w2).
  Proof. split; auto. Qed.

  Ltac triv := match goal with |- alike _ (Ok _ _) _ => apply alike_ok | |- alike _ (Throw _ _) _ => apply alike_throw end;
    try apply both_pair; assumption.

  Lemma rel_limiter l : srel (SizeLimiter l).
  Proof.
    split; cbn [st_make st_alloc st_dealloc st_release st_coalesce SizeLimiter].
    - intros; unfold sl_init; triv.
    - intros n s w1 w2 H; unfold sl_allocate. destruct (l <? w64 (s + n)); [triv|].
      eapply alike_omap; [apply PR, H|]. intros; now apply both_pair.
    - intros c p n s w1 w2 H; unfold sl_deallocate. eapply alike_omap; [apply PR, H|]. intros; now apply both_pair.
    - intros; unfold no_release; triv.
    - intros; unfold no_coalesce; triv.
  Qed.

  Lemma rel_mono l : srel (Monotonic l).
  Proof.
    split; cbn [st_make st_alloc st_dealloc st_release st_coalesce Monotonic].
    - intros w1 w2 H; unfold mo_init. eapply alike_omap; [apply PR, H|]; auto.
    - intros n s w1 w2 H; unfold mo_allocate. destruct (l <? _); triv.
    - intros; unfold mo_deallocate; triv.
    - intros; unfold no_release; triv.
    - intros; unfold no_coalesce; triv.
  Qed.

  Lemma rel_scan n l : forall pre w1 w2, R w1 w2 -> alike (both R) (sp_scan W1 P1 n pre l w1) (sp_scan W2 P2 n pre l w2).
  Proof.
    induction l as [|[p len] t IH]; intros pre w1 w2 H; cbn [sp_scan]; [triv|].
    destruct (len =? n); [triv|]. destruct (len =? 0); [|auto].
    pose proof (pr_alloc R P1 P2 PR n w1 w2 H) as K. both_of K; triv.
  Qed.

  Lemma rel_slot n : srel (SlotPool n).
  Proof.
    split; cbn [st_make st_alloc st_dealloc st_release st_coalesce SlotPool].
    - intros; unfold sp_init; triv.
    - intros b s w1 w2 H; unfold sp_allocate. cbn [fst snd]. destruct (to_int64 b <? 0); [triv|]. now apply rel_scan.
    - intros; unfold sp_deallocate; triv.
    - intros; unfold no_release; triv.
    - intros; unfold no_coalesce; triv.
  Qed.

  Lemma rel_aligned a : srel (AlignedAllocator a).
  Proof.
    split; cbn [st_make st_alloc st_dealloc st_release st_coalesce AlignedAllocator].
    - intros; unfold al_init; triv.
    - intros b s w1 w2 H; unfold al_allocate.
      pose proof (pr_alloc R P1 P2 PR (w64 (b + al_overhead a)) w1 w2 H) as K. both_of K; triv.
    - intros c p n s w1 w2 H; unfold al_deallocate. destruct (s p); [|exact I].
      eapply alike_omap; [apply PR, H|]. intros; now apply both_pair.
    - intros; unfold no_release; triv.
    - intros; unfold no_coalesce; triv.
  Qed.

  Lemma rel_pass : srel PassThrough.
  Proof.
    split; cbn [st_make st_alloc st_dealloc st_release st_coalesce PassThrough].
    - intros; unfold pt_init; triv.
    - intros b s w1 w2 H; unfold pt_allocate. eapply alike_omap; [apply PR, H|]. intros; now apply both_pair.
    - intros c p n s w1 w2 H; unfold pt_deallocate. eapply alike_omap; [apply PR, H|]. intros; now apply both_pair.
    - intros; unfold no_release; triv.
    - intros; unfold no_coalesce; triv.
  Qed.

  Lemma rel_advised f : srel (Advised f).
  Proof.
    split; cbn [st_make st_alloc st_dealloc st_release st_coalesce Advised].
    - intros; unfold ad_init; triv.
    - intros b s w1 w2 H; unfold ad_allocate.
      pose proof (pr_alloc R P1 P2 PR b w1 w2 H) as K. both_of K; try (destruct (f s a0 b)); triv.
    - intros c p n s w1 w2 H; unfold ad_deallocate. eapply alike_omap; [apply PR, H|]. intros; now apply both_pair.
    - intros; unfold no_release; triv.
    - intros; unfold no_coalesce; triv.
  Qed.

  (** FixedPool *)
  Lemma rel_new_pool obj per s w1 w2 : R w1 w2 -> alike (both R) (fx_new_pool obj per P1 (s, w1)) (fx_new_pool obj per P2 (s, w2)).
  Proof.
    intros H; unfold fx_new_pool. pose proof (pr_alloc R P1 P2 PR (fx_data_bytes obj per) w1 w2 H) as K. both_of K; triv.
  Qed.

  Lemma rel_fx_init obj per w1 w2 : R w1 w2 -> alike R (fx_init obj per W1 P1 w1) (fx_init obj per W2 P2 w2).
  Proof.
    intros H; unfold fx_init. pose proof (rel_new_pool obj per (mkFixed [] 0 0 0) w1 w2 H) as K. both_of K; cbn [alike]; auto.
    destruct w as [s x], w0 as [s' y], R0 as [E Q]. cbn in E, Q. subst. cbn; auto.
  Qed.

  Lemma rel_fx_alloc obj per f : forall n s w1 w2, R w1 w2 ->
    alike (both R) (fx_alloc obj per f P1 n (s, w1)) (fx_alloc obj per f P2 n (s, w2)).
  Proof.
    induction f as [|f IH]; intros n s w1 w2 H; cbn [fx_alloc]; [exact I|].
    destruct (fx_try _ _ _) as [rp ptr]. destruct (ptr =? 0); [|triv].
    eapply alike_bind; [now apply rel_new_pool|]. intros [s1 x] [s2 y] [] [E Q]. cbn in E, Q. subst. auto.
  Qed.

  Lemma rel_fx_dealloc obj per c p n s w1 w2 : R w1 w2 ->
    alike (both R) (fx_deallocate obj per W1 P1 c p n (s, w1)) (fx_deallocate obj per W2 P2 c p n (s, w2)).
  Proof. intros H; unfold fx_deallocate. destruct (fx_free_pools _ _ _ _); triv. Qed.

  Lemma rel_free_unused obj per l : forall w1 w2, R w1 w2 ->
    alike R (fx_free_unused obj per P1 l w1) (fx_free_unused obj per P2 l w2).
  Proof.
    induction l as [|p t IH]; intros w1 w2 H; cbn [fx_free_unused]; [triv|].
    destruct (fp_unused per p); [|auto]. eapply alike_bind; [apply PR, H|]. auto.
  Qed.

  Lemma rel_fx_release obj per s w1 w2 : R w1 w2 ->
    alike (both R) (fx_release obj per W1 P1 (s, w1)) (fx_release obj per W2 P2 (s, w2)).
  Proof.
    intros H; unfold fx_release. pose proof (rel_free_unused obj per (fx_pools s) w1 w2 H) as K. both_of K; triv.
  Qed.

  Lemma rel_fixed obj per f : srel (FixedPool obj per f).
  Proof.
    split; cbn [st_make st_alloc st_dealloc st_release st_coalesce FixedPool].
    - apply rel_fx_init.
    - intros; now apply rel_fx_alloc.
    - intros; now apply rel_fx_dealloc.
    - intros; now apply rel_fx_release.
    - intros; unfold no_coalesce; triv.
  Qed.

  (** AlignedAllocation *)
  Lemma rel_al_alloc A n bm w1 w2 : R w1 w2 -> alike (both R) (aligned_allocate P1 A n bm w1) (aligned_allocate P2 A n bm w2).
  Proof.
    intros H; unfold aligned_allocate. pose proof (pr_alloc R P1 P2 PR (w64 (n + A)) w1 w2 H) as K. both_of K; triv.
  Qed.

  Lemma rel_al_dealloc p bm w1 w2 : R w1 w2 -> alike (both R) (aligned_deallocate P1 p bm w1) (aligned_deallocate P2 p bm w2).
  Proof.
    intros H; unfold aligned_deallocate. destruct (match bm p with Some bs => bs | None => (0, 0) end) as [b s].
    eapply alike_omap; [apply PR, H|]. intros; now apply both_pair.
  Qed.

  (** QuickPool *)
  Section Quick.
    Context (cfg : qcfg).

    Lemma rel_q_grow n s w1 w2 : R w1 w2 -> alike (both R) (q_grow P1 cfg n (s, w1)) (q_grow P2 cfg n (s, w2)).
    Proof.
      intros H; unfold q_grow. eapply alike_omap; [now apply rel_al_alloc|].
      intros [a x] [b y] [E Q]; cbn in *; subst. now apply both_pair.
    Qed.

    Lemma rel_q_loop l : forall s w1 w2, R w1 w2 -> alike (both R) (q_release_loop P1 l (s, w1)) (q_release_loop P2 l (s, w2)).
    Proof.
      induction l as [|e t IH]; intros s w1 w2 H; cbn [q_release_loop]; [triv|].
      destruct (q_chunks s (e_chunk e)) as [c|]; [|exact I].
      destruct ((c_size c =? c_csize c) && c_free c); [|auto].
      match goal with |- context [aligned_deallocate P1 ?p ?b w1] => pose proof (rel_al_dealloc p b w1 w2 H) as K end.
      both_of K.
      - destruct w as [a x], w0 as [b y], R0 as [E Q]; cbn [fst snd] in *; subst.
        destruct (sm_erase _ _); [auto|exact I].
      - destruct w as [a x], w0 as [b y], R0 as [E Q]; cbn [fst snd] in *; subst. triv.
    Qed.

    Lemma rel_q_release s w1 w2 : R w1 w2 -> alike (both R) (q_release P1 (s, w1)) (q_release P2 (s, w2)).
    Proof. intros H; unfold q_release; cbn [fst]. now apply rel_q_loop. Qed.

    Lemma rel_q_new n s w1 w2 : R w1 w2 -> alike (both R) (q_new_block P1 cfg n (s, w1)) (q_new_block P2 cfg n (s, w2)).
    Proof.
      intros H; unfold q_new_block; cbn [fst].
      set (size := zmax n _). eapply alike_bind.
      - pose proof (rel_q_grow size s w1 w2 H) as K. both_of K; [triv|].
        destruct w as [a x], w0 as [b y], R0 as [E Q]; cbn [fst snd] in *; subst.
        eapply alike_bind; [now apply rel_q_release|]. intros [a' x'] [b' y'] [] [E' Q']; cbn [fst snd] in *; subst.
        now apply rel_q_grow.
      - intros [a x] [b y] r [E Q]; cbn [fst snd] in *; subst. triv.
    Qed.

    Lemma rel_q_use n c s w1 w2 : R w1 w2 -> alike (both R) (@q_use_chunk W1 n c s w1) (@q_use_chunk W2 n c s w2).
    Proof.
      intros H; unfold q_use_chunk. destruct (q_chunks s c) as [ch|]; [|exact I].
      cbv zeta. destruct (n =? _); [triv|].
      match goal with |- alike _ (match ?x with _ => _ end) _ => destruct x; [triv|exact I] end.
    Qed.

    Lemma rel_q_alloc n s w1 w2 : R w1 w2 -> alike (both R) (q_allocate P1 cfg n (s, w1)) (q_allocate P2 cfg n (s, w2)).
    Proof.
      intros H; unfold q_allocate; cbn [fst snd]. destruct (sm_lower_bound _ _) as [e|].
      - destruct (sm_erase _ _); [|exact I]. now apply rel_q_use.
      - eapply alike_bind; [now apply rel_q_new|]. intros [a x] [b y] r [E Q]; cbn [fst snd] in *; subst. now apply rel_q_use.
    Qed.

    Lemma rel_q_dealloc f : forall p s w1 w2, R w1 w2 ->
      alike (both R) (q_deallocate P1 cfg f p (s, w1)) (q_deallocate P2 cfg f p (s, w2)).
    Proof.
      induction f as [|f IH]; intros p s w1 w2 H; cbn [q_deallocate fst snd];
        (destruct (q_free_core p s) as [s1|]; [|exact I]); (destruct (_ =? 0); [triv|]); [exact I|].
      apply alike_noexcept. destruct (1 <? _); [|triv].
      eapply alike_bind; [now apply rel_q_release|]. intros [a x] [b y] [] [E Q]; cbn [fst snd] in *; subst.
      destruct (_ <? _); [|triv].
      eapply alike_bind; [now apply rel_q_alloc|]. intros [a' x'] [b' y'] r [E' Q']; cbn [fst snd] in *; subst. auto.
    Qed.

    Lemma rel_q_coalesce f s w1 w2 : R w1 w2 -> alike (both R) (q_coalesce P1 cfg f (s, w1)) (q_coalesce P2 cfg f (s, w2)).
    Proof.
      intros H; unfold q_coalesce; cbn [fst]. destruct (_ =? 0); [triv|]. unfold q_do_coalesce; cbn [fst].
      apply alike_noexcept. destruct (1 <? _); [|triv].
      eapply alike_bind; [now apply rel_q_release|]. intros [a x] [b y] [] [E Q]; cbn [fst snd] in *; subst.
      destruct (_ <? _); [|triv].
      eapply alike_bind; [now apply rel_q_alloc|]. intros [a' x'] [b' y'] r [E' Q']; cbn [fst snd] in *; subst.
      now apply rel_q_dealloc.
    Qed.

    Lemma rel_quick f : srel (QuickPool cfg f).
    Proof.
      split; cbn [st_make st_alloc st_dealloc st_release st_coalesce QuickPool].
      - intros; triv.
      - intros; now apply rel_q_alloc.
      - intros; now apply rel_q_dealloc.
      - intros; now apply rel_q_release.
      - intros; now apply rel_q_coalesce.
    Qed.
  End Quick.

  (** MixedPool *)
  Lemma rel_mx_build cfg f : forall obj acc w1 w2, R w1 w2 ->
    alike R (mx_build cfg f obj acc P1 w1) (mx_build cfg f obj acc P2 w2).
  Proof.
    induction f as [|f IH]; intros obj acc w1 w2 H; cbn [mx_build]; [exact I|].
    destruct (obj <=? _); [|triv]. destruct (obj =? 0); [exact I|]. cbv zeta. destruct (1 <? _); [|triv].
    eapply alike_bind; [now apply rel_fx_init|]. auto.
  Qed.

  Lemma rel_mixed cfg cf f : srel (MixedPool cfg cf f).
  Proof.
    split; cbn [st_make st_alloc st_dealloc st_release st_coalesce MixedPool].
    - intros w1 w2 H; unfold mx_init. pose proof (rel_mx_build cfg cf (mc_small cfg) [] w1 w2 H) as K. both_of K; cbn [alike]; auto.
    - intros n s w1 w2 H; unfold mx_allocate. destruct (nth_error _ _) as [c|].
      + pose proof (rel_fx_alloc (cl_size c) (cl_per c) f (cl_size c) (cl_pool c) w1 w2 H) as K.
        unfold fx_allocate. both_of K; destruct w as [a x], w0 as [b y], R0 as [E Q]; cbn [fst snd] in *; subst; triv.
      + pose proof (rel_q_alloc (mc_quick cfg) n (mp_quick s) w1 w2 H) as K.
        both_of K; destruct w as [a x], w0 as [b y], R0 as [E Q]; cbn [fst snd] in *; subst; triv.
    - intros c p n s w1 w2 H; unfold mx_deallocate. destruct (mp_map s p) as [i|]; [|triv].
      destruct (i <? 0).
      + eapply alike_omap; [now apply rel_q_dealloc|]. intros [a x] [b y] [E Q]; cbn [fst snd] in *; subst. now apply both_pair.
      + destruct (nth_error _ _) as [k|]; [|exact I].
        eapply alike_omap; [now apply rel_fx_dealloc|]. intros [a x] [b y] [E Q]; cbn [fst snd] in *; subst. now apply both_pair.
    - intros; unfold no_release; triv.
    - intros; unfold no_coalesce; triv.
  Qed.

  (** DynamicPoolList *)
  Section Dynamic.
    Context (cfg : dcfg).

    Lemma rel_d_loop l : forall keep s w1 w2, R w1 w2 ->
      alike (both R) (d_release_loop P1 keep l (s, w1)) (d_release_loop P2 keep l (s, w2)).
    Proof.
      induction l as [|c t IH]; intros keep s w1 w2 H; cbn [d_release_loop]; [triv|].
      destruct (d_whole c); [|auto].
      match goal with |- context [aligned_deallocate P1 ?p ?b w1] => pose proof (rel_al_dealloc p b w1 w2 H) as K end.
      both_of K; destruct w as [a x], w0 as [b y], R0 as [E Q]; cbn [fst snd] in *; subst; [auto|triv].
    Qed.

    Lemma rel_d_release s w1 w2 : R w1 w2 -> alike (both R) (d_release P1 (s, w1)) (d_release P2 (s, w2)).
    Proof. intros H; unfold d_release; cbn [fst]. now apply rel_d_loop. Qed.

    Lemma rel_d_grow n s w1 w2 : R w1 w2 -> alike (both R) (d_grow P1 cfg n (s, w1)) (d_grow P2 cfg n (s, w2)).
    Proof.
      intros H; unfold d_grow. eapply alike_omap; [now apply rel_al_alloc|].
      intros [a x] [b y] [E Q]; cbn in *; subst. now apply both_pair.
    Qed.

    Lemma rel_d_new n s w1 w2 : R w1 w2 -> alike (both R) (d_new_block P1 cfg n (s, w1)) (d_new_block P2 cfg n (s, w2)).
    Proof.
      intros H; unfold d_new_block; cbn [fst].
      set (size := zmax n _). eapply alike_bind with (R := both R).
      - pose proof (rel_d_grow size s w1 w2 H) as K. both_of K; [triv|].
        destruct w as [a x], w0 as [b y], R0 as [E Q]; cbn [fst snd] in *; subst.
        eapply alike_bind; [now apply rel_d_release|]. intros [a' x'] [b' y'] [] [E' Q']; cbn [fst snd] in *; subst.
        now apply rel_d_grow.
      - intros [a x] [b y] r [E Q]; cbn [fst snd] in *; subst. cbv zeta. destruct (d_before _ _). triv.
    Qed.

    Lemma rel_d_use n i s w1 w2 : R w1 w2 -> alike (both R) (@d_use W1 n i s w1) (@d_use W2 n i s w2).
    Proof. intros H; unfold d_use. destruct (nth_error _ _); [|exact I]. triv. Qed.

    Lemma rel_d_alloc n s w1 w2 : R w1 w2 -> alike (both R) (d_allocate P1 cfg n (s, w1)) (d_allocate P2 cfg n (s, w2)).
    Proof.
      intros H; unfold d_allocate; cbn [fst snd]. destruct (d_find _ _ _ _) as [i|].
      - now apply rel_d_use.
      - eapply alike_bind; [now apply rel_d_new|]. intros [a x] [b y] r [E Q]; cbn [fst snd] in *; subst. now apply rel_d_use.
    Qed.

    Lemma rel_d_dpa n s w1 w2 : R w1 w2 -> alike (both R) (d_dpa_coalesce P1 cfg n (s, w1)) (d_dpa_coalesce P2 cfg n (s, w2)).
    Proof.
      intros H; unfold d_dpa_coalesce; cbn [fst]. destruct (1 <? _); [|triv].
      eapply alike_bind; [now apply rel_d_release|]. intros [a x] [b y] [] [E Q]; cbn [fst snd] in *; subst.
      destruct (_ <? _); [|triv]. unfold d_coalesce_free.
      eapply alike_bind; [now apply rel_d_release|]. intros [a' x'] [b' y'] [] [E' Q']; cbn [fst snd] in *; subst.
      eapply alike_bind; [now apply rel_d_alloc|]. intros [a2 x2] [b2 y2] r [E2 Q2]; cbn [fst snd] in *; subst. triv.
    Qed.

    Lemma rel_dynamic : srel (DynamicPoolList cfg).
    Proof.
      split; cbn [st_make st_alloc st_dealloc st_release st_coalesce DynamicPoolList].
      - intros; triv.
      - intros; now apply rel_d_alloc.
      - intros c p n s w1 w2 H; unfold d_deallocate; cbn [fst snd]. destruct (_ =? 0); [triv|]. now apply rel_d_dpa.
      - intros; now apply rel_d_release.
      - intros c s w1 w2 H; unfold d_coalesce; cbn [fst]. destruct (_ =? 0); [triv|]. now apply alike_noexcept, rel_d_dpa.
    Qed.
  End Dynamic.

  Lemma rel_strat k : srel (strat_of k).
  Proof.
    destruct k; cbn [strat_of].
    - apply rel_quick.
    - apply rel_limiter.
    - apply rel_aligned.
    - apply rel_pass.
    - apply rel_advised.
    - apply rel_mono.
    - apply rel_slot.
    - apply rel_fixed.
    - apply rel_mixed.
    - apply rel_dynamic.
    - apply rel_dynamic.
  Qed.
End Param.
