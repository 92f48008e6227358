(** Poisoning does not change what the pools do. *)
From Verif Require Import Base AlignedModel QuickPoolModel DynPoolModel SanModel SanSpec.

Lemma omap_bind {W W' A B} (f : W -> W') (o : outcome W A) (k : W -> A -> outcome W B) (o' : outcome W' A) (k' : W' -> A -> outcome W' B) :
  omap f (fun a => a) o = o' -> (forall w a, omap f (fun b => b) (k w a) = k' (f w) a) ->
  omap f (fun b => b) (bind o k) = bind o' k'.
Proof. intros <- H. destruct o; cbn [bind omap]; auto. Qed.

Section Core.
    Context {W1 W2 : Type} (f : W1 -> W2) (Q : Parent W1) (P0 : Parent W2).
    Hypothesis HQ : (forall n w, omap f (fun p => p) (p_alloc Q n w) = p_alloc P0 n (f w)) /\
                    (forall p n w, omap f (fun u => u) (p_dealloc Q p n w) = p_dealloc P0 p n (f w)).
    Definition lift {S : Type} (sw : S * W1) : S * W2 := (fst sw, f (snd sw)).

    Lemma aa_erase A size bm w :
      omap lift (fun p => p) (aligned_allocate Q A size bm w) = aligned_allocate P0 A size bm (f w).
    Proof.
      unfold aligned_allocate. rewrite <- (proj1 HQ (w64 (size + A)) w).
      destruct (p_alloc Q (w64 (size + A)) w) as [w' p|w' e| | |]; reflexivity.
    Qed.
    Lemma ad_erase p bm w :
      omap lift (fun u => u) (aligned_deallocate Q p bm w) = aligned_deallocate P0 p bm (f w).
    Proof.
      unfold aligned_deallocate. destruct (match bm p with Some bs => bs | None => (0, 0) end) as [b n].
      rewrite <- (proj2 HQ b n w).
      destruct (p_dealloc Q b n w) as [w' u|w' e| | |]; reflexivity.
    Qed.

    Section Quick.
      Context (cfg : qcfg).
      Lemma q_grow_erase size sw : omap lift (fun p => p) (q_grow Q cfg size sw) = q_grow P0 cfg size (lift sw).
      Proof.
        destruct sw as [s w]. unfold q_grow, lift. cbn [fst snd]. rewrite <- (aa_erase _ _ _ w).
        destruct (aligned_allocate Q (cf_align cfg) size (q_base s) w) as [[b w'] p|[b w'] e| | |]; reflexivity.
      Qed.
      Lemma q_release_loop_erase todo : forall sw, omap lift (fun u => u) (q_release_loop Q todo sw) = q_release_loop P0 todo (lift sw).
      Proof.
        induction todo as [|e todo IH]; intros [s w]; [reflexivity|]. cbn [q_release_loop lift fst snd].
        destruct (q_chunks s (e_chunk e)) as [c|]; [|reflexivity].
        destruct ((c_size c =? c_csize c) && c_free c); [|exact (IH (s, w))].
        cbv zeta. rewrite <- (ad_erase _ _ w).
        match goal with |- context [aligned_deallocate Q ?a ?b ?c] => destruct (aligned_deallocate Q a b c) as [[b' w'] u|[b' w'] ex| | |] end;
          cbn [omap lift fst snd]; try reflexivity.
        match goal with |- context [sm_erase ?a ?b] => destruct (sm_erase a b) end; [|reflexivity]. apply IH.
      Qed.
      Lemma q_release_erase sw : omap lift (fun u => u) (q_release Q sw) = q_release P0 (lift sw).
      Proof. apply q_release_loop_erase. Qed.
      Lemma q_new_block_erase r sw : omap lift (fun p => p) (q_new_block Q cfg r sw) = q_new_block P0 cfg r (lift sw).
      Proof.
        unfold q_new_block. cbn [lift fst].
        apply omap_bind.
        - match goal with |- context [q_grow Q cfg ?z sw] => set (size := z) end. clearbody size.
          rewrite <- q_grow_erase. destruct (q_grow Q cfg size sw); cbn [omap]; try reflexivity.
          apply omap_bind; [apply q_release_erase|]. intros; apply q_grow_erase.
        - intros [s w] p. reflexivity.
      Qed.
      Lemma q_use_erase r c s (w : W1) : omap lift (fun p => p) (q_use_chunk r c s w) = q_use_chunk r c s (f w).
      Proof.
        unfold q_use_chunk. destruct (q_chunks s c) as [ch|]; [|reflexivity]. cbv zeta.
        match goal with |- context [if ?b then _ else match _ with Some _ => _ | None => UB end] => destruct b end; [reflexivity|].
        match goal with |- context [match ?o with Some _ => _ | None => UB end] => destruct o end; reflexivity.
      Qed.
      Lemma q_allocate_erase n sw : omap lift (fun p => p) (q_allocate Q cfg n sw) = q_allocate P0 cfg n (lift sw).
      Proof.
        unfold q_allocate. cbn [lift fst]. destruct (sm_lower_bound _ _) as [e|].
        - destruct (sm_erase _ _); [|reflexivity]. destruct sw as [s w]. cbn [fst snd]. apply q_use_erase.
        - apply omap_bind; [apply q_new_block_erase|]. intros [s w] c. cbn [fst snd lift]. apply q_use_erase.
      Qed.
    End Quick.

    Section Dyn.
      Context (cfg : dcfg).
      Lemma d_release_loop_erase todo : forall keep sw, omap lift (fun u => u) (d_release_loop Q keep todo sw) = d_release_loop P0 keep todo (lift sw).
      Proof.
        induction todo as [|c todo IH]; intros keep [s w]; [reflexivity|]. cbn [d_release_loop lift fst snd].
        destruct (d_whole c); [|exact (IH _ (s, w))].
        cbv zeta. rewrite <- (ad_erase _ _ w).
        match goal with |- context [aligned_deallocate Q ?a ?b ?c] => destruct (aligned_deallocate Q a b c) as [[b' w'] u|[b' w'] ex| | |] end;
          cbn [omap lift fst snd]; try reflexivity. apply IH.
      Qed.
      Lemma d_release_erase sw : omap lift (fun u => u) (d_release Q sw) = d_release P0 (lift sw).
      Proof. apply d_release_loop_erase. Qed.
      Lemma d_grow_erase size sw : omap lift (fun p => p) (d_grow Q cfg size sw) = d_grow P0 cfg size (lift sw).
      Proof.
        destruct sw as [s w]. unfold d_grow, lift. cbn [fst snd]. rewrite <- (aa_erase _ _ _ w).
        destruct (aligned_allocate Q (dc_align cfg) size (d_base s) w) as [[b w'] p|[b w'] e| | |]; reflexivity.
      Qed.
      Lemma d_new_block_erase r sw : omap lift (fun p => p) (d_new_block Q cfg r sw) = d_new_block P0 cfg r (lift sw).
      Proof.
        unfold d_new_block. cbn [lift fst].
        apply omap_bind.
        - match goal with |- context [d_grow Q cfg ?z sw] => set (size := z) end. clearbody size.
          rewrite <- d_grow_erase. destruct (d_grow Q cfg size sw); cbn [omap]; try reflexivity.
          apply omap_bind; [apply d_release_erase|]. intros; apply d_grow_erase.
        - intros [s w] p. cbn [lift fst snd]. cbv zeta. destruct (d_before _ _). reflexivity.
      Qed.
      Lemma d_use_erase r i s (w : W1) : omap lift (fun p => p) (d_use r i s w) = d_use r i s (f w).
      Proof. unfold d_use. destruct (nth_error (d_free s) i); reflexivity. Qed.
      Lemma d_allocate_erase n sw : omap lift (fun p => p) (d_allocate Q cfg n sw) = d_allocate P0 cfg n (lift sw).
      Proof.
        unfold d_allocate. cbn [lift fst]. destruct (d_find _ _ _ _) as [i|].
        - destruct sw as [s w]. cbn [fst snd]. apply d_use_erase.
        - apply omap_bind; [apply d_new_block_erase|]. intros [s w] c. cbn [fst snd lift]. apply d_use_erase.
      Qed.
    End Dyn.
End Core.


Section Erase.
  Context {W : Type} (P : Parent (W * shadow)) (P0 : Parent W) (host : bool).
  Hypothesis HB : blind P P0.

  Lemma zP_blind : blind (zP P host) P0.
  Proof.
    destruct HB as [H1 H2]. split; [|exact H2]. intros n w sh. cbn [zP p_alloc]. rewrite <- (H1 n w sh).
    destruct (p_alloc P n (w, sh)) as [[w' sh'] p| | | |]; cbn [bind omap]; auto. unfold u_poison. now destruct host.
  Qed.

  Lemma zP_nat : (forall n ws, omap fst (fun p => p) (p_alloc (zP P host) n ws) = p_alloc P0 n (fst ws)) /\
    (forall p n ws, omap fst (fun u => u) (p_dealloc (zP P host) p n ws) = p_dealloc P0 p n (fst ws)).
  Proof. destruct zP_blind as [H1 H2]. split; [intros n [w sh]; apply H1|intros p n [w sh]; apply H2]. Qed.

  Lemma plain_unpoison {S} (s : S) p n (ws : W * shadow) : plain (s, u_unpoison host p n ws) = plain (s, ws).
  Proof. unfold u_unpoison. now destruct host. Qed.
  Lemma plain_poison {S} (s : S) p n (ws : W * shadow) : plain (s, u_poison host p n ws) = plain (s, ws).
  Proof. unfold u_poison. now destruct host. Qed.

  Lemma omap_noexcept {S} (o : outcome (S * (W * shadow)) unit) o' : omap plain (fun u => u) o = o' ->
    omap plain (fun u => u) (noexcept o) = noexcept o'.
  Proof. intros <-. now destruct o. Qed.

  Lemma z_allocate_erase cfg n sw : omap plain (fun p => p) (z_allocate P host cfg n sw) = q_allocate P0 cfg n (plain sw).
  Proof.
    unfold z_allocate. change (plain sw) with (lift fst sw). rewrite <- (q_allocate_erase fst (zP P host) P0 zP_nat).
    destruct (q_allocate (zP P host) cfg n sw) as [[s ws] p|[s ws] e| | |]; cbn [bind omap fst snd]; try reflexivity.
    now rewrite plain_unpoison.
  Qed.

  Lemma z_deallocate_erase cfg fuel : forall p sw,
    omap plain (fun u => u) (z_deallocate P host cfg fuel p sw) = q_deallocate P0 cfg fuel p (plain sw).
  Proof.
    induction fuel as [|f IH]; intros p sw; cbn [z_deallocate q_deallocate]; cbn [plain fst snd];
      destruct (q_free_core p (fst sw)) as [s|]; try reflexivity; cbv zeta;
      destruct (cf_heur cfg (q_view s) =? 0); cbn [omap]; try (rewrite plain_poison; reflexivity); try reflexivity.
    apply omap_noexcept. destruct (1 <? Z.of_nat (length (q_sizemap s))); [|cbn [omap]; now rewrite plain_poison].
    apply omap_bind.
    - change (omap (lift fst) (fun u => u) (q_release (zP P host) (s, u_poison host p (z_chunk_size p (fst sw)) (snd sw))) = q_release P0 (s, fst (snd sw))).
      rewrite (q_release_erase fst (zP P host) P0 zP_nat). change (lift fst ?x) with (plain x). now rewrite plain_poison.
    - intros sw1 _. cbn [plain fst snd]. destruct (q_actual (fst sw1) <? cf_heur cfg (q_view s)); [|reflexivity].
      apply omap_bind; [apply z_allocate_erase|]. intros; apply IH.
  Qed.

  Lemma z_release_erase sw : omap plain (fun u => u) (z_release P host sw) = q_release P0 (plain sw).
  Proof. apply (q_release_erase fst (zP P host) P0 zP_nat). Qed.

  Lemma z_coalesce_erase cfg fuel sw :
    omap plain (fun u => u) (z_coalesce P host cfg fuel sw) = q_coalesce P0 cfg fuel (plain sw).
  Proof.
    unfold z_coalesce, q_coalesce. cbn [plain fst]. destruct (cf_heur cfg (q_view (fst sw)) =? 0); [reflexivity|].
    unfold z_do_coalesce, q_do_coalesce. apply omap_noexcept. cbn [plain fst].
    destruct (1 <? Z.of_nat (length (q_sizemap (fst sw)))); [|reflexivity].
    apply omap_bind; [apply (q_release_erase fst (zP P host) P0 zP_nat)|].
    intros sw1 _. cbn [plain fst snd]. destruct (q_actual (fst sw1) <? cf_heur cfg (q_view (fst sw))); [|reflexivity].
    apply omap_bind; [apply z_allocate_erase|]. intros; apply z_deallocate_erase.
  Qed.

  Lemma y_allocate_erase cfg n sw : omap plain (fun p => p) (y_allocate P host cfg n sw) = d_allocate P0 cfg n (plain sw).
  Proof.
    unfold y_allocate. change (plain sw) with (lift fst sw). rewrite <- (d_allocate_erase fst (zP P host) P0 zP_nat).
    destruct (d_allocate (zP P host) cfg n sw) as [[s ws] p|[s ws] e| | |]; cbn [bind omap fst snd]; try reflexivity.
    now rewrite plain_unpoison.
  Qed.
  Lemma y_release_erase sw : omap plain (fun u => u) (y_release P host sw) = d_release P0 (plain sw).
  Proof. apply (d_release_erase fst (zP P host) P0 zP_nat). Qed.
  Lemma y_free_erase p (sw : zd (W := W)) : plain (y_free host p sw) = (d_free_core p (fst sw), fst (snd sw)).
  Proof.
    unfold y_free, d_free_core. destruct (d_lookup p (d_used (fst sw))) as [[c t]|] eqn:E; [|reflexivity].
    rewrite plain_poison. reflexivity.
  Qed.
  Lemma y_dpa_erase cfg sug sw : omap plain (fun u => u) (y_dpa_coalesce P host cfg sug sw) = d_dpa_coalesce P0 cfg sug (plain sw).
  Proof.
    unfold y_dpa_coalesce, d_dpa_coalesce. cbn [plain fst]. destruct (1 <? d_free_blocks (d_free (fst sw))); [|reflexivity].
    apply omap_bind; [apply (d_release_erase fst (zP P host) P0 zP_nat)|]. intros sw1 _. cbn [plain fst].
    destruct (d_actual (fst sw1) <? sug); [|reflexivity].
    unfold y_coalesce_free, d_coalesce_free.
    apply omap_bind; [apply (d_release_erase fst (zP P host) P0 zP_nat)|]. intros sw2 _.
    apply omap_bind; [apply y_allocate_erase|]. intros sw3 p. cbn [omap]. now rewrite y_free_erase.
  Qed.
  Lemma y_deallocate_erase cfg cur p sw :
    omap plain (fun u => u) (y_deallocate P host cfg cur p sw) = d_deallocate P0 cfg cur p (plain sw).
  Proof.
    unfold y_deallocate, d_deallocate. cbn [plain fst snd]. pose proof (y_free_erase p sw) as E.
    destruct (y_free host p sw) as [s ws]. unfold plain in E. cbn [fst snd] in E. injection E as -> E2. rewrite <- E2.
    cbn [fst]. destruct (dc_heur cfg cur (d_view (d_free_core p (fst sw))) =? 0); [reflexivity|]. apply y_dpa_erase.
  Qed.
  Lemma y_coalesce_erase cfg cur sw :
    omap plain (fun u => u) (y_coalesce P host cfg cur sw) = d_coalesce P0 cfg cur (plain sw).
  Proof.
    unfold y_coalesce, d_coalesce. cbn [plain fst]. destruct (dc_heur cfg cur (d_view (fst sw)) =? 0); [reflexivity|].
    apply omap_noexcept, y_dpa_erase.
  Qed.
End Erase.

Section Device.
  Context {W : Type} (P : Parent (W * shadow)).

  Lemma omap_id {X A} (f : X -> X) (o : outcome X A) : (forall x, f x = x) -> omap f (fun a => a) o = o.
  Proof. intros H. destruct o; cbn [omap]; now rewrite ?H. Qed.
  Let lift_id {S} : forall sw : S * (W * shadow), lift (fun w => w) sw = sw.
  Proof. now intros [s w]. Qed.
  Let same : (forall n w, omap (fun w => w) (fun p => p) (p_alloc (zP P false) n w) = p_alloc P n w) /\
    (forall p n w, omap (fun w => w) (fun u => u) (p_dealloc (zP P false) p n w) = p_dealloc P p n w).
  Proof.
    split.
    - intros n w. rewrite omap_id by reflexivity. cbn [zP p_alloc]. now destruct (p_alloc P n w).
    - intros p n w. now rewrite omap_id.
  Qed.

  Lemma q_allocate_dev cfg n sw : q_allocate (zP P false) cfg n sw = q_allocate P cfg n sw.
  Proof. pose proof (q_allocate_erase (fun w => w) (zP P false) P same cfg n sw) as H. rewrite omap_id, lift_id in H by apply lift_id. exact H. Qed.
  Lemma q_release_dev sw : q_release (zP P false) sw = q_release P sw.
  Proof. pose proof (q_release_erase (fun w => w) (zP P false) P same sw) as H. rewrite omap_id, lift_id in H by apply lift_id. exact H. Qed.
  Lemma d_allocate_dev cfg n sw : d_allocate (zP P false) cfg n sw = d_allocate P cfg n sw.
  Proof. pose proof (d_allocate_erase (fun w => w) (zP P false) P same cfg n sw) as H. rewrite omap_id, lift_id in H by apply lift_id. exact H. Qed.
  Lemma d_release_dev sw : d_release (zP P false) sw = d_release P sw.
  Proof. pose proof (d_release_erase (fun w => w) (zP P false) P same sw) as H. rewrite omap_id, lift_id in H by apply lift_id. exact H. Qed.

  Lemma z_allocate_dev cfg n sw : z_allocate P false cfg n sw = q_allocate P cfg n sw.
  Proof. unfold z_allocate. rewrite q_allocate_dev. destruct (q_allocate P cfg n sw) as [[s w] p| | | |]; reflexivity. Qed.
  Lemma z_deallocate_dev cfg fuel : forall p sw, z_deallocate P false cfg fuel p sw = q_deallocate P cfg fuel p sw.
  Proof.
    induction fuel as [|f IH]; intros p sw; cbn [z_deallocate q_deallocate]; destruct (q_free_core p (fst sw)) as [s|]; try reflexivity.
    cbn [u_poison]. cbv zeta. destruct (cf_heur cfg (q_view s) =? 0); [reflexivity|]. f_equal.
    destruct (1 <? Z.of_nat (length (q_sizemap s))); [|reflexivity]. rewrite q_release_dev.
    destruct (q_release P (s, snd sw)) as [sw1 u| | | |]; cbn [bind]; try reflexivity.
    destruct (q_actual (fst sw1) <? cf_heur cfg (q_view s)); [|reflexivity]. rewrite z_allocate_dev.
    destruct (q_allocate P cfg (cf_heur cfg (q_view s) - q_actual (fst sw1)) sw1); cbn [bind]; auto.
  Qed.
  Lemma z_coalesce_dev cfg fuel sw : z_coalesce P false cfg fuel sw = q_coalesce P cfg fuel sw.
  Proof.
    unfold z_coalesce, q_coalesce, z_do_coalesce, q_do_coalesce. destruct (cf_heur cfg (q_view (fst sw)) =? 0); [reflexivity|]. f_equal.
    destruct (1 <? Z.of_nat (length (q_sizemap (fst sw)))); [|reflexivity]. rewrite q_release_dev.
    destruct (q_release P sw) as [sw1 u| | | |]; cbn [bind]; try reflexivity.
    destruct (q_actual (fst sw1) <? cf_heur cfg (q_view (fst sw))); [|reflexivity]. rewrite z_allocate_dev.
    destruct (q_allocate P cfg (cf_heur cfg (q_view (fst sw)) - q_actual (fst sw1)) sw1); cbn [bind]; auto.
    apply z_deallocate_dev.
  Qed.
  Lemma y_allocate_dev cfg n sw : y_allocate P false cfg n sw = d_allocate P cfg n sw.
  Proof. unfold y_allocate. rewrite d_allocate_dev. destruct (d_allocate P cfg n sw) as [[s w] p| | | |]; reflexivity. Qed.
  Lemma y_free_dev p (sw : zd (W := W)) : y_free false p sw = (d_free_core p (fst sw), snd sw).
  Proof.
    unfold y_free, d_free_core. destruct (d_lookup p (d_used (fst sw))) as [[c t]|] eqn:E; [reflexivity|]. now destruct sw.
  Qed.
  Lemma y_dpa_dev cfg sug sw : y_dpa_coalesce P false cfg sug sw = d_dpa_coalesce P cfg sug sw.
  Proof.
    unfold y_dpa_coalesce, d_dpa_coalesce, y_coalesce_free, d_coalesce_free.
    destruct (1 <? d_free_blocks (d_free (fst sw))); [|reflexivity]. rewrite d_release_dev.
    destruct (d_release P sw) as [sw1 u| | | |]; cbn [bind]; try reflexivity.
    destruct (d_actual (fst sw1) <? sug); [|reflexivity]. rewrite d_release_dev.
    destruct (d_release P sw1) as [sw2 u2| | | |]; cbn [bind]; try reflexivity. rewrite y_allocate_dev.
    destruct (d_allocate P cfg (sug - d_actual (fst sw1)) sw2); cbn [bind]; try reflexivity. now rewrite y_free_dev.
  Qed.
  Lemma y_deallocate_dev cfg cur p sw : y_deallocate P false cfg cur p sw = d_deallocate P cfg cur p sw.
  Proof.
    unfold y_deallocate, d_deallocate. rewrite y_free_dev. cbn [fst].
    destruct (dc_heur cfg cur (d_view (d_free_core p (fst sw))) =? 0); [reflexivity|]. apply y_dpa_dev.
  Qed.
  Lemma y_coalesce_dev cfg cur sw : y_coalesce P false cfg cur sw = d_coalesce P cfg cur sw.
  Proof.
    unfold y_coalesce, d_coalesce. destruct (dc_heur cfg cur (d_view (fst sw)) =? 0); [reflexivity|]. now rewrite y_dpa_dev.
  Qed.
End Device.
