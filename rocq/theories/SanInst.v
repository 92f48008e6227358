(** Parents for the sanitizer properties. *)
From Verif Require Import Base BaseFacts HeapModel HeapFacts StratFacts AlignedModel QuickPoolModel QuickPoolInv QuickPoolFacts QuickPoolOps QuickPoolFree QuickPoolMain DynPoolModel SanModel SanSpec SanFacts SanQuick SanDyn.

Lemma forget_perm r l L : Permutation l (r :: L) -> Permutation (forget r l) L.
Proof.
  intros HP. assert (Hin : In r l) by (eapply Permutation_in; [apply Permutation_sym, HP|simpl; auto]).
  apply Permutation_cons_inv with (a := r). rewrite <- HP. clear HP L.
  induction l as [|x l IH]; [destruct Hin|]. cbn [forget].
  destruct ((fst x =? fst r) && (snd x =? snd r)) eqn:E.
  - apply andb_true_iff in E as [E1%Z.eqb_eq E2%Z.eqb_eq]. destruct x, r. cbn in *. subst. reflexivity.
  - destruct Hin as [->|Hin]; [rewrite !Z.eqb_refl in E; discriminate|].
    rewrite perm_swap. constructor. auto.
Qed.

Lemma noting_ok {W} (P : Parent (W * shadow)) lim Inv : SanParent P lim Inv -> SanParent (noting P) lim (noted Inv).
Proof.
  intros [S1 S2 S3]. constructor.
  - constructor.
    + intros [[w l] sh] L L' HP [H1 H2]. cbn [fst snd] in *. split; cbn [fst snd].
      * eapply (ps_perm _ _ _ S1 (w, sh)); eauto.
      * now rewrite H2.
    + intros [[w l] sh] L [H1 _]. cbn [fst snd] in *. exact (ps_good _ _ _ S1 (w, sh) L H1).
    + intros [[w l] sh] L n [H1 H2] Hn. cbn [fst snd noting p_alloc] in *.
      pose proof (ps_alloc _ _ _ S1 (w, sh) L n H1 Hn) as H. destruct (p_alloc P n (w, sh)) as [[w' sh'] p|[w' sh'] e| | |]; cbn [post fst snd] in *; auto;
        split; cbn [fst snd]; auto.
    + intros [[w l] sh] L p n [H1 H2]. cbn [fst snd noting p_dealloc] in *.
      pose proof (ps_dealloc _ _ _ S1 (w, sh) L p n H1) as H. destruct (p_dealloc P p n (w, sh)) as [[w' sh'] u|[w' sh'] e| | |]; cbn [post fst snd] in *; auto.
      split; cbn [fst snd]; auto. now apply forget_perm.
  - intros [w l] sh L n [H1 H2] Hn. cbn [fst snd noting p_alloc] in *.
    pose proof (S2 w sh L n H1 Hn) as H. destruct (p_alloc P n (w, sh)) as [[w' sh'] p|[w' sh'] e| | |]; cbn [post fst snd] in *; auto.
  - intros [w l] sh L p n [H1 H2]. cbn [fst snd noting p_dealloc] in *.
    pose proof (S3 w sh L p n H1) as H. destruct (p_dealloc P p n (w, sh)) as [[w' sh'] p'|[w' sh'] e| | |]; cbn [post fst snd] in *; auto.
Qed.

Lemma inert_ok {W} (P : Parent W) lim Inv : ParentSpec P lim Inv -> SanParent (inert P) lim Inv.
Proof.
  intros S. constructor.
  - constructor.
    + intros [w sh] L L' HP H. exact (ps_perm _ _ _ S w L L' HP H).
    + intros [w sh] L H. exact (ps_good _ _ _ S w L H).
    + intros [w sh] L n H Hn. cbn [inert p_alloc fst snd] in *. pose proof (ps_alloc _ _ _ S w L n H Hn) as K.
      destruct (p_alloc P n w); cbn [omap post fst] in *; auto.
    + intros [w sh] L p n H. cbn [inert p_dealloc fst snd] in *. pose proof (ps_dealloc _ _ _ S w L p n H) as K.
      destruct (p_dealloc P p n w); cbn [omap post fst] in *; auto.
  - intros w sh L n H Hn. cbn [inert p_alloc fst snd]. pose proof (ps_alloc _ _ _ S w L n H Hn) as K.
    destruct (p_alloc P n w); cbn [omap post fst snd] in *; auto; apply keeps_refl.
  - intros w sh L p n H. cbn [inert p_dealloc fst snd]. pose proof (ps_dealloc _ _ _ S w L p n H) as K.
    destruct (p_dealloc P p n w); cbn [omap post fst snd] in *; auto; apply keeps_refl.
Qed.

Lemma inert_blind {W} (P : Parent W) : blind (inert P) P.
Proof.
  split.
  - intros n w sh. cbn [inert p_alloc fst snd]. now destruct (p_alloc P n w).
  - intros p n w sh. cbn [inert p_dealloc fst snd]. now destruct (p_dealloc P p n w).
Qed.

Lemma legal_16 l a n : legal l a n = true -> a mod 16 = 0.
Proof. unfold legal. rewrite !andb_true_iff, Z.eqb_eq. tauto. Qed.

Lemma mod16_8 a : a mod 16 = 0 -> a mod 8 = 0.
Proof. intros H. apply Z.mod_divide in H as [k ->]; [|lia]. replace (k * 16) with ((k * 2) * 8) by lia. apply Z.mod_mul. lia. Qed.

Lemma host_alloc_8 n h : match p_alloc host n h with Ok _ p => p mod 8 = 0 | _ => True end.
Proof.
  cbn [host p_alloc]. unfold host_allocate, malloc. destruct (h_oracle h (h_step h) (h_live h) n) as [a|]; [|exact I].
  destruct (legal (h_live h) a (at_least_1 n)) eqn:E; [|exact I]. apply mod16_8, (legal_16 _ _ _ E).
Qed.

Lemma asan_host_ok : SanParent asan_host (M64 - 1) heap_own.
Proof.
  pose proof host_own_spec as S. constructor.
  - constructor.
    + intros [w sh] L L' HP H. exact (ps_perm _ _ _ S w L L' HP H).
    + intros [w sh] L H. exact (ps_good _ _ _ S w L H).
    + intros [w sh] L n H Hn. cbn [asan_host p_alloc fst snd] in *. pose proof (ps_alloc _ _ _ S w L n H Hn) as K.
      destruct (p_alloc host n w); cbn [bind omap post fst] in *; auto.
    + intros [w sh] L p n H. cbn [asan_host p_dealloc fst snd] in *. pose proof (ps_dealloc _ _ _ S w L p n H) as K.
      destruct (p_dealloc host p n w); cbn [bind omap post fst] in *; auto.
  - intros w sh L n H Hn. cbn [asan_host p_alloc fst snd]. pose proof (ps_alloc _ _ _ S w L n H Hn) as K.
    pose proof (host_alloc_8 n w) as K8.
    destruct (p_alloc host n w) as [w' p| | | |]; cbn [bind omap post fst snd] in *; auto; [|apply keeps_refl].
    pose proof (ps_good _ _ _ S _ _ K) as G. intros l a Hl Ha.
    destruct (wf_bounds _ _ (good_mem _ _ G (or_introl eq_refl))) as (B1 & B2 & B3).
    apply unpoison_out; auto. apply (within_disj _ _ _ (good_disj_cons _ _ _ G Hl) Ha).
  - intros w sh L p n H. cbn [asan_host p_dealloc fst snd]. pose proof (ps_dealloc _ _ _ S w L p n H) as K.
    pose proof (ps_good _ _ _ S _ _ H) as G.
    destruct (p_dealloc host p n w) as [w' u| | | |]; cbn [bind omap post fst snd] in *; auto.
    now apply keeps_poison.
Qed.

Lemma asan_host_blind : blind asan_host host.
Proof.
  split.
  - intros n w sh. cbn [asan_host p_alloc fst snd]. now destruct (p_alloc host n w).
  - intros p n w sh. cbn [asan_host p_dealloc fst snd]. now destruct (p_dealloc host p n w).
Qed.

(** With the note the conclusion needs no witness. *)
Lemma note_guarded {W} (Inv : W -> list region -> Prop) w l sh U :
  (exists L, noted Inv (w, l) L /\ covered U L /\ guarded sh U L) -> covered U l /\ guarded sh U l.
Proof.
  intros (L & [_ HP] & HC & HG). cbn [snd] in HP. split.
  - intros u Hu. destruct (HC u Hu) as (x & Hx & Hi). exists x. split; auto. eapply Permutation_in; [apply Permutation_sym, HP|exact Hx].
  - intros x a Hx. apply HG. eapply Permutation_in; eauto.
Qed.

Lemma freed_flagged sh U U' p n l a : good U -> Permutation U ((p, n) :: U') -> guarded sh U' l ->
  within (p, n) a -> (exists r, In r l /\ described r a) -> poisoned sh a = true.
Proof.
  intros HG HP Hg Ha (r & Hr & Hd). apply (Hg r a Hr Hd). intros u Hu Hin.
  pose proof (good_perm _ _ HP HG) as G. apply (within_disj _ _ _ (good_disj_cons _ _ _ G Hu) Hin Ha).
Qed.
