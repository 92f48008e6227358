(** What AddressSanitizer's two calls do byte by byte, and the effect of a pool's steps on the shadow. *)
From Verif Require Import Base BaseFacts StratModel StratFacts AlignedModel AlignedFacts QuickPoolModel QuickPoolInv
  QuickPoolFacts QuickPoolOps QuickPoolFree QuickPoolMain QuickPoolStratFacts DynPoolModel SanModel SanSpec.

Lemma poisoned_iff sh a : poisoned sh a = true <-> sh (a / 8) <> 0 /\ sh (a / 8) <= a mod 8.
Proof.
  unfold poisoned. rewrite andb_true_iff, negb_true_iff, Z.eqb_neq, Z.leb_le. tauto.
Qed.

Lemma bool_eq_iff (b c : bool) : (b = true <-> c = true) -> b = c.
Proof. destruct b, c; intuition congruence. Qed.

Ltac dm a := let H := fresh in pose proof (Z.div_mod a 8 ltac:(lia)) as H; pose proof (Z.mod_pos_bound a 8 ltac:(lia)).

Ltac cases :=
  repeat match goal with
  | |- context [?a =? ?b] => destruct (Z.eqb_spec a b); cbn [andb negb]
  | |- context [?a <? ?b] => destruct (Z.ltb_spec a b); cbn [andb negb]
  | |- context [?a <=? ?b] => destruct (Z.leb_spec a b); cbn [andb negb]
  end.

Section Calls.
  Context (beg size : Z) (sh : shadow).
  Hypothesis Hb : 0 <= beg.
  Hypothesis Hs : 0 < size.
  Hypothesis He : beg + size < M64.

  Lemma poison_out a : ~ (beg <= a < beg + size) -> poisoned (asan_poison beg size sh) a = poisoned sh a.
  Proof.
    intros Ha. apply bool_eq_iff. rewrite !poisoned_iff. unfold asan_poison.
    destruct (Z.eqb_spec size 0) as [|_]; [lia|]. rewrite w64_small by lia.
    dm a. dm beg. dm (beg + size). cbv zeta. unfold sh_set, sh_fill, MAGIC.
    set (ga := a / 8) in *. set (oa := a mod 8) in *. set (gb := beg / 8) in *. set (ob := beg mod 8) in *.
    set (ge := (beg + size) / 8) in *. set (oe := (beg + size) mod 8) in *. clearbody ga oa gb ob ge oe.
    destruct (Z.eqb_spec gb ge) as [->|].
    - cases; try tauto; try lia; subst; try lia.
    - cases; try lia; try tauto; subst; try lia.
  Qed.

  Lemma poison_in a : beg <= a -> 8 * (a / 8) + 8 <= beg + size -> poisoned (asan_poison beg size sh) a = true.
  Proof.
    intros Ha1 Ha2. rewrite !poisoned_iff. unfold asan_poison.
    destruct (Z.eqb_spec size 0) as [|_]; [lia|]. rewrite w64_small by lia.
    dm a. dm beg. dm (beg + size). cbv zeta. unfold sh_set, sh_fill, MAGIC.
    set (ga := a / 8) in *. set (oa := a mod 8) in *. set (gb := beg / 8) in *. set (ob := beg mod 8) in *.
    set (ge := (beg + size) / 8) in *. set (oe := (beg + size) mod 8) in *. clearbody ga oa gb ob ge oe.
    destruct (Z.eqb_spec gb ge) as [->|]; [lia|].
    cases; try lia; subst; try lia.
  Qed.

  Lemma unpoison_in a : beg <= a < beg + size -> poisoned (asan_unpoison beg size sh) a = false.
  Proof.
    intros Ha. apply not_true_is_false. rewrite poisoned_iff. unfold asan_unpoison.
    destruct (Z.eqb_spec size 0) as [|_]; [lia|]. rewrite w64_small by lia.
    dm a. dm beg. dm (beg + size). cbv zeta. unfold sh_set, sh_fill, MAGIC.
    set (ga := a / 8) in *. set (oa := a mod 8) in *. set (gb := beg / 8) in *. set (ob := beg mod 8) in *.
    set (ge := (beg + size) / 8) in *. set (oe := (beg + size) mod 8) in *. clearbody ga oa gb ob ge oe.
    destruct (Z.eqb_spec gb ge) as [->|].
    - assert (ga = ge) as -> by lia. cases; try lia.
    - cases; try lia; subst; try lia; intros [? ?]; try lia; assert (ga = ge) as -> by lia; contradiction.
  Qed.

  Lemma unpoison_mono a : poisoned (asan_unpoison beg size sh) a = true -> poisoned sh a = true.
  Proof.
    rewrite !poisoned_iff. unfold asan_unpoison.
    destruct (Z.eqb_spec size 0) as [|_]; [lia|]. rewrite w64_small by lia.
    dm a. dm beg. dm (beg + size). cbv zeta. unfold sh_set, sh_fill, MAGIC.
    set (ga := a / 8) in *. set (oa := a mod 8) in *. set (gb := beg / 8) in *. set (ob := beg mod 8) in *.
    set (ge := (beg + size) / 8) in *. set (oe := (beg + size) mod 8) in *. clearbody ga oa gb ob ge oe.
    destruct (Z.eqb_spec gb ge) as [->|].
    - cases; try lia; subst; lia.
    - cases; try lia; subst; lia.
  Qed.

  Lemma unpoison_out a : beg mod 8 = 0 -> ~ (beg <= a < beg + size) ->
    poisoned (asan_unpoison beg size sh) a = poisoned sh a.
  Proof.
    intros Hm Ha. apply bool_eq_iff. split; [apply unpoison_mono|]. rewrite !poisoned_iff. unfold asan_unpoison.
    destruct (Z.eqb_spec size 0) as [|_]; [lia|]. rewrite w64_small by lia.
    dm a. dm beg. dm (beg + size). cbv zeta. unfold sh_set, sh_fill, MAGIC.
    set (ga := a / 8) in *. set (oa := a mod 8) in *. set (gb := beg / 8) in *. set (ob := beg mod 8) in *.
    set (ge := (beg + size) / 8) in *. set (oe := (beg + size) mod 8) in *. clearbody ga oa gb ob ge oe.
    destruct (Z.eqb_spec gb ge) as [->|].
    - cases; try lia; subst; lia.
    - cases; try lia; subst; lia.
  Qed.
End Calls.

(** ** Steps on a pool's shadow *)

Lemma keeps_trans3 L L' sh1 sh2 sh3 : incl L' L -> sh_keeps L sh1 sh2 -> sh_keeps L' sh2 sh3 -> sh_keeps L' sh1 sh3.
Proof. intros Hi H1 H2 l a Hl Ha. rewrite (H2 l a Hl Ha). apply (H1 l a); auto. Qed.
Lemma keeps_refl L sh : sh_keeps L sh sh.
Proof. intros l a _ _. reflexivity. Qed.
Lemma keeps_incl L L' sh sh' : incl L' L -> sh_keeps L sh sh' -> sh_keeps L' sh sh'.
Proof. intros Hi H l a Hl Ha. apply (H l a); auto. Qed.
Lemma described_within l a : described l a -> within l a.
Proof. intros [H1 H2]. dm a. unfold within. lia. Qed.

Lemma guarded_shrink sh sh' U L L' : incl L' L -> sh_keeps L' sh sh' -> guarded sh U L -> guarded sh' U L'.
Proof.
  intros Hi Hk Hg l a Hl Hd Hn. rewrite (Hk l a Hl (described_within _ _ Hd)). apply (Hg l a); auto.
Qed.

Lemma good_mem L r : good L -> In r L -> wf_region r.
Proof. intros [H _] Hi. auto. Qed.

Lemma good_disj_cons r L l : good (r :: L) -> In l L -> disj r l.
Proof. intros [_ H] Hl. cbn [pairwise] in H. destruct H as [H _]. auto. Qed.

Lemma within_disj r l a : disj r l -> within l a -> ~ within r a.
Proof. unfold disj, within. lia. Qed.

Lemma wf_bounds p n : wf_region (p, n) -> 0 <= p /\ 0 < n /\ p + n < M64.
Proof. unfold wf_region. cbn [fst snd]. unfold ASP, M64. lia. Qed.

Lemma guarded_grow sh U L p n : good ((p, n) :: L) -> guarded sh U L -> guarded (asan_poison p n sh) U ((p, n) :: L).
Proof.
  intros Hg H l a Hl Hd Hn. destruct (wf_bounds _ _ (good_mem _ _ Hg (or_introl eq_refl))) as (B1 & B2 & B3).
  destruct Hl as [<-|Hl].
  - destruct Hd as [D1 D2]. cbn [fst snd] in *. apply poison_in; auto.
  - rewrite poison_out; auto; [apply (H l a); auto|].
    apply (within_disj _ _ _ (good_disj_cons _ _ _ Hg Hl) (described_within _ _ Hd)).
Qed.

Lemma keeps_poison sh L p n : good ((p, n) :: L) -> sh_keeps L sh (asan_poison p n sh).
Proof.
  intros Hg l a Hl Ha. destruct (wf_bounds _ _ (good_mem _ _ Hg (or_introl eq_refl))) as (B1 & B2 & B3).
  apply poison_out; auto. apply (within_disj _ _ _ (good_disj_cons _ _ _ Hg Hl) Ha).
Qed.

Lemma guarded_unpoison sh U L p n : 0 <= p -> 0 < n -> p + n < M64 -> p mod 8 = 0 ->
  guarded sh U L -> guarded (asan_unpoison p n sh) ((p, n) :: U) L.
Proof.
  intros B1 B2 B3 Hm H l a Hl Hd Hn. rewrite unpoison_out; auto.
  - apply (H l a); auto. intros u Hu. apply Hn. simpl; auto.
  - apply (Hn (p, n)). simpl; auto.
Qed.

Lemma guarded_poison sh U U' L p n c : 0 <= p -> 0 < n <= c -> p + c < M64 -> p mod 8 = 0 -> c mod 8 = 0 ->
  Permutation ((p, n) :: U') U -> guarded sh U L -> guarded (asan_poison p c sh) U' L.
Proof.
  intros B1 B2 B3 Hm Hc HP H l a Hl Hd Hn.
  destruct (Z_lt_dec a p) as [Hlt|Hge]; [|destruct (Z_lt_dec a (p + c)) as [Hlt|Hge2]].
  2:{ apply poison_in; auto; dm a; dm p; dm c; lia. }
  all: rewrite poison_out; auto; try lia; apply (H l a); auto; intros u Hu;
    eapply Permutation_in in Hu; [|apply Permutation_sym, HP]; destruct Hu as [<-|Hu]; auto;
    unfold within; cbn [fst snd]; lia.
Qed.

(** How an operation changes the shadow: [stays]: nothing is poisoned that was not; [strong]: nor the other way round. *)
Definition stays (strong : Prop) (U : list region) (sh sh' : shadow) : Prop :=
  forall u a, In u U -> within u a ->
    (poisoned sh' a = true -> poisoned sh a = true) /\ (strong -> poisoned sh a = true -> poisoned sh' a = true).

Lemma stays_refl S U sh : stays S U sh sh.
Proof. intros u a _ _. auto. Qed.
Lemma stays_trans S U sh1 sh2 sh3 : stays S U sh1 sh2 -> stays S U sh2 sh3 -> stays S U sh1 sh3.
Proof. intros H1 H2 u a Hu Ha. destruct (H1 u a Hu Ha), (H2 u a Hu Ha). auto. Qed.
Lemma stays_incl S U U' sh sh' : incl U' U -> stays S U sh sh' -> stays S U' sh sh'.
Proof. intros Hi H u a Hu Ha. apply (H u a); auto. Qed.
Lemma stays_keeps S U L sh sh' : covered U L -> sh_keeps L sh sh' -> stays S U sh sh'.
Proof.
  intros Hc Hk u a Hu Ha. destruct (Hc u Hu) as (l & Hl & Hi).
  rewrite (Hk l a Hl); [auto|]. unfold inside, within in *. lia.
Qed.

Lemma stays_unpoison (S : Prop) U sh p n : 0 <= p -> 0 < n -> p + n < M64 -> (S -> p mod 8 = 0) ->
  good ((p, n) :: U) -> stays S U sh (asan_unpoison p n sh).
Proof.
  intros B1 B2 B3 Hm Hg u a Hu Ha. split; [apply unpoison_mono; auto|].
  intros HS Hp. rewrite unpoison_out; auto. apply (within_disj _ _ _ (good_disj_cons _ _ _ Hg Hu) Ha).
Qed.

Lemma stays_poison S U sh p c : 0 <= p -> 0 < c -> p + c < M64 -> (forall u, In u U -> disj (p, c) u) ->
  stays S U sh (asan_poison p c sh).
Proof.
  intros B1 B2 B3 Hd u a Hu Ha. rewrite poison_out; auto. apply (within_disj _ _ _ (Hd u Hu) Ha).
Qed.

(** The memory a pool holds before and after obtaining a block, and the shadow. *)
Definition grows (L L' : list region) (sh sh' : shadow) : Prop :=
  exists L1, incl L1 L /\
    ((Permutation L' L1 /\ sh_keeps L1 sh sh') \/
     (exists p t sh1, Permutation L' ((p, t) :: L1) /\ good ((p, t) :: L1) /\ sh_keeps L1 sh sh1 /\ sh' = asan_poison p t sh1)).

Lemma grows_guarded U L L' sh sh' : grows L L' sh sh' -> guarded sh U L -> guarded sh' U L'.
Proof.
  intros (L1 & Hi & [[HP Hk]|(p & t & sh1 & HP & Hg & Hk & ->)]) H.
  - pose proof (guarded_shrink sh sh' U L L1 Hi Hk H) as H1. intros l a Hl. apply H1. eapply Permutation_in; eauto.
  - pose proof (guarded_shrink sh sh1 U L L1 Hi Hk H) as H1.
    pose proof (guarded_grow sh1 U L1 p t Hg H1) as H2. intros l a Hl. apply H2. eapply Permutation_in; eauto.
Qed.

(** ** Facts about the blocks of either pool *)

Section Blocks.
  Context (A : Z) (B : list blk).
  Hypothesis Hok : forall b, In b B -> blk_ok A b.
  Hypothesis Hgood : good (map b_held B).

  (** A live allocation lies in a block that cannot be given back. *)
  Lemma live_block u : In u (uregs B) -> exists b, In b B /\ b_rel b = false /\ inside u (b_held b).
  Proof.
    intros Hu. unfold uregs in Hu. apply in_map_iff in Hu as (x & <- & Hx). apply filter_In in Hx as [Hx Hu].
    apply in_cells in Hx as (b & Hb & Hx). exists b. split; [exact Hb|].
    assert (Hr : is_rel x = false) by (unfold is_used in Hu; unfold is_rel; destruct (k_st x); auto; discriminate).
    split.
    - unfold b_rel. destruct (b_cells b) as [|y [|z t]]; auto. destruct Hx as [->|[]]. exact Hr.
    - pose proof (cell_in_held A b x (Hok b Hb) Hx) as Hi.
      destruct (bo_cells _ _ (Hok b Hb) x Hx) as (C1 & C2 & C3).
      unfold is_used in Hu. unfold inside, cell_region, cell_alloc, cell_req in *.
      destruct (k_st x); try discriminate. cbn [fst snd] in *. lia.
  Qed.

  Lemma live_covered_kept B1 : Permutation B (rel_blocks B ++ B1) -> covered (uregs B) (map b_held B1).
  Proof.
    intros HP u Hu. destruct (live_block u Hu) as (b & Hb & Hr & Hi). exists (b_held b). split; auto. apply in_map.
    eapply Permutation_in in Hb; [|exact HP]. apply in_app_or in Hb as [Hb|Hb]; auto.
    apply filter_In in Hb as [_ Hb]. congruence.
  Qed.

  Lemma live_covered : covered (uregs B) (map b_held B).
  Proof. intros u Hu. destruct (live_block u Hu) as (b & Hb & _ & Hi). exists (b_held b). split; auto. now apply in_map. Qed.

  (** The fragment behind a live allocation. *)
  Lemma live_cell p n : In (p, n) (uregs B) ->
    exists x, In x (cells B) /\ k_data x = p /\ k_st x = SUsed n /\ 0 <= p /\ 0 < n <= k_size x /\ p + k_size x < M64 /\
      p mod A = 0 /\ k_size x = aligned_round_up A n /\
      (forall U', Permutation ((p, n) :: U') (uregs B) -> forall u, In u U' -> disj (p, k_size x) u).
  Proof.
    intros Hu. apply uregs_in in Hu as (x & Hx & Hd & Hs). exists x.
    pose proof Hx as Hx0. apply in_cells in Hx0 as (b & Hb & Hxb).
    destruct (bo_cells _ _ (Hok b Hb) x Hxb) as (C1 & C2 & C3). rewrite Hs in C3.
    pose proof (cell_in_held A b x (Hok b Hb) Hxb) as Hi.
    pose proof (good_mem _ _ Hgood (in_map b_held _ _ Hb)) as Hw. destruct (b_held b) as [q m] eqn:Eb.
    destruct (wf_bounds _ _ Hw) as (W1 & W2 & W3). unfold inside, cell_region in Hi. cbn [fst snd] in Hi.
    split; [exact Hx|]. split; [exact Hd|]. split; [exact Hs|]. split; [lia|]. split; [lia|]. split; [lia|].
    split; [congruence|]. split; [tauto|].
    intros U' HP u Hu'.
    pose proof (cells_disj A B Hok Hgood) as HD.
    destruct (in_split _ _ Hx) as (c1 & c2 & E).
    assert (HC : Permutation (cells B) (x :: c1 ++ c2)) by (rewrite E; apply Permutation_sym, Permutation_middle).
    eapply pairwise_perm in HD; [|apply disj_sym|apply (Permutation_map cell_region HC)].
    cbn [map pairwise] in HD. destruct HD as [HD _].
    assert (HU' : Permutation U' (map cell_alloc (filter is_used (c1 ++ c2)))).
    { apply Permutation_cons_inv with (a := (p, n)). rewrite HP. unfold uregs.
      rewrite (Permutation_map cell_alloc (Permutation_filter is_used _ _ HC)). cbn [filter].
      replace (is_used x) with true by (unfold is_used; now rewrite Hs). cbn [map].
      replace (cell_alloc x) with (p, n) by (unfold cell_alloc, cell_req; now rewrite Hs, Hd). reflexivity. }
    eapply Permutation_in in Hu'; [|exact HU']. apply in_map_iff in Hu' as (y & <- & Hy).
    apply filter_In in Hy as [Hy Hyu]. specialize (HD _ (in_map cell_region _ _ Hy)).
    assert (Hyc : In y (cells B)) by (eapply Permutation_in; [apply Permutation_sym, HC|simpl; auto]).
    apply in_cells in Hyc as (b' & Hb' & Hyb). destruct (bo_cells _ _ (Hok b' Hb') y Hyb) as (D1 & D2 & D3).
    unfold is_used in Hyu. unfold disj, cell_region, cell_alloc, cell_req in *. cbn [fst snd] in *.
    destruct (k_st y); try discriminate. lia.
  Qed.
End Blocks.

Lemma align8_round A n : 0 < A -> A mod 8 = 0 -> 0 < n -> n + A < M64 -> aligned_round_up A n mod 8 = 0.
Proof.
  intros HA H8 Hn Hl. pose proof (aligned_round_up_spec A n HA Hn ltac:(lia)) as H. cbv zeta in H. destruct H as [_ H].
  apply Z.mod_divide in H; [|lia]. apply Z.mod_divide in H8; [|lia]. apply Z.mod_divide; [lia|]. eapply Z.divide_trans; eauto.
Qed.
Lemma align8_ptr A p : 0 < A -> A mod 8 = 0 -> p mod A = 0 -> p mod 8 = 0.
Proof.
  intros HA H8 H. apply Z.mod_divide in H; [|lia]. apply Z.mod_divide in H8; [|lia]. apply Z.mod_divide; [lia|]. eapply Z.divide_trans; eauto.
Qed.
