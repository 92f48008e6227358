(** The invariant of the shared memory segment and its preservation. *)
From Coq Require Import String Ascii.
From Verif Require Import Base BaseFacts SegModel SegSpec SegFacts.

Lemma cstr_id n : c_name n -> cstr n = n.
Proof.
  unfold c_name. induction n as [|a n IH]; cbn [list_ascii_of_string In cstr]; [auto|]. intros H.
  destruct (Ascii.eqb a zero) eqn:E; [apply Ascii.eqb_eq in E; exfalso; apply H; now left|]. rewrite IH; [reflexivity|]. intros Hi. apply H. now right.
Qed.
Lemma header_48 : header_size = 48.
Proof. reflexivity. Qed.
Lemma up16_above x : 0 <= x -> x + 16 < M64 -> up16 x = above16 x.
Proof.
  intros Hx Hl. unfold up16, above16, w64. rewrite Z.mod_small by lia. f_equal. replace (x + 16) with (x + 1 * 16) by lia. now rewrite Z.div_add.
Qed.
Lemma above16_gt x : 0 <= x -> x < above16 x <= x + 16.
Proof. intros Hx. unfold above16. pose proof (Z.div_mod x 16). pose proof (Z.mod_pos_bound x 16). lia. Qed.
Lemma above16_mod x : above16 x mod 16 = 0.
Proof. unfold above16. apply Z.mod_mul. lia. Qed.

(** ** Links *)
Lemma relink_free st F1 k x :
  chain (sg_blk st) (sg_free st) F1 k -> NoDup (map fst F1) ->
  exists st', (if negb (last_off F1 =? 0) then change (last_off F1) (with_next x) st else Ok (set_free x st) tt) = Ok st' tt /\
    chain (sg_blk st') (sg_free st') F1 x /\ (forall p, ~ In p (map fst F1) -> sg_blk st' p = sg_blk st p) /\
    sg_used st' = sg_used st /\ sg_size st' = sg_size st /\ sg_actual st' = sg_actual st.
Proof.
  intros H Hd. destruct F1 as [|q F1 _] using rev_ind.
  - rewrite last_off_nil. cbn [Z.eqb negb]. eexists. split; [reflexivity|]. cbn. auto.
  - destruct q as [p d]. rewrite last_off_snoc. assert (Hi : In (p, d) (F1 ++ [(p, d)])) by apply in_elt.
    assert (Hz : p <> 0) by (apply (chain_nz _ _ _ _ p H); apply in_map_iff; now exists (p, d)).
    destruct (p =? 0) eqn:E; [lia|]. cbn [negb]. unfold change. destruct (load_chain st _ _ _ p d H Hi) as (nx & Hl). rewrite Hl. cbn [bind].
    eexists. split; [reflexivity|]. cbn [set_blk sg_blk sg_free sg_used sg_size sg_actual].
    split; [exact (chain_relink _ F1 p d _ k x Hd H)|]. split; [|auto]. intros q Hq. apply fset_neq. intros ->. apply Hq. apply in_map_iff. now exists (p, d).
Qed.
Lemma relink_used st U1 k x :
  chain (sg_blk st) (sg_used st) U1 k -> NoDup (map fst U1) ->
  exists st', (if negb (last_off U1 =? 0) then change (last_off U1) (with_next x) st else Ok (set_used x st) tt) = Ok st' tt /\
    chain (sg_blk st') (sg_used st') U1 x /\ (forall p, ~ In p (map fst U1) -> sg_blk st' p = sg_blk st p) /\
    sg_free st' = sg_free st /\ sg_size st' = sg_size st /\ sg_actual st' = sg_actual st.
Proof.
  intros H Hd. destruct U1 as [|q U1 _] using rev_ind.
  - rewrite last_off_nil. cbn [Z.eqb negb]. eexists. split; [reflexivity|]. cbn. auto.
  - destruct q as [p d]. rewrite last_off_snoc. assert (Hi : In (p, d) (U1 ++ [(p, d)])) by apply in_elt.
    assert (Hz : p <> 0) by (apply (chain_nz _ _ _ _ p H); apply in_map_iff; now exists (p, d)).
    destruct (p =? 0) eqn:E; [lia|]. cbn [negb]. unfold change. destruct (load_chain st _ _ _ p d H Hi) as (nx & Hl). rewrite Hl. cbn [bind].
    eexists. split; [reflexivity|]. cbn [set_blk sg_blk sg_free sg_used sg_size sg_actual].
    split; [exact (chain_relink _ U1 p d _ k x Hd H)|]. split; [|auto]. intros q Hq. apply fset_neq. intros ->. apply Hq. apply in_map_iff. now exists (p, d).
Qed.

(** The data of one block changes, the links stay. *)
Lemma chain_data m l1 o d d' l2 a e nx :
  NoDup (map fst (l1 ++ (o, d) :: l2)) -> chain m a (l1 ++ (o, d) :: l2) e -> m o = Some (with_next nx d) ->
  chain (fset m o (with_next nx d')) a (l1 ++ (o, d') :: l2) e.
Proof.
  intros Hd H Hm. rewrite map_app in Hd. cbn in Hd. pose proof (NoDup_remove_2 _ _ _ Hd) as Hn. apply chain_app in H as (k & A & B). apply chain_app. exists k.
  cbn [chain] in *. destruct B as (-> & Hz & nx' & Hm' & B). rewrite Hm in Hm'. injection Hm' as E.
  split; [apply chain_set_other; [|exact A]; intros Hi; apply Hn, in_or_app; now left|]. split; [reflexivity|]. split; [exact Hz|].
  exists nx. split; [apply fset_eq|]. rewrite E. apply chain_set_other; [|exact B]. intros Hi. apply Hn, in_or_app. now right.
Qed.

(** ** The invariant *)
Definition fsorted (F : list (Z * block)) : Prop := pairwise (fun p q => fst p + b_size (snd p) < fst q) F.

Record rel (p : Z * block) (e : live) : Prop := mkRel {
  r_name : b_name (snd p) = l_name e; r_cname : c_name (l_name e);
  r_off : l_off e = fst p + 48; r_mem : b_mem_off (snd p) = l_off e; r_noff : b_name_off (snd p) = l_off e + above16 (l_req e);
  r_len : l_len e = b_size (snd p); r_refs : l_refs e = b_refs (snd p); r_pos : 0 < l_refs e < M64; r_req : 0 <= l_req e;
  r_need : need (l_name e) (l_req e) <= l_len e
}.

Record sgl (size : Z) (st : segment) (U F : list (Z * block)) : Prop := mkSgl {
  sl_used : chain (sg_blk st) (sg_used st) U 0;
  sl_free : chain (sg_blk st) (sg_free st) F 0;
  sl_tiled : tiled size (map reg (U ++ F));
  sl_sorted : fsorted F;
  sl_al : forall p, In p (U ++ F) -> fst p mod 16 = 0;
  sl_act : sg_actual st = SEG_HDR + sumZ (map (fun p => b_size (snd p)) U);
  sl_size : sg_size st = size
}.
Definition distinct (G : list live) : Prop := pairwise (fun e e' => l_name e <> l_name e') G.
Definition sginv (size : Z) (st : segment) (G : list live) : Prop :=
  exists U F, sgl size st U F /\ Forall2 rel U G /\ distinct G.

Lemma sginv_start size : seg_size_ok size -> sginv size (seg_init size) [].
Proof.
  intros [H1 H2]. exists [], [(SEG_HDR, mkBlock 0 0 0 (size - SEG_HDR) 0 EmptyString)]. unfold seg_init, w64, SEG_HDR, ASP, M64 in *. split; [|split; [constructor|exact I]].
  constructor; cbn [sg_blk sg_used sg_free sg_actual sg_size map app chain snd fst b_size].
  - reflexivity.
  - split; [reflexivity|]. split; [lia|]. exists 0. split; [|reflexivity]. rewrite fset_eq. unfold with_next. cbn [b_next b_name_off b_mem_off b_size b_refs b_name]. rewrite Z.mod_small by lia. reflexivity.
  - constructor.
    + intros r [<-|[]]. unfold reg, BLK_HDR, SEG_HDR. cbn [fst snd b_size]. lia.
    + cbn. split; [intros ? []|exact I].
    + unfold reg, SEG_HDR. cbn [map snd sumZ fst b_size]. lia.
  - cbn. split; [intros ? []|exact I].
  - intros p [<-|[]]. reflexivity.
  - cbn. reflexivity.
  - reflexivity.
Qed.

Section Lists.
  Context (size : Z) (st : segment) (U F : list (Z * block)) (HI : sgl size st U F).

  Lemma sl_nodup : NoDup (map fst (U ++ F)).
  Proof. exact (tiled_offs size (U ++ F) (sl_tiled _ _ _ _ HI)). Qed.
  Lemma sl_nodup_u : NoDup (map fst U).
  Proof. pose proof sl_nodup as H. rewrite map_app in H. clear HI. induction (map fst U) as [|x l IH]; [constructor|]. cbn in H. inversion H; subst. constructor; [|auto]. intros Hi. apply H2, in_or_app. now left. Qed.
  Lemma sl_nodup_f : NoDup (map fst F).
  Proof. pose proof sl_nodup as H. rewrite map_app in H. clear HI. induction (map fst U) as [|x l IH]; [exact H|]. cbn in H. inversion H; subst. auto. Qed.
  Lemma sl_apart p : In p (map fst U) -> ~ In p (map fst F).
  Proof.
    pose proof sl_nodup as H. rewrite map_app in H. intros Hu Hf. apply in_split in Hu as (a & b & E). rewrite E in H. rewrite <- app_assoc in H. cbn in H.
    apply NoDup_remove_2 in H. apply H. apply in_or_app. right. apply in_or_app. now right.
  Qed.
  Lemma sl_in p : In p (U ++ F) -> BLK_HDR <= b_size (snd p) /\ SEG_HDR <= fst p /\ fst p + b_size (snd p) <= size.
  Proof. intros Hi. exact (ti_in _ _ (sl_tiled _ _ _ _ HI) (reg p) (in_map reg _ _ Hi)). Qed.
  Lemma sl_disj p q : In p (U ++ F) -> In q (U ++ F) -> fst p = fst q \/ disj (reg p) (reg q).
  Proof.
    intros Hp Hq. destruct (pairwise_in disj disj_sym _ (reg p) (reg q) (ti_disj _ _ (sl_tiled _ _ _ _ HI)) (in_map reg _ _ Hp) (in_map reg _ _ Hq)) as [E|E]; [|now right].
    left. unfold reg in E. congruence.
  Qed.
  Lemma sl_steps_u : (length U < steps st)%nat.
  Proof.
    pose proof (tiled_len size _ (sl_tiled _ _ _ _ HI)) as H. rewrite map_length, app_length in H. unfold steps. rewrite (sl_size _ _ _ _ HI). lia.
  Qed.
  Lemma sl_steps_f : (length F < steps st)%nat.
  Proof.
    pose proof (tiled_len size _ (sl_tiled _ _ _ _ HI)) as H. rewrite map_length, app_length in H. unfold steps. rewrite (sl_size _ _ _ _ HI). lia.
  Qed.
End Lists.

(** ** Lookup *)
Lemma rel_hit n p e : c_name n -> SEG_HDR <= fst p -> rel p e -> hit n p = named n e.
Proof.
  intros Hn Hp R. unfold hit, named. rewrite (r_name _ _ R), (cstr_id _ (r_cname _ _ R)), (r_noff _ _ R), (r_off _ _ R).
  pose proof (above16_gt (l_req e) (r_req _ _ R)). pose proof (r_req _ _ R). unfold SEG_HDR in Hp. destruct (_ =? 0) eqn:E; [lia|]. cbn [negb andb].
  rewrite String.eqb_sym. reflexivity.
Qed.
Lemma find_rel n U G : c_name n -> (forall p, In p U -> SEG_HDR <= fst p) -> Forall2 rel U G ->
  match find (named n) G with Some e => exists p, find (hit n) U = Some p /\ rel p e /\ In p U | None => find (hit n) U = None end.
Proof.
  intros Hn Hu H. induction H as [|p e U G R H IH]; [reflexivity|]. cbn [find]. rewrite (rel_hit n p e Hn (Hu p (or_introl eq_refl)) R).
  destruct (named n e) eqn:E; [exists p; split; [reflexivity|]; split; [exact R|now left]|].
  specialize (IH (fun q Hq => Hu q (or_intror Hq))). destruct (find (named n) G) as [e'|]; [|exact IH]. destruct IH as (q & A & B & C). exists q. split; [exact A|]. split; [exact B|now right].
Qed.
Lemma find_named n e G : distinct G -> In e G -> l_name e = n -> find (named n) G = Some e.
Proof.
  unfold distinct. induction G as [|a G IH]; [intros _ []|]. cbn [pairwise find]. intros [Ha Hd] Hi En. unfold named at 1. destruct (l_name a =? n)%string eqn:E.
  - apply String.eqb_eq in E. destruct Hi as [->|Hi]; [reflexivity|]. exfalso. apply (Ha e Hi). congruence.
  - destruct Hi as [->|Hi]; [apply String.eqb_neq in E; contradiction|]. now apply IH.
Qed.
Lemma find_not_named n G : (forall e, In e G -> l_name e <> n) -> find (named n) G = None.
Proof.
  intros H. induction G as [|a G IH]; [reflexivity|]. cbn [find]. unfold named at 1. destruct (l_name a =? n)%string eqn:E; [apply String.eqb_eq in E; destruct (H a (or_introl eq_refl) E)|].
  apply IH. intros e He. apply H. now right.
Qed.

Lemma existing_ok size st U F G n : sgl size st U F -> Forall2 rel U G -> c_name n ->
  match find (named n) G with
  | Some e => exists p, find_existing (steps st) (sg_used st) n st = Ok st (fst p) /\ rel p e /\ In p U
  | None => find_existing (steps st) (sg_used st) n st = Ok st 0
  end.
Proof.
  intros I HG Hn. rewrite (find_existing_spec n st U (steps st) (sg_used st) (sl_steps_u _ _ _ _ I) (sl_used _ _ _ _ I)).
  pose proof (find_rel n U G Hn (fun p Hp => proj1 (proj2 (sl_in _ _ _ _ I p (in_or_app _ _ _ (or_introl Hp))))) HG) as H.
  destruct (find (named n) G) as [e|]; [|now rewrite H]. destruct H as (p & -> & R & Hi). now exists p.
Qed.

Lemma find_pointer_ok size st G n : sginv size st G -> c_name n ->
  find_pointer n st = Ok st (match find (named n) G with Some e => l_off e | None => 0 end).
Proof.
  intros (U & F & I & HG & Hd) Hn. unfold find_pointer. pose proof (existing_ok size st U F G n I HG Hn) as H.
  destruct (find (named n) G) as [e|]; [|rewrite H; reflexivity]. destruct H as ([o d] & -> & R & Hi). cbn [bind fst].
  assert (Ho : SEG_HDR <= o) by (apply (sl_in _ _ _ _ I (o, d)), in_or_app; now left). unfold SEG_HDR in Ho. destruct (o =? 0) eqn:E; [lia|]. cbn [negb].
  destruct (load_chain st U _ 0 o d (sl_used _ _ _ _ I) Hi) as (nx & ->). cbn [bind with_next b_mem_off]. f_equal. exact (r_mem _ _ R).
Qed.

Lemma forall2_split {A B} (R : A -> B -> Prop) l m : Forall2 R l m -> forall a, In a l -> exists l1 l2 m1 b m2, l = l1 ++ a :: l2 /\ m = m1 ++ b :: m2 /\ Forall2 R l1 m1 /\ R a b /\ Forall2 R l2 m2.
Proof.
  induction 1 as [|x y l m Hr H IH]; intros a Hi; [destruct Hi|]. destruct Hi as [->|Hi].
  - exists [], l, [], y, m. repeat split; auto.
  - destruct (IH a Hi) as (l1 & l2 & m1 & b & m2 & -> & -> & A1 & A2 & A3). exists (x :: l1), l2, (y :: m1), b, m2. split; [reflexivity|]. split; [reflexivity|]. split; [now constructor|]. auto.
Qed.
Lemma forall2_split_r {A B} (R : A -> B -> Prop) l m : Forall2 R l m -> forall b, In b m -> exists l1 a l2 m1 m2, l = l1 ++ a :: l2 /\ m = m1 ++ b :: m2 /\ Forall2 R l1 m1 /\ R a b /\ Forall2 R l2 m2.
Proof.
  induction 1 as [|x y l m Hr H IH]; intros b Hi; [destruct Hi|]. destruct Hi as [->|Hi].
  - exists [], x, l, [], m. repeat split; auto.
  - destruct (IH b Hi) as (l1 & a & l2 & m1 & m2 & -> & -> & A1 & A2 & A3). exists (x :: l1), a, l2, (y :: m1), m2. split; [reflexivity|]. split; [reflexivity|]. split; [now constructor|]. auto.
Qed.

(** Only one entry is affected. *)
Lemma map_one {A} (f : A -> bool) (g : A -> A) l1 a l2 : f a = true -> (forall x, In x (l1 ++ l2) -> f x = false) ->
  map (fun x => if f x then g x else x) (l1 ++ a :: l2) = l1 ++ g a :: l2.
Proof.
  intros Ha H. rewrite map_app. cbn [map]. rewrite Ha. f_equal; [|f_equal].
  - rewrite <- (map_id l1) at 2. apply map_ext_in. intros x Hx. rewrite H; [reflexivity|]. apply in_or_app. now left.
  - rewrite <- (map_id l2) at 2. apply map_ext_in. intros x Hx. rewrite H; [reflexivity|]. apply in_or_app. now right.
Qed.
Lemma distinct_mid G1 e G2 x : distinct (G1 ++ e :: G2) -> In x (G1 ++ G2) -> l_name x <> l_name e.
Proof.
  unfold distinct. intros H Hx. apply (pairwise_perm _ (fun a b h => not_eq_sym h) _ (e :: G1 ++ G2)) in H; [|symmetry; apply Permutation_middle].
  cbn in H. apply not_eq_sym, (proj1 H x Hx).
Qed.

(** ** Allocation of a name in use *)
Lemma allocate_again size st G n req e :
  sginv size st G -> In e G -> l_name e = n -> l_refs e < M64 - 1 ->
  exists st', allocate_named n req st = Ok st' (l_off e) /\ sg_actual st' = sg_actual st /\ sginv size st' (note_alloc n (l_off e) 0 req G).
Proof.
  intros (U & F & I & HG & Hd) He En Hr. destruct (forall2_split_r rel U G HG e He) as (U1 & [o d] & U2 & G1 & G2 & EU & EG & H1 & R & H2).
  assert (Hn : c_name n) by (rewrite <- En; apply (r_cname _ _ R)).
  pose proof (existing_ok size st U F G n I HG Hn) as H. rewrite (find_named n e G Hd He En) in H. destruct H as ([o' d'] & Hf & R' & Hi). cbn [fst] in Hf.
  assert (o' = o) by (pose proof (r_off _ _ R); pose proof (r_off _ _ R'); cbn [fst] in *; lia). subst o'.
  assert (HiU : In (o, d) U) by (rewrite EU; apply in_elt).
  assert (Ho : SEG_HDR <= o) by (apply (sl_in _ _ _ _ I (o, d)), in_or_app; now left).
  destruct (chain_load _ U _ 0 o d (sl_used _ _ _ _ I) HiU) as (nx & Hm).
  unfold allocate_named. rewrite Hf. cbn [bind]. unfold SEG_HDR in Ho. destruct (o =? 0) eqn:Eo; [lia|]. cbn [negb]. unfold change, load. rewrite Hm. cbn [bind set_blk sg_blk].
  rewrite fset_eq. cbn [bind]. eexists. split; [f_equal; exact (r_mem _ _ R)|]. split; [reflexivity|].
  assert (Hrefs : w64 (b_refs (with_next nx d) + 1) = b_refs d + 1).
  { cbn [with_next b_refs]. pose proof (r_refs _ _ R) as X. pose proof (r_pos _ _ R). cbn [snd] in X. unfold w64. apply Z.mod_small. lia. }
  exists (U1 ++ (o, with_refs (b_refs d + 1) d) :: U2), F. split; [|split].
  - set (d2 := with_refs (b_refs d + 1) d).
    assert (Ereg : map reg (U1 ++ (o, d2) :: U2) = map reg U) by (rewrite EU, !map_app; reflexivity).
    constructor; cbn [set_blk sg_blk sg_used sg_free sg_actual sg_size].
    + replace (with_refs (w64 (b_refs (with_next nx d) + 1)) (with_next nx d)) with (with_next nx d2) by (rewrite Hrefs; reflexivity).
      apply chain_data with (d := d); [rewrite <- EU; exact (sl_nodup_u _ _ _ _ I)|rewrite <- EU; exact (sl_used _ _ _ _ I)|exact Hm].
    + apply chain_set_other; [|exact (sl_free _ _ _ _ I)]. apply (sl_apart _ _ _ _ I). apply in_map_iff. now exists (o, d).
    + rewrite map_app, Ereg, <- map_app. exact (sl_tiled _ _ _ _ I).
    + exact (sl_sorted _ _ _ _ I).
    + intros p Hp. assert (Hq : exists q, In q (U ++ F) /\ fst q = fst p).
      { apply in_app_iff in Hp as [Hp|Hp]; [|exists p; split; [apply in_or_app; now right|reflexivity]].
        apply in_app_iff in Hp as [Hp|[<-|Hp]].
        - exists p. split; [|reflexivity]. rewrite EU. apply in_or_app. left. apply in_or_app. now left.
        - exists (o, d). split; [|reflexivity]. rewrite EU. apply in_or_app. left. apply in_elt.
        - exists p. split; [|reflexivity]. rewrite EU. apply in_or_app. left. apply in_or_app. right. now right. }
      destruct Hq as (q & Hq & <-). exact (sl_al _ _ _ _ I q Hq).
    + rewrite (sl_act _ _ _ _ I), EU, !map_app. reflexivity.
    + exact (sl_size _ _ _ _ I).
  - unfold note_alloc. replace (existsb (named n) G) with true by (symmetry; apply existsb_exists; exists e; split; [exact He|]; unfold named; rewrite En; apply String.eqb_refl).
    rewrite EG, (map_one (named n) count_up G1 e G2).
    + apply Forall2_app; [exact H1|]. constructor; [|exact H2]. destruct R as [A1 A2 A3 A4 A5 A6 A7 A8 A9 A10]. constructor; cbn [count_up l_name l_off l_len l_req l_refs snd fst with_refs b_name b_mem_off b_name_off b_size b_refs] in *; auto; lia.
    + unfold named. rewrite En. apply String.eqb_refl.
    + intros x Hx. unfold named. apply String.eqb_neq. rewrite <- En. rewrite EG in Hd. exact (distinct_mid G1 e G2 x Hd Hx).
  - unfold note_alloc. replace (existsb (named n) G) with true by (symmetry; apply existsb_exists; exists e; split; [exact He|]; unfold named; rewrite En; apply String.eqb_refl).
    unfold distinct. apply pairwise_map. refine (pairwise_impl _ _ _ _ Hd). intros x y _ _. destruct (named n x), (named n y); auto.
Qed.
