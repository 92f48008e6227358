(** The shared memory segment over all histories. *)
From Coq Require Import String Ascii.
From Verif Require Import Base BaseFacts SegModel SegSpec SegFacts SegInv SegOps SegFree.

Lemma sumZ_mid {A} (f : A -> Z) l1 x l2 : sumZ (map f (l1 ++ x :: l2)) = f x + sumZ (map f (l1 ++ l2)).
Proof. rewrite !map_app. cbn [map]. rewrite !sumZ_app. cbn [sumZ]. lia. Qed.

Section Main.
  Context (size : Z) (Hsize : seg_size_ok size).

  Lemma used_sum st U F : sgl size st U F -> 0 <= sumZ (map (fun p => b_size (snd p)) U) <= size - SEG_HDR.
  Proof.
    intros I. pose proof (ti_sum _ _ (sl_tiled _ _ _ _ I)) as H. rewrite !map_map, map_app, sumZ_app in H.
    assert (Hge : forall l, (forall p, In p l -> In p (U ++ F)) -> 0 <= sumZ (map (fun p : Z * block => b_size (snd p)) l)).
    { intros l Hl. apply sumZ_nonneg. intros x Hx. apply in_map_iff in Hx as (q & <- & Hq). destruct (sl_in _ _ _ _ I q (Hl q Hq)) as (X & _). unfold BLK_HDR in X. lia. }
    pose proof (Hge U ltac:(intros; apply in_or_app; now left)). pose proof (Hge F ltac:(intros; apply in_or_app; now right)). unfold reg in H. cbn [snd] in H. lia.
  Qed.

  Lemma filter_refs G : (forall e, In e G -> l_refs e <> 0) -> filter (fun e => negb (l_refs e =? 0)) G = G.
  Proof.
    induction G as [|e G IH]; intros H; [reflexivity|]. cbn [filter]. assert (l_refs e <> 0) by (apply H; now left). destruct (l_refs e =? 0) eqn:E; [lia|]. cbn [negb]. f_equal. apply IH. intros x Hx. apply H. now right.
  Qed.
  Lemma forall2_in_r {A B} (R : A -> B -> Prop) l m b : Forall2 R l m -> In b m -> exists a, In a l /\ R a b.
  Proof. intros H Hb. destruct (forall2_split_r R l m H b Hb) as (l1 & a & l2 & m1 & m2 & -> & _ & _ & HR & _). exists a. split; [apply in_elt|exact HR]. Qed.

  Lemma free_ok st G e :
    sginv size st G -> In e G ->
    exists st', seg_deallocate (l_off e) st = Ok st' tt /\ sginv size st' (note_free (l_off e) G) /\
      sg_actual st' = sg_actual st - (if l_refs e =? 1 then l_len e else 0).
  Proof.
    intros (U & F & I & HG & Hd) He. destruct (forall2_split_r rel U G HG e He) as (U1 & [o d] & U2 & G1 & G2 & EU & EG & H1 & R & H2).
    assert (HiU : In (o, d) U) by (rewrite EU; apply in_elt).
    destruct (sl_in _ _ _ _ I (o, d) ltac:(apply in_or_app; now left)) as (B1 & B2 & B3). cbn [fst snd] in B1, B2, B3. unfold BLK_HDR, SEG_HDR in B1, B2.
    destruct (chain_load _ U _ 0 o d (sl_used _ _ _ _ I) HiU) as (nx & Hm).
    pose proof (r_off _ _ R) as Ro. pose proof (r_refs _ _ R) as Rr. pose proof (r_pos _ _ R) as Rp. pose proof (r_len _ _ R) as Rl. cbn [fst snd] in Ro, Rr, Rl.
    pose proof (sl_nodup_u _ _ _ _ I) as HndU. rewrite EU in HndU.
    assert (HoF : ~ In o (map fst F)) by (apply (sl_apart _ _ _ _ I); apply in_map_iff; now exists (o, d)).
    (* the names *)
    assert (Hoth : forall x, In x (G1 ++ G2) -> at_off (l_off e) x = false).
    { intros x Hx. assert (Hq : exists q, In q (U1 ++ U2) /\ rel q x).
      { apply in_app_iff in Hx as [Hx|Hx]; [destruct (forall2_in_r rel _ _ x H1 Hx) as (q & A & B)|destruct (forall2_in_r rel _ _ x H2 Hx) as (q & A & B)]; exists q; (split; [apply in_or_app; auto|exact B]). }
      destruct Hq as (q & Hq & Rq). unfold at_off. pose proof (r_off _ _ Rq) as Rqo. destruct (l_off x =? l_off e) eqn:E; [|reflexivity]. exfalso.
      rewrite map_app in HndU. cbn [map fst] in HndU. apply NoDup_remove_2 in HndU. apply HndU. rewrite <- map_app. apply in_map_iff. exists q. split; [lia|exact Hq]. }
    assert (Hnz : forall x, In x G -> l_refs x <> 0).
    { intros x Hx. destruct (forall2_in_r rel _ _ x HG Hx) as (q & _ & Rq). pose proof (r_pos _ _ Rq). lia. }
    assert (Enote : note_free (l_off e) G = if l_refs e =? 1 then G1 ++ G2 else G1 ++ count_down e :: G2).
    { unfold note_free. rewrite EG, (map_one (at_off (l_off e)) count_down G1 e G2); [|unfold at_off; apply Z.eqb_refl|exact Hoth].
      rewrite filter_app. cbn [filter count_down l_refs]. rewrite (filter_refs G1), (filter_refs G2);
        [|intros x Hx; apply Hnz; rewrite EG; apply in_or_app; right; now right|intros x Hx; apply Hnz; rewrite EG; apply in_or_app; now left].
      destruct (l_refs e =? 1) eqn:E, (l_refs e - 1 =? 0) eqn:E2; try lia; reflexivity. }
    assert (Hdd : distinct (note_free (l_off e) G)).
    { rewrite Enote. rewrite EG in Hd. unfold distinct in *. destruct (l_refs e =? 1); [exact (pairwise_drop _ _ _ _ Hd)|].
      apply pairwise_app in Hd as (D1 & D2 & D3). apply pairwise_app. split; [exact D1|]. cbn [pairwise count_down l_name] in *. split; [split; [intros y Hy; exact (proj1 D2 y Hy)|apply D2]|].
      intros x y Hx [<-|Hy]; [exact (D3 x e Hx (or_introl eq_refl))|apply D3; [exact Hx|now right]]. }
    assert (Hrefs : w64 (b_refs (with_next nx d) - 1) = l_refs e - 1) by (cbn [with_next b_refs]; unfold w64; rewrite Z.mod_small; lia).
    unfold seg_deallocate. rewrite header_48. replace (l_off e - 48) with o by lia. unfold load at 1. rewrite Hm. cbn [bind]. rewrite Hrefs.
    set (d1 := with_refs (l_refs e - 1) d).
    change (with_refs (l_refs e - 1) (with_next nx d)) with (with_next nx d1). change (b_refs (with_next nx d1)) with (l_refs e - 1).
    assert (HU1 : chain (fset (sg_blk st) o (with_next nx d1)) (sg_used st) (U1 ++ (o, d1) :: U2) 0).
    { apply chain_data with (d := d); [exact HndU|rewrite <- EU; exact (sl_used _ _ _ _ I)|exact Hm]. }
    assert (Hal : forall q, In q (U1 ++ (o, d1) :: U2) -> fst q mod 16 = 0).
    { intros q Hq. assert (Hq2 : exists q', In q' (U ++ F) /\ fst q' = fst q).
      { apply in_app_iff in Hq as [Hq|[<-|Hq]].
        - exists q. split; [|reflexivity]. rewrite EU. apply in_or_app. left. apply in_or_app. now left.
        - exists (o, d). split; [|reflexivity]. rewrite EU. apply in_or_app. left. apply in_elt.
        - exists q. split; [|reflexivity]. rewrite EU. apply in_or_app. left. apply in_or_app. right. now right. }
      destruct Hq2 as (q' & Hq' & <-). exact (sl_al _ _ _ _ I q' Hq'). }
    destruct (l_refs e - 1 =? 0) eqn:Er.
    - assert (Er1 : l_refs e =? 1 = true) by lia. rewrite Er1 in *.
      set (d2 := mkBlock 0 0 0 (b_size d) (l_refs e - 1) (b_name d)).
      match goal with |- context [set_blk o (mkBlock ?a ?b ?c ?x ?y ?z) ?s] => change (mkBlock a b c x y z) with (with_next nx d2); set (st2 := set_blk o (with_next nx d2) s) end.
      assert (HU2 : chain (sg_blk st2) (sg_used st2) (U1 ++ (o, d2) :: U2) 0).
      { cbn [st2 set_blk set_actual sg_blk sg_used]. apply chain_data with (d := d1); [rewrite map_app in *; exact HndU|exact HU1|apply fset_eq]. }
      assert (HF2 : chain (sg_blk st2) (sg_free st2) F 0).
      { cbn [st2 set_blk set_actual sg_blk sg_free]. apply chain_set_other; [exact HoF|]. apply chain_set_other; [exact HoF|]. exact (sl_free _ _ _ _ I). }
      assert (Ht2 : tiled size (map reg ((U1 ++ (o, d2) :: U2) ++ F))).
      { pose proof (sl_tiled _ _ _ _ I) as H. rewrite EU, map_app, map_app in H. rewrite map_app, map_app. exact H. }
      rewrite map_app in HndU. cbn [map fst] in HndU.
      assert (Hpv : find_prev (steps st2) (sg_used st2) (last_off []) o st2 = Ok st2 (last_off ([] ++ U1))).
      { apply (find_prev_spec st2 o d2 U2 (steps st2) U1 [] (sg_used st2)); [|exact HU2|].
        - pose proof (tiled_len size _ Ht2) as H. rewrite map_length, app_length, app_length in H. unfold steps. change (sg_size st2) with (sg_size st). rewrite (sl_size _ _ _ _ I). lia.
        - intros Hi. apply (nodup_apart _ _ o HndU Hi). now left. }
      cbn [app] in Hpv. rewrite last_off_nil in Hpv. rewrite Hpv. cbn [bind].
      destruct (release_ok size st2 U1 o d2 U2 F HU2 HF2 Ht2 (sl_sorted _ _ _ _ I) (sl_size _ _ _ _ I)) as (st' & F' & A1 & A2 & A3 & A4 & A5 & A6 & A7 & A8).
      exists st'. split; [exact A1|].
      assert (Hact : sg_actual st2 = sg_actual st - b_size d).
      { cbn [st2 set_blk set_actual sg_actual]. change (b_size (with_next nx d1)) with (b_size d). pose proof (used_sum st U F I) as Hs. rewrite (sl_act _ _ _ _ I). rewrite EU in *. rewrite (sumZ_mid (fun p => b_size (snd p))) in *. cbn [snd] in *.
        assert (Hge : 0 <= sumZ (map (fun p : Z * block => b_size (snd p)) (U1 ++ U2))).
        { apply sumZ_nonneg. intros x Hx. apply in_map_iff in Hx as (q & <- & Hq). destruct (ti_in _ _ A4 (reg q) ltac:(apply in_map, in_or_app; now left)) as (X & _). unfold BLK_HDR, reg in X. cbn [snd] in X. lia. }
        unfold w64. apply Z.mod_small. unfold SEG_HDR in *. destruct Hsize as [_ S2]. unfold ASP in S2. unfold M64. lia. }
      split; [|rewrite A7, Hact; lia]. rewrite Enote. exists (U1 ++ U2), F'. split; [|split; [now apply Forall2_app|rewrite <- Enote; exact Hdd]].
      constructor; auto.
      + intros q Hq. apply in_app_iff in Hq as [Hq|Hq]; [apply Hal; apply in_app_iff in Hq as [Hq|Hq]; apply in_or_app; [now left|right; now right]|].
        assert (Hq2 : exists q', In q' (U ++ F) /\ fst q' = fst q).
        { destruct (A6 q Hq) as [E|Hi]; [exists (o, d); split; [rewrite EU; apply in_or_app; left; apply in_elt|exact E]|]. apply in_map_iff in Hi as (q' & E & Hi). exists q'. split; [apply in_or_app; now right|exact E]. }
        destruct Hq2 as (q' & Hq' & <-). exact (sl_al _ _ _ _ I q' Hq').
      + rewrite A7, Hact, (sl_act _ _ _ _ I), EU, (sumZ_mid (fun p => b_size (snd p))). cbn [snd]. lia.
      + rewrite A8. exact (sl_size _ _ _ _ I).
    - assert (Er1 : l_refs e =? 1 = false) by lia. rewrite Er1 in *. eexists. split; [reflexivity|]. split; [|cbn [set_blk sg_actual]; lia].
      rewrite Enote. exists (U1 ++ (o, d1) :: U2), F. split; [|split].
      + constructor; cbn [set_blk sg_blk sg_used sg_free sg_actual sg_size].
        * exact HU1.
        * apply chain_set_other; [exact HoF|exact (sl_free _ _ _ _ I)].
        * pose proof (sl_tiled _ _ _ _ I) as H. rewrite EU, map_app, map_app in H. rewrite map_app, map_app. exact H.
        * exact (sl_sorted _ _ _ _ I).
        * intros q Hq. apply in_app_iff in Hq as [Hq|Hq]; [now apply Hal|]. apply (sl_al _ _ _ _ I), in_or_app. now right.
        * rewrite (sl_act _ _ _ _ I), EU, !map_app. reflexivity.
        * exact (sl_size _ _ _ _ I).
      + apply Forall2_app; [exact H1|]. constructor; [|exact H2]. destruct R as [X1 X2 X3 X4 X5 X6 X7 X8 X9 X10].
        constructor; cbn [count_down d1 l_name l_off l_len l_req l_refs snd fst with_refs b_name b_mem_off b_name_off b_size b_refs] in *; auto; lia.
      + rewrite <- Enote. exact Hdd.
  Qed.

  Lemma named_dec n G : (exists e, In e G /\ l_name e = n) \/ (forall e, In e G -> l_name e <> n).
  Proof.
    destruct (existsb (named n) G) eqn:E.
    - left. apply existsb_exists in E as (e & He & E). exists e. split; [exact He|]. now apply String.eqb_eq.
    - right. intros e He En. enough (existsb (named n) G = true) by congruence. apply existsb_exists. exists e. split; [exact He|]. unfold named. rewrite En. apply String.eqb_refl.
  Qed.
  Lemma note_new n p len req G : (forall e, In e G -> l_name e <> n) -> note_alloc n p len req G = mkLive n p len req 1 :: G.
  Proof.
    intros H. unfold note_alloc. replace (existsb (named n) G) with false; [reflexivity|]. symmetry. apply not_true_is_false. intros E. apply existsb_exists in E as (e & He & E).
    apply String.eqb_eq in E. exact (H e He E).
  Qed.
  Lemma note_again n p len len' p' req req' G : (exists e, In e G /\ l_name e = n) -> note_alloc n p len req G = note_alloc n p' len' req' G.
  Proof.
    intros (e & He & En). unfold note_alloc. replace (existsb (named n) G) with true; [reflexivity|]. symmetry. apply existsb_exists. exists e. split; [exact He|]. unfold named. rewrite En. apply String.eqb_refl.
  Qed.

  Lemma seghist_inv st G : seghist size st G -> sginv size st G.
  Proof.
    induction 1 as [|st G n req st' p H IH (A1 & A2 & A3 & A4) Ha|st G n req st' e H IH (A1 & A2 & A3 & A4) Ha|st G p st' H IH (e & He & <-) Ha].
    - exact (sginv_start size Hsize).
    - destruct (named_dec n G) as [(e & He & En)|Hn].
      + destruct (allocate_again size st G n req e IH He En (A4 e He En)) as (s & E & _ & I'). rewrite E in Ha. injection Ha as -> <-.
        rewrite (note_again n _ _ 0 (l_off e) req req G); [exact I'|]. exists e. auto.
      + rewrite (note_new n _ _ _ G Hn). destruct (allocate_new size Hsize st G n req IH A1 A2 A3 Hn) as [[E _]|(s & p0 & len & E & Hac & _ & I')]; rewrite E in Ha; [discriminate|].
        injection Ha as -> ->. replace (sg_actual st' - sg_actual st) with len by lia. exact I'.
    - destruct (named_dec n G) as [(x & Hx & En)|Hn].
      + destruct (allocate_again size st G n req x IH Hx En (A4 x Hx En)) as (s & E & _ & I'). rewrite E in Ha. discriminate.
      + destruct (allocate_new size Hsize st G n req IH A1 A2 A3 Hn) as [[E _]|(s & p0 & len & E & Hac & _ & I')]; rewrite E in Ha; [|discriminate]. injection Ha as <- _. exact IH.
    - destruct (free_ok st G e IH He) as (s & E & I' & _). rewrite E in Ha. injection Ha as ->. exact I'.
  Qed.

  (** ** Consequences *)
  Lemma seg_new st G n req : seghist size st G -> ask_ok G n req -> (forall e, In e G -> l_name e <> n) ->
    allocate_named n req st = Throw st OutOfMemory /\ full size G (need n req) \/
    exists st' p, allocate_named n req st = Ok st' p /\ need n req <= sg_actual st' - sg_actual st < need n req + BLK_HDR.
  Proof.
    intros H (A1 & A2 & A3 & _) Hn. destruct (allocate_new size Hsize st G n req (seghist_inv _ _ H) A1 A2 A3 Hn) as [E|(s & p & len & E & Hac & Hl & _)]; [now left|].
    right. exists s, p. split; [exact E|]. replace (sg_actual s - sg_actual st) with len by lia. exact Hl.
  Qed.
  Lemma seg_again st G n req e : seghist size st G -> ask_ok G n req -> In e G -> l_name e = n ->
    exists st', allocate_named n req st = Ok st' (l_off e) /\ sg_actual st' = sg_actual st.
  Proof.
    intros H (A1 & A2 & A3 & A4) He En. destruct (allocate_again size st G n req e (seghist_inv _ _ H) He En (A4 e He En)) as (s & E & Ha & _). exists s. auto.
  Qed.
  Lemma seg_lookup st G n : seghist size st G -> c_name n ->
    exists p, find_pointer n st = Ok st p /\ (forall e, In e G -> l_name e = n -> p = l_off e) /\ ((forall e, In e G -> l_name e <> n) -> p = 0).
  Proof.
    intros H Hn. pose proof (seghist_inv _ _ H) as I. pose proof (find_pointer_ok size st G n I Hn) as Hf. destruct I as (U & F & I & HG & Hd).
    eexists. split; [exact Hf|]. split.
    - intros e He En. rewrite (find_named n e G Hd He En). reflexivity.
    - intros Hne. rewrite (find_not_named n G Hne). reflexivity.
  Qed.
  Lemma seg_free st G e : seghist size st G -> In e G ->
    exists st', seg_deallocate (l_off e) st = Ok st' tt /\ sg_actual st' = sg_actual st - (if l_refs e =? 1 then l_len e else 0).
  Proof. intros H He. destruct (free_ok st G e (seghist_inv _ _ H) He) as (s & E & _ & A). exists s. auto. Qed.

  Lemma seg_layout st G : seghist size st G ->
    pairwise disj (map l_ext G) /\ pairwise (fun e e' => l_name e <> l_name e') G /\
    forall e, In e G -> SEG_HDR <= fst (l_ext e) /\ fst (l_ext e) + snd (l_ext e) <= size /\ inside (l_mem e) (l_ext e) /\ l_off e mod 16 = 0 /\ 0 < l_refs e.
  Proof.
    intros H. destruct (seghist_inv _ _ H) as (U & F & I & HG & Hd). split; [|split; [exact Hd|]].
    - replace (map l_ext G) with (map reg U).
      + pose proof (ti_disj _ _ (sl_tiled _ _ _ _ I)) as Hp. rewrite map_app in Hp. now apply pairwise_app in Hp as (Hp & _).
      + clear - HG. induction HG as [|p e U G R _ IH]; [reflexivity|]. cbn [map]. rewrite IH. f_equal. unfold reg, l_ext. rewrite (r_off _ _ R), (r_len _ _ R). f_equal. lia.
    - intros e He. destruct (forall2_in_r rel U G e HG He) as (q & Hq & R). destruct (sl_in _ _ _ _ I q ltac:(apply in_or_app; now left)) as (B1 & B2 & B3).
      pose proof (sl_al _ _ _ _ I q ltac:(apply in_or_app; now left)) as Ha. destruct R as [X1 X2 X3 X4 X5 X6 X7 X8 X9 X10]. unfold l_ext, l_mem, inside, SEG_HDR, BLK_HDR in *. cbn [fst snd].
      split; [lia|]. split; [lia|]. split; [|split; [|lia]].
      + unfold need in X10. pose proof (above16_gt (l_req e) X9). pose proof (above16_gt (Z.of_nat (String.length (l_name e)) + 1) ltac:(lia)). lia.
      + rewrite X3. rewrite Z.add_mod by lia. rewrite Ha. reflexivity.
  Qed.
  Lemma seg_names st G e : seghist size st G -> In e G ->
    exists b, sg_blk st (l_off e - 48) = Some b /\ b_name b = l_name e /\ inside (b_name_off b, Z.of_nat (String.length (l_name e)) + 1) (l_ext e) /\
      l_off e + l_req e <= b_name_off b.
  Proof.
    intros H He. destruct (seghist_inv _ _ H) as (U & F & I & HG & _). destruct (forall2_in_r rel U G e HG He) as ([o d] & Hq & R).
    destruct (chain_load _ U _ 0 o d (sl_used _ _ _ _ I) Hq) as (nx & Hm). destruct R as [X1 X2 X3 X4 X5 X6 X7 X8 X9 X10]. cbn [fst snd] in *.
    exists (with_next nx d). replace (l_off e - 48) with o by lia. split; [exact Hm|]. split; [exact X1|]. change (b_name_off (with_next nx d)) with (b_name_off d). rewrite X5.
    unfold need in X10. pose proof (above16_gt (l_req e) X9). pose proof (above16_gt (Z.of_nat (String.length (l_name e)) + 1) ltac:(lia)). unfold inside, l_ext. cbn [fst snd]. lia.
  Qed.
  Lemma seg_actual st G : seghist size st G -> sg_actual st = SEG_HDR + sumZ (map l_len G).
  Proof.
    intros H. destruct (seghist_inv _ _ H) as (U & F & I & HG & _). rewrite (sl_act _ _ _ _ I). f_equal. f_equal. clear - HG.
    induction HG as [|p e U G R _ IH]; [reflexivity|]. cbn [map]. rewrite IH. f_equal. symmetry. exact (r_len _ _ R).
  Qed.
  Lemma seg_empty st n req : seghist size st [] -> ask_ok [] n req -> need n req <= size - SEG_HDR -> exists st' p, allocate_named n req st = Ok st' p.
  Proof.
    intros H Ha Hn. destruct (seg_new st [] n req H Ha (fun e He => match He with end)) as [[_ Hf]|(s & p & E & _)]; [|now exists s, p].
    exfalso. destruct (Hf SEG_HDR (Z.le_refl _) ltac:(lia)) as (e & [] & _).
  Qed.
End Main.
