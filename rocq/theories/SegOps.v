(** Allocation of a new name in the shared memory segment, and deallocation. *)
From Coq Require Import String Ascii.
From Verif Require Import Base BaseFacts SegModel SegSpec SegFacts SegInv.

Lemma nodup_app_l {A} (l1 l2 : list A) : NoDup (l1 ++ l2) -> NoDup l1.
Proof. induction l1 as [|x l1 IH]; intros H; [constructor|]. cbn in H. inversion H; subst. constructor; [|auto]. intros Hi. apply H2, in_or_app. now left. Qed.
Lemma nodup_apart {A} (l1 l2 : list A) x : NoDup (l1 ++ l2) -> In x l1 -> ~ In x l2.
Proof.
  intros H Hi Hj. apply in_split in Hi as (a & b & ->). rewrite <- app_assoc in H. cbn in H. apply NoDup_remove_2 in H. apply H.
  apply in_or_app. right. apply in_or_app. now right.
Qed.
Lemma pairwise_drop {A} (R : A -> A -> Prop) l1 x l2 : pairwise R (l1 ++ x :: l2) -> pairwise R (l1 ++ l2).
Proof.
  intros H. apply pairwise_app in H as (A1 & A2 & A3). cbn in A2. apply pairwise_app. split; [exact A1|]. split; [apply A2|]. intros a b Ha Hb. apply A3; [exact Ha|now right].
Qed.

Section Ops.
  Context (size : Z) (Hsize : seg_size_ok size).

  Lemma split_ok st U F1 o b F2 n :
    sgl size st U (F1 ++ (o, b) :: F2) -> BLK_HDR <= n -> n <= b_size b -> n mod 16 = 0 ->
    exists st' b' R nx, split_block o (last_off F1) n st = Ok st' tt /\
      sg_blk st' o = Some (with_next nx b') /\ n <= b_size b' < n + BLK_HDR /\
      chain (sg_blk st') (sg_free st') (F1 ++ R ++ F2) 0 /\ chain (sg_blk st') (sg_used st) U 0 /\
      sg_used st' = sg_used st /\ sg_actual st' = sg_actual st /\ sg_size st' = sg_size st /\
      tiled size (map reg ((o, b') :: U ++ F1 ++ R ++ F2)) /\ fsorted (F1 ++ R ++ F2) /\ (forall p, In p R -> fst p mod 16 = 0).
  Proof.
    intros I Hn Hb Hal. pose proof (sl_free _ _ _ _ I) as HF. apply chain_app in HF as (k & HF1 & HF). cbn [chain] in HF. destruct HF as (-> & Hz & nx & Hm & HF2).
    pose proof (sl_nodup_f _ _ _ _ I) as Hnd. rewrite map_app in Hnd. cbn [map fst] in Hnd.
    assert (Hin : In (o, b) (U ++ F1 ++ (o, b) :: F2)) by (apply in_or_app; right; apply in_elt).
    destruct (sl_in _ _ _ _ I (o, b) Hin) as (B1 & B2 & B3). cbn [fst snd] in B1, B2, B3.
    assert (HoU : ~ In o (map fst U)).
    { intros Hi. apply (sl_apart _ _ _ _ I o Hi). rewrite map_app. apply in_elt. }
    assert (HoF1 : ~ In o (map fst F1)) by (intros Hi; apply (nodup_apart _ _ o Hnd Hi); now left).
    assert (HoF2 : ~ In o (map fst F2)) by (apply NoDup_remove_2 in Hnd; intros Hi; apply Hnd, in_or_app; now right).
    assert (HF12 : forall p, In p (map fst F1) -> ~ In p (map fst F2)) by (intros p Hp Hq; apply (nodup_apart _ _ p Hnd Hp); now right).
    assert (HUF1 : forall p, In p (map fst F1) -> ~ In p (map fst U)).
    { intros p Hp Hq. apply (sl_apart _ _ _ _ I p Hq). rewrite map_app. apply in_or_app. now left. }
    assert (Hp : Permutation (U ++ F1 ++ (o, b) :: F2) ((o, b) :: U ++ F1 ++ F2)).
    { rewrite !app_assoc. symmetry. apply Permutation_middle. }
    pose proof (tiled_perm size _ _ (Permutation_map reg Hp) (sl_tiled _ _ _ _ I)) as Ht.
    destruct Hsize as [S1 S2]. unfold ASP, SEG_HDR, BLK_HDR in *.
    assert (Hw : w64 (b_size b - n) = b_size b - n) by (unfold w64, M64; apply Z.mod_small; lia).
    unfold split_block, load. rewrite Hm. cbn [bind]. change (b_size (with_next nx b)) with (b_size b). rewrite Hw. change (b_next (with_next nx b)) with nx.
    unfold BLK_HDR. destruct ((b_size b =? n) || (b_size b - n <? 40)) eqn:Ek; cbn [bind].
    - destruct (relink_free st F1 o nx HF1 (nodup_app_l _ _ Hnd)) as (st' & -> & C1 & C2 & C3 & C4 & C5).
      exists st', b, [], nx. cbn [app]. split; [reflexivity|]. split; [rewrite C2; assumption|]. split; [lia|].
      split. { apply chain_app. exists nx. split; [exact C1|]. apply (chain_frame (sg_blk st)); [|exact HF2]. intros p Hp2. apply C2. intros Hp1. exact (HF12 p Hp1 Hp2). }
      split. { apply (chain_frame (sg_blk st)); [|exact (sl_used _ _ _ _ I)]. intros p Hp2. apply C2. intros Hp1. exact (HUF1 p Hp1 Hp2). }
      split; [exact C3|]. split; [exact C5|]. split; [exact C4|]. split; [exact Ht|]. split; [|intros p []]. exact (pairwise_drop _ _ _ _ (sl_sorted _ _ _ _ I)).
    - set (nb := o + n).
      assert (Hnb : forall p, In p (U ++ F1 ++ (o, b) :: F2) -> fst p <> nb).
      { intros p Hpi Hc. destruct (sl_in _ _ _ _ I p Hpi) as (P1 & _). unfold BLK_HDR in P1. destruct (sl_disj _ _ _ _ I p (o, b) Hpi Hin) as [E|E]; [cbn in E; lia|].
        unfold disj, reg in E. cbn [fst snd] in E. lia. }
      assert (HnU : ~ In nb (map fst U)).
      { intros Hi. apply in_map_iff in Hi as (p & E & Hi). apply (Hnb p); [apply in_or_app; now left|exact E]. }
      assert (HnF : ~ In nb (map fst (F1 ++ (o, b) :: F2))).
      { intros Hi. apply in_map_iff in Hi as (p & E & Hi). apply (Hnb p); [apply in_or_app; now right|exact E]. }
      assert (HnF1 : ~ In nb (map fst F1)) by (intros Hi; apply HnF; rewrite map_app; apply in_or_app; now left).
      assert (HnF2 : ~ In nb (map fst F2)) by (intros Hi; apply HnF; rewrite map_app; apply in_or_app; right; now right).
      set (NB := mkBlock nx 0 0 (b_size b - n) 0 EmptyString).
      set (st1 := set_blk o (with_size n (with_next nx b)) (set_blk nb NB st)).
      assert (G1 : chain (sg_blk st1) (sg_free st1) F1 o).
      { cbn [st1 set_blk sg_blk sg_free]. apply chain_set_other; [exact HoF1|]. apply chain_set_other; [exact HnF1|]. exact HF1. }
      destruct (relink_free st1 F1 o nb G1 (nodup_app_l _ _ Hnd)) as (st' & -> & C1 & C2 & C3 & C4 & C5).
      assert (Hst1 : forall p, p <> o -> p <> nb -> sg_blk st1 p = sg_blk st p).
      { intros p E1 E2. cbn [st1 set_blk sg_blk]. now rewrite !fset_neq. }
      assert (Hno : nb <> o) by (subst nb; lia).
      exists st', (with_size n b), [(nb, bare NB)], nx. split; [reflexivity|].
      split; [rewrite (C2 o HoF1); cbn [st1 set_blk sg_blk]; rewrite fset_eq; reflexivity|]. split; [cbn [with_size b_size]; lia|].
      split. { apply chain_app. exists nb. split; [exact C1|]. cbn [app chain]. split; [reflexivity|]. split; [unfold nb; lia|]. exists nx.
               split; [rewrite (C2 nb HnF1); cbn [st1 set_blk sg_blk]; rewrite fset_neq by exact Hno; rewrite fset_eq; reflexivity|].
               apply (chain_frame (sg_blk st)); [|exact HF2]. intros p Hp2. rewrite C2 by (intros Hp1; exact (HF12 p Hp1 Hp2)). apply Hst1; intros ->; contradiction. }
      split. { apply (chain_frame (sg_blk st)); [|exact (sl_used _ _ _ _ I)]. intros p Hp2. rewrite C2 by (intros Hp1; exact (HUF1 p Hp1 Hp2)). apply Hst1; intros ->; contradiction. }
      split; [exact C3|]. split; [exact C5|]. split; [exact C4|]. split; [|split].
      + apply (tiled_perm size (map reg ((o, with_size n b) :: (nb, bare NB) :: U ++ F1 ++ F2))).
        * apply Permutation_map. constructor. cbn [app]. rewrite !app_assoc. apply Permutation_middle.
        * change (tiled size ((o, n) :: (o + n, b_size b - n) :: map reg (U ++ F1 ++ F2))). apply tiled_split; [exact Hn|unfold BLK_HDR; lia|].
          replace (n + (b_size b - n)) with (b_size b) by lia. exact Ht.
      + pose proof (sl_sorted _ _ _ _ I) as Hs. unfold fsorted in *. apply pairwise_app in Hs as (S3 & S4 & S5). cbn [pairwise] in S4. apply pairwise_app.
        split; [exact S3|]. cbn [app pairwise]. split; [split; [|apply S4]|].
        * intros q Hq. pose proof (proj1 S4 q Hq) as H. unfold NB. cbn [fst snd bare with_next b_size] in *. subst nb. lia.
        * intros p q Hp1 [<-|Hq]; [|apply S5; [exact Hp1|now right]]. pose proof (S5 p (o, b) Hp1 (or_introl eq_refl)) as H. cbn [fst snd] in *. subst nb. lia.
      + intros p [<-|[]]. cbn [fst]. subst nb. pose proof (sl_al _ _ _ _ I (o, b) Hin) as Ha. cbn [fst] in Ha. rewrite Z.add_mod by lia. rewrite Ha, Hal. reflexivity.
  Qed.

  (** The room a request needs, as the code computes it. *)
  Lemma adjusted_need n req : Z.of_nat (String.length n) < SEG_LIM -> 0 <= req < SEG_LIM ->
    up16 req = above16 req /\ w64 (header_size + up16 req + up16 (Z.of_nat (String.length n) + 1)) = need n req /\ BLK_HDR <= need n req /\ need n req mod 16 = 0.
  Proof.
    intros H1 H2. assert (Hl : SEG_LIM = 4611686018427387904) by reflexivity. assert (HM : M64 = 18446744073709551616) by reflexivity.
    assert (A1 : up16 req = above16 req) by (apply up16_above; lia).
    assert (A2 : up16 (Z.of_nat (String.length n) + 1) = above16 (Z.of_nat (String.length n) + 1)) by (apply up16_above; lia).
    pose proof (above16_gt req ltac:(lia)). pose proof (above16_gt (Z.of_nat (String.length n) + 1) ltac:(lia)).
    split; [exact A1|]. rewrite A1, A2, header_48. unfold need. split; [unfold w64; apply Z.mod_small; lia|]. split; [unfold BLK_HDR; lia|].
    rewrite (Z.add_mod (48 + above16 req)), (Z.add_mod 48) by lia. rewrite !above16_mod. reflexivity.
  Qed.

  (** No room between the blocks in use. *)
  Definition full (G : list live) (n : Z) : Prop :=
    forall a, SEG_HDR <= a -> a + n <= size -> exists e, In e G /\ ~ disj (a, n) (l_ext e).

  Lemma allocate_new st G n req :
    sginv size st G -> c_name n -> Z.of_nat (String.length n) < SEG_LIM -> 0 <= req < SEG_LIM -> (forall e, In e G -> l_name e <> n) ->
    allocate_named n req st = Throw st OutOfMemory /\ full G (need n req) \/
    exists st' p len, allocate_named n req st = Ok st' p /\ sg_actual st' = sg_actual st + len /\ need n req <= len < need n req + BLK_HDR /\
      sginv size st' (mkLive n p len req 1 :: G).
  Proof.
    intros (U & F & I & HG & Hd) Hn Hl1 Hl2 Hne. destruct (adjusted_need n req Hl1 Hl2) as (A1 & A2 & A3 & A4).
    pose proof (existing_ok size st U F G n I HG Hn) as H. rewrite (find_not_named n G Hne) in H.
    unfold allocate_named. rewrite H. cbn [bind Z.eqb negb]. rewrite A2. clear H.
    destruct (find_usable_spec (need n req) st F (steps st) F [] (sg_free st) 0 0 (sl_steps_f _ _ _ _ I) eq_refl (sl_free _ _ _ _ I) (sl_free _ _ _ _ I)) as (best & prev & Hf & Hb).
    { left. split; [reflexivity|]. intros p []. }
    rewrite last_off_nil in Hf. rewrite Hf. cbn [bind]. clear Hf.
    destruct Hb as [[-> Hb]|(F1 & b & F2 & EF & Hb & ->)].
    - left. cbn [Z.eqb]. split; [reflexivity|]. intros a Ha1 Ha2.
      (* the block at [a] *)
      assert (HN : 0 < need n req) by (unfold BLK_HDR in A3; lia).
      assert (Hcov : forall x, SEG_HDR <= x < size -> (exists e, In e G /\ fst (l_ext e) <= x < fst (l_ext e) + snd (l_ext e)) \/ (exists p, In p F /\ fst p <= x < fst p + b_size (snd p))).
      { intros x Hx. destruct (tiled_covers size _ x (sl_tiled _ _ _ _ I) Hx) as (r & Hr & Hx2). apply in_map_iff in Hr as (p & <- & Hr). unfold reg in Hx2. cbn [fst snd] in Hx2.
        apply in_app_iff in Hr as [Hr|Hr]; [|right; now exists p]. left. destruct (forall2_split rel U G HG p Hr) as (_ & _ & G1 & e & G2 & _ & -> & _ & R & _).
        exists e. split; [apply in_elt|]. unfold l_ext. cbn [fst snd]. rewrite (r_off _ _ R), (r_len _ _ R). lia. }
      destruct (Hcov a ltac:(lia)) as [(e & He & Hx)|(p & Hp & Hx)]; [exists e; split; [exact He|]; unfold disj; cbn [fst snd] in *; destruct (l_ext e) as [x y]; cbn [fst snd] in *; lia|].
      pose proof (Hb p Hp) as Hs. destruct (Hcov (fst p + b_size (snd p)) ltac:(lia)) as [(e & He & Hy)|(q & Hq & Hy)].
      + exists e. split; [exact He|]. unfold disj. destruct (l_ext e) as [x y]; cbn [fst snd] in *. lia.
      + exfalso. assert (Hpq : p <> q) by (intros ->; lia). pose proof (sl_sorted _ _ _ _ I) as Hso. unfold fsorted in Hso.
        assert (Hor : fst p + b_size (snd p) < fst q \/ fst q + b_size (snd q) < fst p).
        { clear - Hso Hp Hq Hpq. induction F as [|x l IH]; [destruct Hp|]. cbn [pairwise] in Hso. destruct Hso as [S1 S2]. destruct Hp as [->|Hp], Hq as [->|Hq]; auto; try congruence. }
        destruct (sl_in _ _ _ _ I q (in_or_app _ _ _ (or_intror Hq))) as (Q1 & _). unfold BLK_HDR in Q1. lia.
    - right. assert (Hbz : best <> 0). { pose proof (sl_free _ _ _ _ I) as Hc. apply (chain_nz _ _ _ _ best Hc). rewrite EF, map_app. apply in_elt. }
      destruct (best =? 0) eqn:Ez; [lia|]. subst F.
      destruct (split_ok st U F1 best b F2 (need n req) I A3 Hb A4) as (st1 & b' & R & nx & -> & C1 & C2 & C3 & C4 & C5 & C6 & C7 & C8 & C9 & C10).
      cbn [bind]. unfold load. rewrite C1. cbn [bind]. change (b_size (with_next nx b')) with (b_size b'). rewrite header_48, A1.
      assert (Hact : w64 (sg_actual st1 + b_size b') = sg_actual st + b_size b').
      { rewrite C6. unfold w64. apply Z.mod_small. rewrite (sl_act _ _ _ _ I). pose proof (ti_sum _ _ C8) as Hs. rewrite !map_map in Hs. cbn [map sumZ snd reg] in Hs.
        rewrite map_app, sumZ_app in Hs.
        assert (Hge : 0 <= sumZ (map (fun p : Z * block => b_size (snd p)) (F1 ++ R ++ F2))).
        { apply sumZ_nonneg. intros x Hx. apply in_map_iff in Hx as (q & <- & Hq).
          destruct (ti_in _ _ C8 (reg q) ltac:(apply in_map; right; apply in_or_app; now right)) as (X & _). unfold BLK_HDR, reg in X. cbn [snd] in X. lia. }
        assert (Hge2 : 0 <= sumZ (map (fun p : Z * block => b_size (snd p)) U)).
        { apply sumZ_nonneg. intros x Hx. apply in_map_iff in Hx as (q & <- & Hq). destruct (sl_in _ _ _ _ I q ltac:(apply in_or_app; now left)) as (X & _). unfold BLK_HDR in X. lia. }
        cbn [fst snd] in Hs. change (map (fun x => snd (reg x)) U) with (map (fun p : Z * block => b_size (snd p)) U) in Hs.
        unfold BLK_HDR, SEG_HDR in *. destruct Hsize as [S1 S2]. unfold ASP in S2. unfold M64. lia. }
      set (B := mkBlock (sg_used st1) (best + 48 + above16 req) (best + 48) (b_size b') 1 n).
      exists (set_used best (set_blk best B (set_actual (w64 (sg_actual st1 + b_size b')) st1))), (best + 48), (b_size b').
      split; [reflexivity|]. split; [exact Hact|]. split; [exact C2|].
      exists ((best, bare B) :: U), (F1 ++ R ++ F2). split; [|split].
      + pose proof (tiled_offs size ((best, b') :: U ++ F1 ++ R ++ F2) C8) as Hnd. cbn [map fst] in Hnd. inversion Hnd as [|x l Hni Hnd' E]; subst x l.
        rewrite map_app in Hni. constructor; cbn [set_used set_blk set_actual sg_blk sg_used sg_free sg_actual sg_size].
        * cbn [chain]. split; [reflexivity|]. split; [exact Hbz|]. exists (sg_used st1). split; [apply fset_eq|]. rewrite C5. apply chain_set_other; [|exact C4]. intros Hi. apply Hni, in_or_app. now left.
        * apply chain_set_other; [|exact C3]. intros Hi. apply Hni, in_or_app. now right.
        * exact C8.
        * exact C9.
        * intros p [<-|Hp].
          -- apply (sl_al _ _ _ _ I (best, b)). apply in_or_app. right. apply in_elt.
          -- apply in_app_iff in Hp as [Hp|Hp]; [apply (sl_al _ _ _ _ I), in_or_app; now left|]. apply in_app_iff in Hp as [Hp|Hp]; [apply (sl_al _ _ _ _ I), in_or_app; right; apply in_or_app; now left|].
             apply in_app_iff in Hp as [Hp|Hp]; [now apply C10|]. apply (sl_al _ _ _ _ I), in_or_app. right. apply in_or_app. right. now right.
        * rewrite Hact, (sl_act _ _ _ _ I). cbn [map sumZ snd bare with_next B b_size]. lia.
        * rewrite C7. exact (sl_size _ _ _ _ I).
      + constructor; [|exact HG]. constructor; cbn [bare with_next B b_name b_name_off b_mem_off b_size b_refs l_name l_off l_len l_req l_refs fst snd]; auto; try lia. unfold M64. lia.
      + split; [|exact Hd]. intros e He. cbn [l_name]. intros E. exact (Hne e He (eq_sym E)).
  Qed.
End Ops.
