(** Deallocation in the shared memory segment. *)
From Coq Require Import String Ascii.
From Verif Require Import Base BaseFacts SegModel SegSpec SegFacts SegInv SegOps.

Section Free.
  Context (size : Z).

  Definition join (curr next : Z) (st : segment) : outcome segment unit :=
    let* (st, c) := load curr st in
    if negb (next =? 0) && (curr + b_size c =? next) then
      let* (st, n) := load next st in
      Ok (del_blk next (set_blk curr (with_next (b_next n) (with_size (b_size c + b_size n) c)) st)) tt
    else Ok (set_blk curr (with_next next c) st) tt.

  Lemma offs_nodup U F : tiled size (map reg (U ++ F)) -> NoDup (map fst F) /\ (forall p, In p (map fst U) -> ~ In p (map fst F)).
  Proof.
    intros H. apply tiled_offs in H. rewrite map_app in H. split; [|intros p Hp; exact (nodup_apart _ _ p H Hp)].
    induction (map fst U) as [|x l IH]; [exact H|]. cbn in H. inversion H; subst; auto.
  Qed.

  Lemma join_ok st U F1 c dc l F2 k :
    chain (sg_blk st) (sg_free st) (F1 ++ [(c, dc)]) l -> chain (sg_blk st) k F2 0 -> chain (sg_blk st) (sg_used st) U 0 ->
    tiled size (map reg (U ++ F1 ++ (c, dc) :: F2)) -> fsorted (F1 ++ F2) ->
    (forall p, In p F1 -> fst p + b_size (snd p) < c) -> (forall q, In q F2 -> c + b_size dc <= fst q) ->
    exists st' F', join c k st = Ok st' tt /\ chain (sg_blk st') (sg_used st') U 0 /\ chain (sg_blk st') (sg_free st') F' 0 /\
      tiled size (map reg (U ++ F')) /\ fsorted F' /\ (forall p, In p F' -> In (fst p) (c :: map fst F1 ++ map fst F2)) /\
      sg_actual st' = sg_actual st /\ sg_size st' = sg_size st.
  Proof.
    intros HF1 HF2 HU Ht Hs Hlo Hhi. destruct (offs_nodup _ _ Ht) as (Hnd & Hap). rewrite map_app in Hnd. cbn [map fst] in Hnd.
    assert (HcF1 : ~ In c (map fst F1)) by (intros Hi; apply (nodup_apart _ _ c Hnd Hi); now left).
    assert (HcF2 : ~ In c (map fst F2)) by (apply NoDup_remove_2 in Hnd; intros Hi; apply Hnd, in_or_app; now right).
    assert (HcU : ~ In c (map fst U)) by (intros Hi; apply (Hap c Hi); rewrite map_app; apply in_elt).
    apply chain_app in HF1 as (c' & HF1 & Hc). cbn [chain] in Hc. destruct Hc as (-> & Hz & nx & Hm & ->).
    unfold join, load. rewrite Hm. cbn [bind]. change (b_size (with_next l dc)) with (b_size dc).
    destruct (negb (k =? 0) && (c + b_size dc =? k)) eqn:E.
    - assert (Ek : k = c + b_size dc /\ k <> 0) by lia. destruct Ek as [Ek Ez]. destruct F2 as [|[k' dk] F3]; [cbn [chain] in HF2; lia|].
      cbn [chain] in HF2. destruct HF2 as (E1 & _ & nk & Hk & HF3). subst k'. rewrite Hk. cbn [bind]. change (b_next (with_next nk dk)) with nk. change (b_size (with_next nk dk)) with (b_size dk).
      set (d2 := with_size (b_size dc + b_size dk) dc).
      assert (HkF1 : ~ In k (map fst F1)) by (intros Hi; apply (nodup_apart _ _ k Hnd Hi); right; now left).
      assert (HkU : ~ In k (map fst U)) by (intros Hi; apply (Hap k Hi); rewrite map_app; apply in_or_app; right; right; now left).
      assert (Hnd2 : NoDup (map fst F1 ++ k :: map fst F3)) by (apply NoDup_remove_1 in Hnd; exact Hnd).
      assert (HkF3 : ~ In k (map fst F3)) by (apply NoDup_remove_2 in Hnd2; intros Hi; apply Hnd2, in_or_app; now right).
      assert (HcF3 : ~ In c (map fst F3)) by (intros Hi; apply HcF2; now right).
      assert (Hck : c <> k) by (intros ->; apply HcF2; now left).
      assert (HfF1 : forall a e, chain (sg_blk st) a F1 e -> chain (fdel (fset (sg_blk st) c (with_next nk d2)) k) a F1 e).
      { intros a e H. apply chain_del_other; [exact HkF1|]. apply chain_set_other; [exact HcF1|exact H]. }
      exists (del_blk k (set_blk c (with_next nk d2) st)), (F1 ++ (c, d2) :: F3).
      split; [reflexivity|]. cbn [del_blk set_blk sg_blk sg_free sg_used sg_actual sg_size].
      split. { apply chain_del_other; [exact HkU|]. apply chain_set_other; [exact HcU|exact HU]. }
      split. { apply chain_app. exists c. split; [now apply HfF1|]. cbn [chain]. split; [reflexivity|]. split; [exact Hz|]. exists nk.
               split; [rewrite fdel_neq by exact Hck; apply fset_eq|]. apply chain_del_other; [exact HkF3|]. apply chain_set_other; [exact HcF3|exact HF3]. }
      split.
      { apply (tiled_perm size (map reg ((c, d2) :: U ++ F1 ++ F3))).
        - apply Permutation_map. rewrite !app_assoc. apply Permutation_middle.
        - change (tiled size ((c, b_size dc + b_size dk) :: map reg (U ++ F1 ++ F3))). apply tiled_merge. rewrite <- Ek.
          refine (tiled_perm size _ _ (Permutation_map reg (l' := (c, dc) :: (k, dk) :: U ++ F1 ++ F3) _) Ht).
          rewrite !app_assoc. transitivity ((c, dc) :: (U ++ F1) ++ (k, dk) :: F3); [symmetry; apply Permutation_middle|]. constructor. symmetry. apply Permutation_middle. }
      split.
      { unfold fsorted in *. apply pairwise_app in Hs as (S1 & S2 & S3). apply pairwise_app. cbn [pairwise] in S2 |- *. split; [exact S1|]. split; [split; [|apply S2]|].
        - intros q Hq. pose proof (proj1 S2 q Hq) as H. cbn [fst snd with_size b_size d2] in *. unfold d2. cbn [with_size b_size]. lia.
        - intros p q Hp [<-|Hq]; [exact (Hlo p Hp)|]. apply S3; [exact Hp|now right]. }
      split; [|auto]. intros p Hp. apply in_app_iff in Hp as [Hp|[<-|Hp]]; [right; apply in_or_app; left; now apply in_map|now left|]. right. apply in_or_app. right. right. now apply in_map.
    - exists (set_blk c (with_next k (with_next l dc)) st), (F1 ++ (c, dc) :: F2). split; [reflexivity|]. cbn [del_blk set_blk sg_blk sg_free sg_used sg_actual sg_size].
      split; [apply chain_set_other; assumption|].
      split. { apply chain_app. exists c. split; [apply chain_set_other; assumption|]. cbn [chain]. split; [reflexivity|]. split; [exact Hz|]. exists k. split; [rewrite fset_eq; reflexivity|].
               apply chain_set_other; assumption. }
      split; [exact Ht|]. split.
      { unfold fsorted in *. apply pairwise_app in Hs as (S1 & S2 & S3). apply pairwise_app. cbn [pairwise]. split; [exact S1|]. split; [split; [|exact S2]|].
        - intros q Hq. cbn [fst snd]. destruct F2 as [|[k' dk] F3]; [destruct Hq|]. cbn [chain] in HF2. destruct HF2 as (E1 & Hkz & _). subst k'.
          pose proof (Hhi (k, dk) (or_introl eq_refl)) as H1. cbn [fst] in H1. assert (H2 : c + b_size dc < k) by lia. destruct Hq as [<-|Hq]; [exact H2|].
          cbn [pairwise] in S2. pose proof (proj1 S2 q Hq) as H3. cbn [fst snd] in H3.
          destruct (ti_in _ _ Ht (reg (k, dk))) as (B1 & _); [apply in_map, in_or_app; right; apply in_or_app; right; right; now left|]. unfold reg, BLK_HDR in B1. cbn [fst snd] in B1. lia.
        - intros p q Hp [<-|Hq]; [exact (Hlo p Hp)|]. now apply S3. }
      split; [|auto]. intros p Hp. apply in_app_iff in Hp as [Hp|[<-|Hp]]; [right; apply in_or_app; left; now apply in_map|now left|]. right. apply in_or_app. right. now apply in_map.
  Qed.

  Lemma chain_load_mid m a F1 q d F2 e : chain m a (F1 ++ (q, d) :: F2) e -> exists k, m q = Some (with_next k d) /\ chain m a (F1 ++ [(q, d)]) k /\ chain m k F2 e.
  Proof.
    intros H. apply chain_app in H as (x & H1 & H2). cbn [chain] in H2. destruct H2 as (-> & Hz & k & Hm & H2). exists k. split; [exact Hm|]. split; [|exact H2].
    apply chain_app. exists q. split; [exact H1|]. cbn. split; [reflexivity|]. split; [exact Hz|]. exists k. auto.
  Qed.

  Lemma release_ok st U1 o d U2 F :
    chain (sg_blk st) (sg_used st) (U1 ++ (o, d) :: U2) 0 -> chain (sg_blk st) (sg_free st) F 0 ->
    tiled size (map reg ((U1 ++ (o, d) :: U2) ++ F)) -> fsorted F -> sg_size st = size ->
    exists st' F', release_block o (last_off U1) st = Ok st' tt /\ chain (sg_blk st') (sg_used st') (U1 ++ U2) 0 /\ chain (sg_blk st') (sg_free st') F' 0 /\
      tiled size (map reg ((U1 ++ U2) ++ F')) /\ fsorted F' /\ (forall p, In p F' -> In (fst p) (o :: map fst F)) /\
      sg_actual st' = sg_actual st /\ sg_size st' = sg_size st.
  Proof.
    intros HU HF Ht Hs Hsz.
    assert (Hp : Permutation ((U1 ++ (o, d) :: U2) ++ F) ((U1 ++ U2) ++ (o, d) :: F)).
    { transitivity (((o, d) :: U1 ++ U2) ++ F); [apply Permutation_app_tail; symmetry; apply Permutation_middle|]. cbn [app]. apply Permutation_middle. }
    pose proof (tiled_perm size _ _ (Permutation_map reg Hp) Ht) as Ht1. clear Hp.
    pose proof (tiled_offs size _ Ht) as Hnd. rewrite !map_app in Hnd. cbn [map fst] in Hnd.
    destruct (offs_nodup _ _ Ht1) as (HndF & HapF). cbn [map fst] in HndF. inversion HndF as [|x lst HoF HndF' E]; subst x lst.
    assert (HapUF : forall p, In p (map fst (U1 ++ U2)) -> ~ In p (map fst F)) by (intros p Hp Hi; apply (HapF p Hp); now right).
    assert (HoU : ~ In o (map fst (U1 ++ U2))) by (intros Hi; apply (HapF o Hi); now left).
    assert (HndU1 : NoDup (map fst U1)) by (rewrite <- app_assoc in Hnd; exact (nodup_app_l _ _ Hnd)).
    assert (HU12 : forall p, In p (map fst U1) -> ~ In p (map fst U2)).
    { intros p Hp1 Hp2. rewrite <- app_assoc in Hnd. apply (nodup_apart _ _ p Hnd Hp1). cbn. right. apply in_or_app. now left. }
    destruct (chain_load_mid _ _ _ _ _ _ _ HU) as (nx & Hm & _ & HU2). apply chain_app in HU as (o' & HU1 & Ho). cbn [chain] in Ho. destruct Ho as (-> & Hz & _).
    unfold release_block. unfold load at 1. rewrite Hm. cbn [bind]. change (b_next (with_next nx d)) with nx.
    destruct (relink_used st U1 o nx HU1 HndU1) as (st1 & -> & C1 & C2 & C3 & C4 & C5). cbn [bind].
    assert (HU' : chain (sg_blk st1) (sg_used st1) (U1 ++ U2) 0).
    { apply chain_app. exists nx. split; [exact C1|]. apply (chain_frame (sg_blk st)); [|exact HU2]. intros p Hp2. apply C2. intros Hp1. exact (HU12 p Hp1 Hp2). }
    assert (HF' : chain (sg_blk st1) (sg_free st1) F 0).
    { rewrite C3. apply (chain_frame (sg_blk st)); [|exact HF]. intros p Hp2. apply C2. intros Hp1. apply (HapUF p); [rewrite map_app; apply in_or_app; now left|exact Hp2]. }
    assert (Hm1 : sg_blk st1 o = Some (with_next nx d)).
    { rewrite C2; [exact Hm|]. intros Hi. apply HoU. rewrite map_app. apply in_or_app. now left. }
    assert (Hlen : (length F < steps st1)%nat).
    { pose proof (tiled_len size _ Ht1) as H. rewrite map_length, app_length in H. cbn [length] in H. unfold steps. rewrite C4, Hsz. lia. }
    rewrite <- C4, <- C5. clear C1 C2 C3 C4 C5 HF HU1 HU2 Hm st Hsz. rename st1 into st.
    destruct (find_below_spec st o (steps st) F [] (sg_free st) Hlen HF') as (F1 & F2 & -> & Hfb & Hlo & Hhi). rewrite last_off_nil in Hfb. cbn [app] in Hfb.
    rewrite Hfb. cbn [bind]. clear Hfb Hlen.
    assert (Hbase : forall p, In p (F1 ++ F2) -> BLK_HDR <= b_size (snd p) /\ disj (o, b_size d) (reg p)).
    { intros p Hp. split; [apply (ti_in _ _ Ht1 (reg p)); apply in_map, in_or_app; right; now right|].
      pose proof (ti_disj _ _ Ht1) as H. rewrite map_app in H. apply pairwise_app in H as (_ & H & _). cbn [map pairwise] in H. apply (proj1 H). now apply in_map. }
    assert (Hbo : BLK_HDR <= b_size d).
    { exact (proj1 (ti_in _ _ Ht1 (reg (o, d)) (in_map reg _ _ (in_elt _ _ _)))). }
    unfold BLK_HDR in Hbo, Hbase.
    assert (Hlo1 : forall p, In p F1 -> fst p + b_size (snd p) <= o).
    { intros p Hp. specialize (Hlo p Hp). destruct (Hbase p (in_or_app _ _ _ (or_introl Hp))) as (B1 & B2). unfold disj, reg in B2. cbn [fst snd] in B2. lia. }
    assert (Hhi1 : forall q, In q F2 -> o + b_size d <= fst q).
    { intros q Hq. assert (H1 : o <= fst q).
      { destruct F2 as [|f F3]; [destruct Hq|]. pose proof (Hhi f F3 eq_refl) as H2. destruct Hq as [<-|Hq]; [exact H2|].
        unfold fsorted in Hs. apply pairwise_app in Hs as (_ & Hs & _). cbn [pairwise] in Hs. pose proof (proj1 Hs q Hq).
        destruct (Hbase f (in_elt f F1 F3)) as (B1 & _). lia. }
      destruct (Hbase q (in_or_app _ _ _ (or_intror Hq))) as (B1 & B2). unfold disj, reg in B2. cbn [fst snd] in B2. lia. }
    rewrite map_app in HoF.
    assert (HoF1 : ~ In o (map fst F1)) by (intros Hi; apply HoF, in_or_app; now left).
    assert (HoF2 : ~ In o (map fst F2)) by (intros Hi; apply HoF, in_or_app; now right).
    clear Hlo Hhi Hbase Ht Hnd HndU1 HU12 HndF HapF HoF. destruct F1 as [|[q dq] F1 _] using rev_ind.
    - rewrite last_off_nil. cbn [Z.eqb negb bind app] in *.
      destruct (join_ok (set_free o st) (U1 ++ U2) [] o d nx F2 (sg_free st)) as (st' & F' & A1 & A2 & A3 & A4 & A5 & A6 & A7 & A8).
      + cbn [app chain set_free sg_blk sg_free]. split; [reflexivity|]. split; [exact Hz|]. exists nx. auto.
      + exact HF'.
      + exact HU'.
      + exact Ht1.
      + exact Hs.
      + intros p [].
      + exact Hhi1.
      + exists st', F'. split; [exact A1|]. auto 10.
    - rewrite last_off_snoc. rewrite <- (app_assoc F1 [(q, dq)] F2) in *. cbn [app] in *. destruct (chain_load_mid _ _ _ _ _ _ _ HF') as (k & Hq & HF1 & HF2).
      assert (Hqz : q <> 0) by (apply (chain_nz _ _ _ _ q HF'); rewrite map_app; apply in_elt). destruct (q =? 0) eqn:Eq; [lia|]. cbn [negb].
      unfold load at 1. rewrite Hq. cbn [bind]. change (b_next (with_next k dq)) with k. unfold load at 1. rewrite Hq. cbn [bind]. change (b_size (with_next k dq)) with (b_size dq).
      assert (Hqi : In (q, dq) (F1 ++ [(q, dq)])) by apply in_elt.
      rewrite (map_app fst F1) in HoF1, HndF'. assert (HapQ : forall p, In p (map fst (U1 ++ U2)) -> ~ In p (map fst F1 ++ q :: map fst F2)) by (intros p Hp Hi; apply (HapUF p Hp); rewrite map_app; exact Hi). clear HapUF. rename HapQ into HapUF. cbn [map fst] in HoF1, HapUF, HndF'.
      assert (HqF1 : ~ In q (map fst F1)) by (intros Hi; apply (nodup_apart _ _ q HndF' Hi); now left).
      assert (HqF2 : ~ In q (map fst F2)) by (apply NoDup_remove_2 in HndF'; intros Hi; apply HndF', in_or_app; now right).
      assert (HqU : ~ In q (map fst (U1 ++ U2))) by (intros Hi; apply (HapUF q Hi); apply in_elt).
      assert (Hqo : q <> o) by (intros ->; apply HoF1, in_elt).
      assert (Hs2 : fsorted (F1 ++ F2) /\ (forall p, In p F1 -> fst p + b_size (snd p) < q)).
      { unfold fsorted in *. split; [exact (pairwise_drop _ _ _ _ Hs)|]. apply pairwise_app in Hs as (_ & _ & Hs). intros p Hp. exact (Hs p (q, dq) Hp (or_introl eq_refl)). }
      destruct Hs2 as [Hs2 Hs3]. destruct (q + b_size dq =? o) eqn:Em.
      + unfold load at 1. rewrite Hm1. cbn [bind]. change (b_size (with_next nx d)) with (b_size d).
        set (d2 := with_size (b_size dq + b_size d) dq).
        assert (HoF1' : ~ In o (map fst F1)) by (intros Hi; apply HoF1, in_or_app; now left).
        apply chain_app in HF1 as (q' & HF1 & HF1q). cbn [chain] in HF1q. destruct HF1q as (-> & _).
        destruct (join_ok (del_blk o (set_blk q (with_next k d2) st)) (U1 ++ U2) F1 q d2 k F2 k) as (st' & F' & A1 & A2 & A3 & A4 & A5 & A6 & A7 & A8).
        * cbn [del_blk set_blk sg_blk sg_free]. apply chain_app. exists q. split; [apply chain_del_other; [exact HoF1'|]; apply chain_set_other; assumption|].
          cbn [chain]. split; [reflexivity|]. split; [exact Hqz|]. exists k. split; [rewrite fdel_neq by exact Hqo; apply fset_eq|reflexivity].
        * cbn [del_blk set_blk sg_blk]. apply chain_del_other; [exact HoF2|]. apply chain_set_other; assumption.
        * cbn [del_blk set_blk sg_blk sg_used]. apply chain_del_other; [exact HoU|]. apply chain_set_other; assumption.
        * apply (tiled_perm size (map reg ((q, d2) :: (U1 ++ U2) ++ F1 ++ F2))); [apply Permutation_map; rewrite !app_assoc; apply Permutation_middle|].
          change (tiled size ((q, b_size dq + b_size d) :: map reg ((U1 ++ U2) ++ F1 ++ F2))). apply tiled_merge. replace (q + b_size dq) with o by lia.
          refine (tiled_perm size _ _ (Permutation_map reg (l' := (q, dq) :: (o, d) :: (U1 ++ U2) ++ F1 ++ F2) _) Ht1).
          transitivity ((o, d) :: (U1 ++ U2) ++ F1 ++ (q, dq) :: F2); [symmetry; apply Permutation_middle|].
          transitivity ((o, d) :: (q, dq) :: (U1 ++ U2) ++ F1 ++ F2); [constructor; rewrite (app_assoc (U1 ++ U2)), (app_assoc (U1 ++ U2)); symmetry; apply Permutation_middle|apply perm_swap].
        * exact Hs2.
        * exact Hs3.
        * intros p Hp. specialize (Hhi1 p Hp). unfold d2. cbn [with_size b_size]. lia.
        * exists st', F'. split; [exact A1|]. split; [exact A2|]. split; [exact A3|]. split; [exact A4|]. split; [exact A5|]. split; [|auto].
          intros p Hp. right. rewrite map_app. cbn [map fst]. destruct (A6 p Hp) as [<-|H]; [apply in_elt|]. apply in_app_iff in H as [H|H]; apply in_or_app; [now left|right; now right].
      + destruct (join_ok (set_blk q (with_next o (with_next k dq)) st) (U1 ++ U2) (F1 ++ [(q, dq)]) o d nx F2 k) as (st' & F' & A1 & A2 & A3 & A4 & A5 & A6 & A7 & A8).
        * cbn [set_blk sg_blk sg_free]. rewrite <- app_assoc. cbn [app]. apply chain_app in HF1 as (q' & HF1 & HF1q). cbn [chain] in HF1q. destruct HF1q as (-> & _).
          apply chain_app. exists q. split; [apply chain_set_other; assumption|]. cbn [chain]. split; [reflexivity|]. split; [exact Hqz|]. exists o. split; [rewrite fset_eq; reflexivity|].
          split; [reflexivity|]. split; [exact Hz|]. exists nx. split; [rewrite fset_neq by auto; exact Hm1|reflexivity].
        * cbn [set_blk sg_blk]. apply chain_set_other; assumption.
        * cbn [set_blk sg_blk sg_used]. apply chain_set_other; assumption.
        * refine (tiled_perm size _ _ (Permutation_map reg _) Ht1). apply Permutation_app_head. rewrite <- app_assoc. cbn [app].
          change (F1 ++ (q, dq) :: (o, d) :: F2) with (F1 ++ [(q, dq)] ++ (o, d) :: F2). change (F1 ++ (q, dq) :: F2) with (F1 ++ [(q, dq)] ++ F2). rewrite !app_assoc. apply Permutation_middle.
        * rewrite <- app_assoc. exact Hs.
        * intros p Hp. apply in_app_iff in Hp as [Hp|[<-|[]]].
          -- specialize (Hs3 p Hp). pose proof (Hlo1 (q, dq) Hqi) as H. cbn [fst snd] in H. destruct (ti_in _ _ Ht1 (reg (q, dq))) as (B1 & _); [apply in_map, in_or_app; right; right; apply in_elt|].
             unfold reg, BLK_HDR in B1. cbn [snd] in B1. lia.
          -- pose proof (Hlo1 (q, dq) Hqi) as H. cbn [fst snd] in *. lia.
        * exact Hhi1.
        * exists st', F'. split; [exact A1|]. split; [exact A2|]. split; [exact A3|]. split; [exact A4|]. split; [exact A5|]. split; [|auto].
          intros p Hp. destruct (A6 p Hp) as [<-|H]; [now left|]. right. rewrite map_app in *. cbn [map fst] in *. rewrite <- app_assoc in H. exact H.
  Qed.
End Free.
