(** Facts about the shared memory segment: lists of blocks linked by offsets, and the invariant. *)
From Coq Require Import String Ascii.
From Verif Require Import Base BaseFacts SegModel SegSpec.

(** ** Linked lists of blocks *)
Definition bare (b : block) : block := with_next 0 b.
Lemma bare_next b : with_next (b_next b) (bare b) = b.
Proof. now destruct b. Qed.
Lemma with_next_bare n b : with_next n (bare b) = with_next n b.
Proof. reflexivity. Qed.

(** Blocks [l] from offset [o] up to the link [e]; the links are not part of the list. *)
Fixpoint chain (m : fmap block) (o : Z) (l : list (Z * block)) (e : Z) : Prop :=
  match l with
  | [] => o = e
  | (o', d) :: l => o = o' /\ o <> 0 /\ exists nx, m o = Some (with_next nx d) /\ chain m nx l e
  end.

Lemma chain_app m l1 : forall o l2 e, chain m o (l1 ++ l2) e <-> exists k, chain m o l1 k /\ chain m k l2 e.
Proof.
  induction l1 as [|[o' d] l1 IH]; intros o l2 e; cbn [app chain].
  - split; [intros H; now exists o|intros (k & -> & H); exact H].
  - split.
    + intros (-> & Hn & nx & Hm & H). apply IH in H as (k & A & B). exists k. split; [|exact B]. split; [reflexivity|]. split; [exact Hn|]. now exists nx.
    + intros (k & (-> & Hn & nx & Hm & A) & B). split; [reflexivity|]. split; [exact Hn|]. exists nx. split; [exact Hm|]. apply IH. now exists k.
Qed.
Lemma chain_frame m m' l : forall o e, (forall p, In p (map fst l) -> m' p = m p) -> chain m o l e -> chain m' o l e.
Proof.
  induction l as [|[o' d] l IH]; intros o e Hf; cbn [chain]; [auto|]. intros (-> & Hn & nx & Hm & H).
  split; [reflexivity|]. split; [exact Hn|]. exists nx. split; [rewrite Hf; [exact Hm|now left]|].
  apply IH; [|exact H]. intros p Hp. apply Hf. now right.
Qed.
Lemma chain_set_other m l o e k b : ~ In k (map fst l) -> chain m o l e -> chain (fset m k b) o l e.
Proof. intros Hk. apply chain_frame. intros p Hp. unfold fset. destruct (p =? k) eqn:E; [|reflexivity]. apply Z.eqb_eq in E. now subst p. Qed.
Lemma chain_del_other m l o e k : ~ In k (map fst l) -> chain m o l e -> chain (fdel m k) o l e.
Proof. intros Hk. apply chain_frame. intros p Hp. unfold fdel. destruct (p =? k) eqn:E; [|reflexivity]. apply Z.eqb_eq in E. now subst p. Qed.
Lemma fset_eq {A} (m : fmap A) k v : fset m k v k = Some v.
Proof. unfold fset. now rewrite Z.eqb_refl. Qed.
Lemma fset_neq {A} (m : fmap A) k v x : x <> k -> fset m k v x = m x.
Proof. intros H. unfold fset. destruct (x =? k) eqn:E; [lia|reflexivity]. Qed.
Lemma fdel_neq {A} (m : fmap A) k x : x <> k -> fdel m k x = m x.
Proof. intros H. unfold fdel. destruct (x =? k) eqn:E; [lia|reflexivity]. Qed.

Lemma chain_nz m l : forall o e p, chain m o l e -> In p (map fst l) -> p <> 0.
Proof.
  induction l as [|[o' d] l IH]; intros o e p; cbn [chain map In fst]; [intros _ []|]. intros (-> & Hn & nx & _ & H) [<-|Hp]; [exact Hn|]. exact (IH nx e p H Hp).
Qed.
Lemma chain_load m l : forall o e p d, chain m o l e -> In (p, d) l -> exists nx, m p = Some (with_next nx d).
Proof.
  induction l as [|[o' d'] l IH]; intros o e p d; cbn [chain In]; [intros _ []|]. intros (-> & _ & nx & Hm & H) [E|Hp].
  - injection E as -> ->. now exists nx.
  - exact (IH nx e p d H Hp).
Qed.
(** The first offset, or the end. *)
Lemma chain_head m l o e : chain m o l e -> o = match l with (p, _) :: _ => p | [] => e end.
Proof. destruct l as [|[p d] l]; cbn; [auto|]. now intros (-> & _). Qed.

Definition last_off (l : list (Z * block)) : Z := last (map fst l) 0.
Lemma last_off_nil : last_off [] = 0.
Proof. reflexivity. Qed.
Lemma last_off_snoc l p d : last_off (l ++ [(p, d)]) = p.
Proof. unfold last_off. rewrite map_app. cbn. apply last_last. Qed.

(** The link after [l1] is redirected. *)
Lemma chain_relink m l1 p d o k k' :
  NoDup (map fst (l1 ++ [(p, d)])) -> chain m o (l1 ++ [(p, d)]) k -> chain (fset m p (with_next k' d)) o (l1 ++ [(p, d)]) k'.
Proof.
  intros Hd H. rewrite map_app in Hd. cbn in Hd. apply chain_app in H as (j & A & B). apply chain_app. exists j. cbn [chain] in *.
  destruct B as (-> & Hn & nx & Hm & ->). split.
  - apply chain_set_other; [|exact A]. intros Hi. apply NoDup_remove_2 in Hd. rewrite app_nil_r in Hd. contradiction.
  - split; [reflexivity|]. split; [exact Hn|]. exists k'. split; [apply fset_eq|reflexivity].
Qed.

(** ** Searching *)
Lemma load_chain st l o e p d : chain (sg_blk st) o l e -> In (p, d) l -> exists nx, load p st = Ok st (with_next nx d).
Proof. intros H Hi. destruct (chain_load _ _ _ _ _ _ H Hi) as (nx & E). exists nx. unfold load. now rewrite E. Qed.

Definition hit (n : string) (p : Z * block) : bool := negb (b_name_off (snd p) =? 0) && String.eqb n (cstr (b_name (snd p))).
Lemma find_existing_spec n st l : forall fuel o, (length l < fuel)%nat -> chain (sg_blk st) o l 0 ->
  find_existing fuel o n st = Ok st (match find (hit n) l with Some p => fst p | None => 0 end).
Proof.
  induction l as [|[o' d] l IH]; intros fuel o Hf H; (destruct fuel as [|fuel]; [cbn in Hf; lia|]); cbn [find_existing].
  - cbn in H. subst o. reflexivity.
  - cbn [chain] in H. destruct H as (-> & Hn & nx & Hm & H). destruct (o' =? 0) eqn:E; [lia|]. unfold load. rewrite Hm. cbn [bind find hit snd fst].
    change (b_name_off (with_next nx d)) with (b_name_off d). change (b_name (with_next nx d)) with (b_name d). unfold hit. cbn [snd fst].
    destruct (negb (b_name_off d =? 0) && (n =? cstr (b_name d))%string); [reflexivity|]. cbn [with_next b_next]. apply IH; [cbn in Hf; lia|exact H].
Qed.

Lemma find_usable_spec size st F : forall fuel l pre iter best prev,
  (length l < fuel)%nat -> F = pre ++ l -> chain (sg_blk st) (sg_free st) F 0 -> chain (sg_blk st) iter l 0 ->
  (best = 0 /\ (forall p, In p pre -> b_size (snd p) < size) \/ exists F1 b F2, F = F1 ++ (best, b) :: F2 /\ size <= b_size b /\ prev = last_off F1) ->
  exists best' prev', find_usable fuel iter (last_off pre) best prev size st = Ok st (best', prev') /\
    (best' = 0 /\ (forall p, In p F -> b_size (snd p) < size) \/ exists F1 b F2, F = F1 ++ (best', b) :: F2 /\ size <= b_size b /\ prev' = last_off F1).
Proof.
  induction fuel as [|fuel IH]; intros l pre iter best prev Hf HF HcF Hl Hb; [lia|]. destruct l as [|[o d] l]; cbn [find_usable chain] in *.
  - subst iter. cbn [Z.eqb]. exists best, prev. split; [reflexivity|]. rewrite app_nil_r in HF. subst pre. destruct Hb as [Hb|Hb]; [now left|now right].
  - destruct Hl as (-> & Hn & nx & Hm & Hl). destruct (o =? 0) eqn:E; [lia|]. unfold load. rewrite Hm. cbn [bind].
    change (b_size (with_next nx d)) with (b_size d). change (b_next (with_next nx d)) with nx.
    assert (HF' : F = (pre ++ [(o, d)]) ++ l) by (rewrite <- app_assoc; exact HF).
    assert (Hpos : exists F1 b F2, F = F1 ++ (o, b) :: F2 /\ b = d /\ last_off pre = last_off F1) by (exists pre, d, l; auto).
    pose proof (IH l (pre ++ [(o, d)]) nx) as Hnext. rewrite last_off_snoc in Hnext.
    assert (Hlen : (length l < fuel)%nat) by (cbn in Hf; lia).
    (* taking this block *)
    assert (Htake : size <= b_size d -> exists best' prev', (if b_size d =? size then Ok st (o, last_off pre) else find_usable fuel nx o o (last_off pre) size st) = Ok st (best', prev') /\
       (best' = 0 /\ (forall p, In p F -> b_size (snd p) < size) \/ exists F1 b F2, F = F1 ++ (best', b) :: F2 /\ size <= b_size b /\ prev' = last_off F1)).
    { intros Hs. assert (Hin : exists F1 b F2, F = F1 ++ (o, b) :: F2 /\ size <= b_size b /\ last_off pre = last_off F1) by (exists pre, d, l; auto).
      destruct (b_size d =? size); [exists o, (last_off pre); split; [reflexivity|right; exact Hin]|].
      apply (Hnext o (last_off pre)); auto. }
    assert (Hskip : (best <> 0 \/ b_size d < size) -> exists best' prev', find_usable fuel nx o best prev size st = Ok st (best', prev') /\
       (best' = 0 /\ (forall p, In p F -> b_size (snd p) < size) \/ exists F1 b F2, F = F1 ++ (best', b) :: F2 /\ size <= b_size b /\ prev' = last_off F1)).
    { intros Hs. apply (Hnext best prev); auto. destruct Hb as [[Hz Hb]|Hb]; [|now right]. left. split; [exact Hz|].
      intros p Hp. apply in_app_iff in Hp as [Hp|[<-|[]]]; [now apply Hb|]. cbn. destruct Hs as [Hs|Hs]; [contradiction|exact Hs]. }
    destruct (size <=? b_size d) eqn:Es; [|apply Hskip; lia]. destruct (best =? 0) eqn:Eb; [apply Htake; lia|].
    destruct Hb as [[Hz _]|(F1 & b & F2 & HF1 & Hsb & Hp)]; [lia|].
    assert (Hi : In (best, b) F) by (rewrite HF1; apply in_elt).
    destruct (chain_load _ _ _ _ _ _ HcF Hi) as (nb & Hlb). rewrite Hlb. cbn [bind]. change (b_size (with_next nb b)) with (b_size b).
    destruct (b_size d <? b_size b); [apply Htake; lia|apply Hskip; lia].
Qed.

Lemma find_prev_spec st t d U2 : forall fuel U1 pre o, (length U1 < fuel)%nat -> chain (sg_blk st) o (U1 ++ (t, d) :: U2) 0 -> ~ In t (map fst U1) ->
  find_prev fuel o (last_off pre) t st = Ok st (last_off (pre ++ U1)).
Proof.
  induction fuel as [|fuel IH]; intros U1 pre o Hf H Hn; [lia|]. destruct U1 as [|[o' d'] U1]; cbn [app chain find_prev] in *.
  - destruct H as (-> & _). rewrite Z.eqb_refl, orb_true_r, app_nil_r. reflexivity.
  - destruct H as (-> & Hz & nx & Hm & H). destruct (o' =? 0) eqn:E; [lia|]. destruct (o' =? t) eqn:E2; [exfalso; apply Hn; left; cbn; lia|]. cbn [orb].
    unfold load. rewrite Hm. cbn [bind]. change (b_next (with_next nx d')) with nx.
    specialize (IH U1 (pre ++ [(o', d')]) nx). rewrite last_off_snoc, <- app_assoc in IH. apply IH; [cbn in Hf; lia|exact H|].
    intros Hi. apply Hn. now right.
Qed.

Lemma find_below_spec st curr : forall fuel l pre o, (length l < fuel)%nat -> chain (sg_blk st) o l 0 ->
  exists l1 l2, l = l1 ++ l2 /\ find_below fuel o (last_off pre) curr st = Ok st (last_off (pre ++ l1)) /\
    (forall p, In p l1 -> fst p < curr) /\ (forall p l3, l2 = p :: l3 -> curr <= fst p).
Proof.
  induction fuel as [|fuel IH]; intros l pre o Hf H; [lia|]. destruct l as [|[o' d] l]; cbn [chain find_below] in *.
  - subst o. exists [], []. rewrite (app_nil_r pre). cbn. split; [reflexivity|]. split; [reflexivity|]. split; [intros p []|discriminate].
  - destruct H as (-> & Hz & nx & Hm & H). destruct (o' =? 0) eqn:E; [lia|]. cbn [negb andb]. destruct (o' <? curr) eqn:E2.
    + unfold load. rewrite Hm. cbn [bind]. change (b_next (with_next nx d)) with nx.
      destruct (IH l (pre ++ [(o', d)]) nx ltac:(cbn in Hf; lia) H) as (l1 & l2 & -> & Hr & A & B). rewrite last_off_snoc in Hr.
      exists ((o', d) :: l1), l2. split; [reflexivity|]. split; [rewrite Hr, <- app_assoc; reflexivity|]. split; [|exact B].
      intros p [<-|Hp]; [cbn; lia|now apply A].
    + exists [], ((o', d) :: l). rewrite (app_nil_r pre). split; [reflexivity|]. split; [reflexivity|]. split; [intros p []|]. intros p l3 Hp. injection Hp as <- _. cbn. lia.
Qed.

(** ** Tilings *)
Definition reg (p : Z * block) : region := (fst p, b_size (snd p)).

Record tiled (size : Z) (L : list region) : Prop := mkTiled {
  ti_in : forall r, In r L -> BLK_HDR <= snd r /\ SEG_HDR <= fst r /\ fst r + snd r <= size;
  ti_disj : pairwise disj L;
  ti_sum : sumZ (map snd L) = size - SEG_HDR
}.
Lemma tiled_perm size L L' : Permutation L L' -> tiled size L -> tiled size L'.
Proof.
  intros P [A B C]. constructor.
  - intros r Hr. apply A. apply (Permutation_in r (Permutation_sym P) Hr).
  - exact (pairwise_perm disj disj_sym _ _ P B).
  - rewrite <- C. symmetry. now apply sumZ_perm, Permutation_map.
Qed.
Lemma tiled_len size L : tiled size L -> (length L < S (Z.to_nat size))%nat.
Proof.
  intros [A _ C]. enough (Hs : Z.of_nat (length L) <= sumZ (map snd L)) by (unfold SEG_HDR in *; lia).
  clear C. induction L as [|r L IH]; [cbn; lia|]. cbn [map sumZ length]. destruct (A r (or_introl eq_refl)) as (Hr & _).
  assert (Z.of_nat (length L) <= sumZ (map snd L)) by (apply IH; intros; apply A; now right). unfold BLK_HDR in Hr. lia.
Qed.
Lemma tiled_covers size L x : tiled size L -> SEG_HDR <= x < size -> exists r, In r L /\ fst r <= x < fst r + snd r.
Proof.
  intros [A B C] Hx. destruct (existsb (fun r => (fst r <=? x) && (x <? fst r + snd r)) L) eqn:E.
  - apply existsb_exists in E as (r & Hr & E). exists r. split; [exact Hr|lia].
  - exfalso. assert (Hn : forall r, In r L -> ~ (fst r <= x < fst r + snd r)).
    { intros r Hr Hc. enough (existsb (fun r => (fst r <=? x) && (x <? fst r + snd r)) L = true) by congruence.
      apply existsb_exists. exists r. split; [exact Hr|lia]. }
    pose proof (sum_within (S (length L)) ((x, 1) :: L) SEG_HDR size) as H. cbn [length map snd sumZ] in H.
    assert (1 + sumZ (map snd L) <= size - SEG_HDR); [|lia]. apply H; [apply le_n|lia| |].
    + intros r [<-|Hr]; [cbn [fst snd]; lia|]. destruct (A r Hr) as (Ha & Hb & Hc). unfold BLK_HDR in Ha. lia.
    + cbn [pairwise]. split; [|exact B]. intros r Hr. specialize (Hn r Hr). destruct (A r Hr) as (Ha & _). unfold disj, BLK_HDR in *. cbn. lia.
Qed.
Lemma tiled_split size L a n m : BLK_HDR <= n -> BLK_HDR <= m -> tiled size ((a, n + m) :: L) -> tiled size ((a, n) :: (a + n, m) :: L).
Proof.
  intros Hn Hm [A B C]. destruct (A _ (or_introl eq_refl)) as (A1 & A2 & A3). cbn [fst snd] in *. cbn [pairwise] in B. destruct B as [B1 B2]. constructor.
  - intros r [<-|[<-|Hr]]; cbn [fst snd]; unfold BLK_HDR, SEG_HDR in *; try lia. apply A. now right.
  - cbn [pairwise]. split; [|split; [|exact B2]].
    + intros r [<-|Hr]; [unfold disj; cbn; lia|]. specialize (B1 r Hr). unfold disj, BLK_HDR in *. cbn in *. lia.
    + intros r Hr. specialize (B1 r Hr). unfold disj, BLK_HDR in *. cbn in *. lia.
  - cbn [map sumZ snd] in *. lia.
Qed.
Lemma tiled_merge size L a n m : tiled size ((a, n) :: (a + n, m) :: L) -> tiled size ((a, n + m) :: L).
Proof.
  intros [A B C]. destruct (A _ (or_introl eq_refl)) as (A1 & A2 & A3). destruct (A _ (or_intror (or_introl eq_refl))) as (A4 & A5 & A6). cbn [fst snd] in *.
  cbn [pairwise] in B. destruct B as (B1 & B2 & B3). constructor.
  - intros r [<-|Hr]; cbn [fst snd]; unfold BLK_HDR, SEG_HDR in *; try lia. apply A. right. now right.
  - cbn [pairwise]. split; [|exact B3]. intros r Hr. specialize (B1 r (or_intror Hr)). specialize (B2 r Hr). destruct (A r (or_intror (or_intror Hr))) as (A7 & _).
    unfold disj, BLK_HDR in *. cbn in *. lia.
  - cbn [map sumZ snd] in *. lia.
Qed.
Lemma tiled_offs size (l : list (Z * block)) : tiled size (map reg l) -> NoDup (map fst l).
Proof.
  intros [A B _]. induction l as [|p l IH]; [constructor|]. cbn [map pairwise] in *. destruct B as [B1 B2]. constructor.
  - intros Hi. apply in_map_iff in Hi as (q & Hq & Hi). specialize (B1 (reg q) (in_map reg _ _ Hi)).
    destruct (A (reg p) (or_introl eq_refl)) as (A1 & _). destruct (A (reg q) (or_intror (in_map reg _ _ Hi))) as (A2 & _).
    unfold disj, reg, BLK_HDR in *. cbn in *. lia.
  - apply IH; [|exact B2]. intros r Hr. apply A. now right.
Qed.
