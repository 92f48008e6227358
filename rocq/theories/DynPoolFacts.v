(** The list operations of the DynamicSizePool model on address-sorted lists. *)
From Verif Require Import Base BaseFacts AlignedModel AlignedFacts QuickPoolModel QuickPoolInv QuickPoolFacts QuickPoolOps QuickPoolFree
  DynPoolModel DynPoolInv.

Lemma d_before_spec data l pre nx : pairwise dlt l -> d_before data l = (pre, nx) ->
  l = pre ++ nx /\ (forall p, In p pre -> d_data p < data) /\ (forall n, In n nx -> data <= d_data n).
Proof.
  revert pre nx. induction l as [|b l IH]; intros pre nx Hs E; cbn [d_before] in E.
  - injection E as <- <-. split; auto. split; intros ? [].
  - cbn [pairwise] in Hs. destruct Hs as [H1 H2]. destruct (Z.ltb_spec (d_data b) data) as [Hb|Hb].
    + destruct (d_before data l) as [p q]. injection E as <- <-. destruct (IH p q H2 eq_refl) as (-> & Hp & Hq).
      split; [reflexivity|]. split; [|exact Hq]. intros x [<-|Hx]; auto.
    + injection E as <- <-. split; [reflexivity|]. split; [intros ? []|]. intros n [<-|Hn]; auto.
      specialize (H1 n Hn). unfold dlt in H1. lia.
Qed.

Lemma d_lookup_spec ptr l : match d_lookup ptr l with
  | Some (b, t) => Permutation l (b :: t) /\ d_data b = ptr
  | None => forall b, In b l -> d_data b <> ptr end.
Proof.
  induction l as [|b l IH]; cbn [d_lookup]; [intros b []|].
  destruct (Z.eqb_spec (d_data b) ptr) as [E|E]; [auto|].
  destruct (d_lookup ptr l) as [[c t]|]; cbn [option_map fst snd].
  - destruct IH as [IH1 IH2]. split; [|exact IH2]. rewrite IH1. apply perm_swap.
  - intros x [<-|Hx]; auto.
Qed.

(** [d_find]: the first of the smallest blocks that are large enough. *)
Lemma d_find_spec size l : forall i best,
  match best with None => True | Some (_, m) => size <= m end ->
  match d_find size i best l with
  | None => best = None /\ forall b, In b l -> d_size b < size
  | Some j => (exists m, best = Some (j, m) /\ (forall b, In b l -> size <= d_size b -> m <= d_size b)) \/
      exists k b, j = (i + k)%nat /\ nth_error l k = Some b /\ size <= d_size b /\
         (forall b', In b' l -> size <= d_size b' -> d_size b <= d_size b') /\
         match best with None => True | Some (_, m) => d_size b <= m end
  end.
Proof.
  induction l as [|b l IH]; intros i best Hb; cbn [d_find].
  - destruct best as [[j m]|]; cbn [option_map fst].
    + left. exists m. split; [reflexivity|]. intros ? [].
    + split; [reflexivity|]. intros ? [].
  - destruct (Z.leb_spec size (d_size b)) as [Hs|Hs]; cbn [andb].
    + destruct (match best with None => true | Some (_, m) => d_size b <? m end) eqn:Em.
      * destruct (Z.eqb_spec (d_size b) size) as [E|E].
        -- right. exists 0%nat, b. split; [lia|]. split; [reflexivity|]. split; [exact Hs|]. split; [intros; lia|].
           destruct best as [[? m]|]; auto. lia.
        -- specialize (IH (S i) (Some (i, d_size b)) Hs).
           destruct (d_find size (S i) (Some (i, d_size b)) l) as [j|]; [|destruct IH; discriminate].
           right. destruct IH as [(m & E1 & H1)|(k & b' & -> & H1 & H2 & H3 & H4)].
           ++ injection E1 as -> <-. exists 0%nat, b. split; [lia|]. split; [reflexivity|]. split; [exact Hs|]. split.
              ** intros x [<-|Hx] Hx'; [lia|auto].
              ** destruct best as [[? m]|]; auto. apply Z.ltb_lt in Em. lia.
           ++ exists (S k), b'. split; [lia|]. split; [exact H1|]. split; [exact H2|]. split.
              ** intros x [<-|Hx] Hx'; [lia|auto].
              ** destruct best as [[? m]|]; auto. apply Z.ltb_lt in Em. lia.
      * destruct best as [[j0 m]|]; [|discriminate]. apply Z.ltb_ge in Em.
        specialize (IH (S i) (Some (j0, m)) Hb).
        destruct (d_find size (S i) (Some (j0, m)) l) as [j|]; [|destruct IH; discriminate].
        destruct IH as [(m' & E1 & H1)|(k & b' & -> & H1 & H2 & H3 & H4)].
        -- left. injection E1 as -> <-. exists m. split; [reflexivity|]. intros x [<-|Hx] Hx'; [lia|auto].
        -- right. exists (S k), b'. split; [lia|]. split; [exact H1|]. split; [exact H2|]. split; [|exact H4].
           intros x [<-|Hx] Hx'; [lia|auto].
    + specialize (IH (S i) best Hb). destruct (d_find size (S i) best l) as [j|].
      * destruct IH as [(m' & E1 & H1)|(k & b' & -> & H1 & H2 & H3 & H4)].
        -- left. exists m'. split; [exact E1|]. intros x [<-|Hx] Hx'; [lia|auto].
        -- right. exists (S k), b'. split; [lia|]. split; [exact H1|]. split; [exact H2|]. split; [|exact H4].
           intros x [<-|Hx] Hx'; [lia|auto].
      * destruct IH as [-> H1]. split; [reflexivity|]. intros x [<-|Hx]; [lia|auto].
Qed.

Lemma d_find_none size l : d_find size 0 None l = None -> forall b, In b l -> d_size b < size.
Proof. intros E. pose proof (d_find_spec size l 0 None I) as H. rewrite E in H. apply H. Qed.
Lemma d_find_some size l i : d_find size 0 None l = Some i ->
  exists b, nth_error l i = Some b /\ size <= d_size b /\ forall b', In b' l -> size <= d_size b' -> d_size b <= d_size b'.
Proof.
  intros E. pose proof (d_find_spec size l 0 None I) as H. rewrite E in H. destruct H as [(m & E1 & _)|(k & b & -> & H1 & H2 & H3 & _)]; [discriminate|].
  exists b. auto.
Qed.

(** Putting a block into the free list: [Y] and [Z] are the neighbours it merges with. *)
Definition dreg (b : dblock) : region := (d_data b, d_size b).
Definition olist {T} (o : option T) : list T := match o with Some x => [x] | None => [] end.
Definition d_join (Y : option dblock) (c : dblock) (Z : option dblock) : dblock :=
  mkD (match Y with Some y => d_data y | None => d_data c end)
      (match Y with Some y => d_size y | None => 0 end + d_size c + match Z with Some z => d_size z | None => 0 end)
      (match Y with Some y => d_bsize y | None => d_bsize c end).

Lemma d_put_ok c F (Y Zo : option dblock) :
  pairwise dlt F -> 
  (forall b, In b (c :: F) -> 0 < d_data b /\ 0 < d_size b /\ d_data b + d_size b <= ASP) ->
  (forall a b, In a (c :: F) -> In b F -> a = b \/ disj (dreg a) (dreg b)) ->
  ~ In c F ->
  (forall p, In p F -> d_data p + d_size p = d_data c -> d_bsize c = 0 -> Y = Some p) ->
  (forall y, Y = Some y -> In y F /\ d_data y + d_size y = d_data c /\ d_bsize c = 0) ->
  (forall n, In n F -> d_data c + d_size c = d_data n -> d_bsize n = 0 -> Zo = Some n) ->
  (forall z, Zo = Some z -> In z F /\ d_data c + d_size c = d_data z /\ d_bsize z = 0) ->
  exists F0 F', Permutation F (olist Y ++ olist Zo ++ F0) /\ d_put c F = (F', d_join Y c Zo) /\
    Permutation F' (d_join Y c Zo :: F0) /\ pairwise dlt F'.
Proof.
  intros Hs Hr Hd Hc HY1 HY2 HZ1 HZ2. unfold d_put.
  destruct (d_before (d_data c) F) as [pre nx] eqn:Eb.
  destruct (d_before_spec _ _ _ _ Hs Eb) as (EF & Hp & Hn).
  assert (HS : pairwise dlt pre /\ pairwise dlt nx /\ (forall x y, In x pre -> In y nx -> dlt x y)) by (apply pairwise_app; now rewrite <- EF).
  destruct HS as (Sp & Sn & Spn). pose proof ASP_M64 as HAM.
  pose proof (Hr c (or_introl eq_refl)) as Rc.
  (* everything in [pre] ends before [c], everything in [nx] starts after it *)
  assert (HpE : forall p, In p pre -> d_data p + d_size p <= d_data c).
  { intros p Hi. assert (Hi' : In p F) by (rewrite EF; apply in_or_app; auto). pose proof (Hp p Hi).
    destruct (Hd c p (or_introl eq_refl) Hi') as [->|D]; [lia|]. pose proof (Hr p (or_intror Hi')). unfold disj, dreg in D. cbn [fst snd] in D. lia. }
  assert (HnE : forall n, In n nx -> d_data c + d_size c <= d_data n).
  { intros p Hi. assert (Hi' : In p F) by (rewrite EF; apply in_or_app; auto). pose proof (Hn p Hi).
    destruct (Hd c p (or_introl eq_refl) Hi') as [->|D]; [contradiction|]. pose proof (Hr p (or_intror Hi')). unfold disj, dreg in D. cbn [fst snd] in D. lia. }
  assert (Hpre : exists pre0, Permutation pre (olist Y ++ pre0) /\
     (let '(pre', curr') := match rev pre with
       | prev :: r => if (w64 (d_data prev + d_size prev) =? d_data c) && (d_bsize c =? 0)
                      then (rev r, mkD (d_data prev) (w64 (d_size prev + d_size c)) (d_bsize prev)) else (pre, c)
       | [] => (pre, c) end in
      pre' = pre0 /\ curr' = d_join Y c None) /\
     (forall p, In p pre0 -> d_data p < d_data (d_join Y c None)) /\ pairwise dlt pre0).
  { destruct (last_split pre) as [E|(pre0 & y & E)].
    - rewrite E in *. cbn [rev]. destruct Y as [y|].
      + destruct (HY2 y eq_refl) as (I1 & I2 & I3). pose proof (Hr y (or_intror I1)). rewrite EF in I1. cbn [app] in I1. specialize (HnE y I1). lia.
      + exists []. split; [reflexivity|]. split; [|split; [intros ? []|exact I]]. split; [reflexivity|]. unfold d_join. rewrite Z.add_0_l, Z.add_0_r. destruct c; reflexivity.
    - rewrite E in *. rewrite rev_app_distr. cbn [rev app].
      assert (Hy : In y (pre0 ++ [y])) by (apply in_or_app; simpl; auto).
      assert (HyF : In y F) by (rewrite EF; apply in_or_app; auto).
      pose proof (Hr y (or_intror HyF)) as Ry. apply pairwise_app in Sp as (Sp0 & _ & Sp1).
      rewrite w64_small by lia.
      destruct ((d_data y + d_size y =? d_data c) && (d_bsize c =? 0)) eqn:Et.
      + apply andb_prop in Et as [Et1 Et2]. apply Z.eqb_eq in Et1, Et2.
        pose proof (HY1 y HyF Et1 Et2) as ->. exists pre0. split; [cbn [olist app]; symmetry; apply Permutation_cons_append|].
        split; [|split; [|exact Sp0]].
        * split; [apply rev_involutive|]. rewrite w64_small by lia. unfold d_join. f_equal. lia.
        * intros p Hi. cbn [d_join d_data]. apply (Sp1 p y Hi (or_introl eq_refl)).
      + destruct Y as [y'|].
        * exfalso. destruct (HY2 y' eq_refl) as (I1 & I2 & I3). pose proof (Hr y' (or_intror I1)).
          rewrite EF in I1. apply in_app_or in I1 as [I1|I1].
          -- apply in_app_or in I1 as [I1|[<-|[]]].
             ++ pose proof (Sp1 y' y I1 (or_introl eq_refl)) as Hlt. unfold dlt in Hlt.
                assert (HyF' : In y' F) by (rewrite EF; apply in_or_app; left; apply in_or_app; auto).
                pose proof (HpE y Hy). destruct (Hd y' y (or_intror HyF') HyF) as [->|D]; [lia|].
                pose proof (Hr y' (or_intror HyF')). unfold disj, dreg in D. cbn [fst snd] in D. lia.
             ++ rewrite I2, I3, !Z.eqb_refl in Et. discriminate.
          -- pose proof (HnE y' I1). lia.
        * exists (pre0 ++ [y]). split; [reflexivity|]. split; [|split].
          -- split; [reflexivity|]. unfold d_join. rewrite Z.add_0_l, Z.add_0_r. destruct c; reflexivity.
          -- intros p Hi. cbn [d_join d_data]. auto.
          -- apply pairwise_app. cbn [pairwise]. split; [exact Sp0|]. split; [split; [intros ? []|exact I]|exact Sp1]. }
  destruct Hpre as (pre0 & PP & HJ & PL & PS0).
  destruct (match rev pre with
       | prev :: r => if (w64 (d_data prev + d_size prev) =? d_data c) && (d_bsize c =? 0)
                      then (rev r, mkD (d_data prev) (w64 (d_size prev + d_size c)) (d_bsize prev)) else (pre, c)
       | [] => (pre, c) end) as [pre' curr']. destruct HJ as [-> ->].
  set (m := d_join Y c None) in *.
  assert (Hm : d_data m + d_size m = d_data c + d_size c /\ 0 < d_data m /\ d_data m <= d_data c /\ 0 < d_size m).
  { unfold m, d_join. destruct Y as [y|]; cbn [d_data d_size].
    - destruct (HY2 y eq_refl) as (I1 & I2 & I3). pose proof (Hr y (or_intror I1)). lia.
    - lia. }
  assert (Hpp : forall p, In p pre0 -> In p pre) by (intros p Hi; apply (Permutation_in _ (Permutation_sym PP)), in_or_app; auto).
  assert (Hsort : forall m' t, d_data m' = d_data m -> pairwise dlt t -> incl t nx -> pairwise dlt (pre0 ++ m' :: t)).
  { intros m' t E St Ht. apply pairwise_app. cbn [pairwise]. split; [exact PS0|]. split; [split; [|exact St]|].
    - intros y Hy. unfold dlt. rewrite E. pose proof (HnE y (Ht y Hy)). lia.
    - intros x y Hx [<-|Hy]; unfold dlt; [rewrite E; auto|]. apply Spn; auto. }
  destruct nx as [|n t].
  - destruct Zo as [z|].
    + destruct (HZ2 z eq_refl) as (I1 & I2 & I3). pose proof (Hr z (or_intror I1)). rewrite EF, app_nil_r in I1. pose proof (HpE z I1). lia.
    + exists pre0, (pre0 ++ [m]). split; [rewrite EF, app_nil_r; exact PP|]. split; [reflexivity|].
      split; [symmetry; apply Permutation_cons_append|]. apply Hsort; auto. apply incl_refl.
  - assert (HnF : In n F) by (rewrite EF; apply in_or_app; simpl; auto).
    pose proof (Hr n (or_intror HnF)) as Rn. cbn [pairwise] in Sn. destruct Sn as [Sn1 Sn2].
    rewrite w64_small by lia.
    destruct ((d_data m + d_size m =? d_data n) && (d_bsize n =? 0)) eqn:Et.
    + apply andb_prop in Et as [Et1 Et2]. apply Z.eqb_eq in Et1, Et2.
      pose proof (HZ1 n HnF ltac:(lia) Et2) as ->.
      exists (pre0 ++ t), (pre0 ++ d_join Y c (Some n) :: t).
      assert (Ej : mkD (d_data m) (w64 (d_size m + d_size n)) (d_bsize m) = d_join Y c (Some n)).
      { rewrite w64_small by lia. unfold m, d_join. cbn [d_data d_size d_bsize]. f_equal. lia. }
      split; [|split; [|split]].
      * rewrite EF, PP, <- app_assoc. cbn [olist]. apply Permutation_app_head. cbn [app].
        symmetry. apply Permutation_middle.
      * rewrite Ej. reflexivity.
      * symmetry. apply Permutation_middle.
      * apply Hsort; auto. intros x Hx; simpl; auto.
    + assert (Zo = None) as ->.
      { destruct Zo as [z|]; [|reflexivity]. exfalso. destruct (HZ2 z eq_refl) as (I1 & I2 & I3). pose proof (Hr z (or_intror I1)).
        rewrite EF in I1. apply in_app_or in I1 as [I1|[<-|I1]].
        - pose proof (HpE z I1). lia.
        - rewrite I3, Z.eqb_refl, andb_true_r in Et. apply Z.eqb_neq in Et. lia.
        - specialize (Sn1 z I1). unfold dlt in Sn1. pose proof (HnE n (or_introl eq_refl)). lia. }
      exists (pre0 ++ n :: t), (pre0 ++ m :: n :: t). split; [|split; [|split]].
      * rewrite EF, PP, <- app_assoc. reflexivity.
      * reflexivity.
      * symmetry. apply Permutation_middle.
      * apply Hsort; auto; [|apply incl_refl]. cbn [pairwise]; auto.
Qed.
