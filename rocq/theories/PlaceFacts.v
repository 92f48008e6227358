(** Lemmas behind the properties of the strategies that place memory. *)
From Coq Require Import String Permutation.
From Verif Require Import Base BaseFacts RegistryModel OpTableModel OpTableSpec OpTableFacts MapModel AsyncModel PlaceModel PlaceSpec.

Lemma Ok_inj (W A : Type) (w w' : W) (a a' : A) : Ok w a = Ok w' a' -> w = w' /\ a = a'.
Proof. now intros [= -> ->]. Qed.
Arguments Ok_inj {W A w w' a a'}.

(** Blocks that begin on page boundaries and do not overlap are on different pages. *)
Lemma place_memalign page (Hpage : 0 < page) q n l : q mod page = 0 -> (forall p m, In (p, m) l -> p mod page = 0) -> disjoint_from q n l ->
  apart page q n l.
Proof.
  intros Hq Hl Hd p m x y Hi Hx Hy E. specialize (Hl p m Hi).
  pose proof (Z.div_mod q page ltac:(lia)). pose proof (Z.div_mod p page ltac:(lia)).
  pose proof (Z.div_mod x page ltac:(lia)). pose proof (Z.div_mod y page ltac:(lia)).
  pose proof (Z.mod_pos_bound x page Hpage). pose proof (Z.mod_pos_bound y page Hpage).
  assert (q / page <= x / page) by (apply Z.div_le_mono; lia). assert (p / page <= y / page) by (apply Z.div_le_mono; lia).
  assert (H9 : p <= q \/ q <= p) by lia. destruct H9 as [H9|H9].
  - assert (q <= y). { assert (p + 0 <= q) by lia. nia. }
    apply (Hd p m (Z.max q p) Hi). split; [lia|]. nia.
  - apply (Hd p m (Z.max q p) Hi). assert (p <= x) by nia. lia.
Qed.

Section Pages.
  Context (page : Z) (Hpage : 0 < page).
  Local Notation in_pages := (in_pages page).

  Lemma in_pages_byte p n x : p <= x < p + n -> in_pages p n (x / page) = true.
  Proof.
    intros H. unfold PlaceModel.in_pages. assert (p / page <= x / page) by (apply Z.div_le_mono; lia).
    assert (x / page <= (p + n - 1) / page) by (apply Z.div_le_mono; lia). lia.
  Qed.

  Lemma in_pages_inv p n g : in_pages p n g = true -> exists x, p <= x < p + n /\ x / page = g.
  Proof.
    unfold PlaceModel.in_pages. intros H. apply andb_prop in H as [H H2]. apply andb_prop in H as [H0 H1].
    assert (0 < n) by lia. assert (p / page <= g) by lia. assert (g <= (p + n - 1) / page) by lia.
    destruct (Z.eq_dec g (p / page)) as [-> | Hn]; [exists p; split; [lia|reflexivity]|].
    exists (g * page). split; [|now rewrite Z.div_mul by lia].
    assert (g * page <= (p + n - 1) / page * page) by nia.
    pose proof (Z.mul_div_le (p + n - 1) page Hpage). pose proof (Z.mul_succ_div_gt p page Hpage). nia.
  Qed.

  Lemma apart_pages q n p m l g : apart page q n l -> In (p, m) l -> in_pages q n g = true -> in_pages p m g = false.
  Proof.
    intros Ha Hi Hq. destruct (in_pages p m g) eqn:E; auto. apply in_pages_inv in Hq as (x & Hx & Ex), E as (y & Hy & Ey).
    exfalso. apply (Ha p m x y); auto. congruence.
  Qed.
End Pages.

Section Facts.
  Context (c : opconfig) (page : Z) (Hpage : 0 < page).
  Context (available : bool) (usable : Z -> bool).
  Context (binds : nat -> option (Z -> bool)) (plat : Z -> platform) (place : nat -> Z -> Z -> option Z).
  Context (fails : nat -> bool) (current : Z) (props : Z -> option bool) (strat_of : Z -> strat).

  Local Notation mbind := (mbind page usable binds).
  Local Notation move_to_node := (move_to_node page available usable binds).
  Local Notation s_allocate := (s_allocate page available usable binds place fails current props).
  Local Notation p_allocate := (p_allocate page available usable binds place fails current props strat_of).
  Local Notation p_move := (p_move c page available usable binds plat place fails current props strat_of).
  Local Notation p_do := (p_do c page available usable binds plat place fails current props strat_of).
  Local Notation in_pages := (in_pages page).
  Local Notation get_location := (get_location page).
  Local Notation in_pages_byte := (in_pages_byte page Hpage).
  Local Notation in_pages_inv := (in_pages_inv page Hpage).
  Local Notation apart_pages := (apart_pages page Hpage).

  Lemma mbind_spec p n k w : exists w' b, mbind p n k w = Ok w' b /\
    p_live w' = p_live w /\ p_taken w' = p_taken w /\ p_masks w' = p_masks w /\ p_hints w' = p_hints w /\
    p_calls w' = S (p_calls w) /\
    (forall g, in_pages p n g = false -> p_node w' g = p_node w g) /\
    (b = true -> p mod page = 0 /\ usable k = true /\ forall g, in_pages p n g = true -> p_node w' g = Some k).
  Proof.
    clear c available place fails current props plat strat_of Hpage.
    unfold PlaceModel.mbind. destruct (negb (p mod page =? 0) || negb (usable k)) eqn:E.
    - exists (p_called w), false. repeat split; auto; discriminate.
    - apply orb_false_elim in E as [E1 E2]. apply negb_false_iff in E1, E2.
      destruct (binds (p_calls w)) as [f|].
      + exists (with_node (fun g => if in_pages p n g && f g then Some k else p_node w g) (p_called w)), false.
        repeat split; auto; try discriminate. intros g Hg. cbn. now rewrite Hg.
      + exists (with_node (fun g => if in_pages p n g && true then Some k else p_node w g) (p_called w)), true.
        repeat split; auto; try lia. * intros g Hg. cbn. now rewrite Hg. * intros g Hg. cbn. now rewrite Hg.
  Qed.

  (** What a call on the nodes leaves as it is. *)
  Definition same_but (p n : Z) (w w' : pworld) : Prop :=
    p_live w' = p_live w /\ p_taken w' = p_taken w /\ p_hints w' = p_hints w /\
    forall g, in_pages p n g = false -> p_node w' g = p_node w g.

  Lemma move_to_node_spec p n k w :
    match move_to_node p n k w with
    | Ok w' _ => same_but p n w w' /\ p_masks w' = p_masks w /\ p mod page = 0 /\ usable k = true /\ available = true /\
                 forall g, in_pages p n g = true -> p_node w' g = Some k
    | Throw w' e => same_but p n w w' /\ p_masks w' = (if available then p_masks w + 1 else p_masks w) /\ e = RuntimeError
    | _ => False
    end.
  Proof.
    clear c place fails current props plat strat_of Hpage.
    unfold PlaceModel.move_to_node. destruct available; cbn [negb].
    - destruct (mbind_spec p n k (with_masks (p_masks w + 1) w)) as (w' & b & -> & H1 & H2 & H3 & H4 & H5 & H6 & H7).
      destruct b.
      + destruct (H7 eq_refl) as (A & B & D). split; [repeat split; auto|]. split; [cbn in *; lia|auto].
      + repeat split; auto.
    - repeat split; auto.
  Qed.

  Lemma apply_op_spec op p d n w :
    match apply_op fails current props op p d n w with
    | Ok w' _ => p_live w' = p_live w /\ p_taken w' = p_taken w /\ p_node w' = p_node w /\ p_masks w' = p_masks w
    | Throw w' _ => p_live w' = p_live w /\ p_taken w' = p_taken w /\ p_node w' = p_node w /\ p_masks w' = p_masks w
    | UB => op = SyclMemPrefetchOperation
    | _ => False
    end.
  Proof.
    unfold apply_op. destruct op; auto 6; try (destruct (fails (p_calls w)); auto 6; fail).
    destruct (props (if d =? -1 then current else d)) as [[|]|]; auto 6. destruct (fails (p_calls w)); auto 6.
  Qed.

  Lemma s_allocate_spec t : forall n w,
    match s_allocate t n w with
    | Ok w' q => (exists i, place (p_calls w) i n = Some q) /\ p_live w' = p_live w /\ p_taken w' = (q, n) :: p_taken w /\
                 p_masks w' = p_masks w /\
                 (forall g, in_pages q n g = false -> p_node w' g = p_node w g) /\
                 (forall k, policy_node t = Some k -> forall g, in_pages q n g = true -> p_node w' g = Some k)
    | Throw w' _ => p_live w' = p_live w /\
                    ((p_taken w' = p_taken w /\ p_node w' = p_node w /\ p_masks w' = p_masks w) \/
                     exists i q, place (p_calls w) i n = Some q /\ p_taken w' = (q, n) :: p_taken w /\
                                 p_masks w <= p_masks w' <= p_masks w + 1 /\
                                 forall g, in_pages q n g = false -> p_node w' g = p_node w g)
    | UB => True
    | _ => False
    end.
  Proof.
    clear c plat strat_of Hpage.
    induction t as [i|k pf t IH|op d t IH|op d t IH]; intros n w; cbn [PlaceModel.s_allocate policy_node].
    - destruct (place (p_calls w) i n) as [q|] eqn:E.
      + repeat split; eauto. intros k E2. discriminate.
      + split; [reflexivity|left; auto].
    - specialize (IH n w). destruct (s_allocate t n w) as [w1 q|w1 e| | |]; try contradiction; auto.
      destruct IH as ((i & Hi) & L & T & M & N & P). pose proof (move_to_node_spec q n k w1) as H. cbn [bind].
      destruct (move_to_node q n k w1) as [w2 u|w2 e| | |]; cbn [bind]; try contradiction.
      + destruct H as ((A1 & A2 & A3 & A4) & A5 & A6 & A7 & A8 & A9). split; [eauto|]. split; [congruence|]. split; [congruence|].
        split; [congruence|]. split; [intros g Hg; rewrite A4, N by auto; reflexivity|].
        intros k' E g Hg. injection E as <-. auto.
      + destruct H as ((A1 & A2 & A3 & A4) & A5 & A6). split; [congruence|]. right. exists i, q.
        split; [auto|]. split; [congruence|]. split; [destruct available; lia|].
        intros g Hg. rewrite A4, N by auto. reflexivity.
    - specialize (IH n w). destruct (s_allocate t n w) as [w1 q|w1 e| | |]; try contradiction; auto.
      destruct IH as ((i & Hi) & L & T & M & N & P). pose proof (apply_op_spec op q d n w1) as H. cbn [bind].
      destruct (apply_op fails current props op q d n w1) as [w2 u|w2 e| | |]; cbn [bind]; try contradiction; auto.
      + destruct H as (A1 & A2 & A3 & A4). cbn [bind]. rewrite A1, A2, A3, A4. repeat split; eauto.
      + destruct H as (A1 & A2 & A3 & A4). cbn [bind]. rewrite A1, A2, A3, A4. split; [auto|]. right. exists i, q. repeat split; auto; lia.
    - specialize (IH n w). destruct (s_allocate t n w) as [w1 q|w1 e| | |]; try contradiction; auto.
      destruct IH as ((i & Hi) & L & T & M & N & P). pose proof (apply_op_spec op q d n w1) as H. cbn [bind].
      destruct (apply_op fails current props op q d n w1) as [w2 u|w2 e| | |]; cbn [bind]; try contradiction; auto.
      + destruct H as (A1 & A2 & A3 & A4). cbn [bind]. rewrite A1, A2, A3, A4. repeat split; eauto.
      + destruct H as (A1 & A2 & A3 & A4). cbn [bind]. rewrite A1, A2, A3, A4. split; [auto|]. right. exists i, q. repeat split; auto; lia.
  Qed.

  Lemma s_deallocate_spec t : forall p w,
    p_live (s_deallocate t p w) = p_live w /\ p_taken (s_deallocate t p w) = drop_block p (p_taken w) /\
    p_node (s_deallocate t p w) = p_node w /\ p_masks (s_deallocate t p w) = p_masks w.
  Proof. induction t; intros p w; cbn [s_deallocate]; auto. Qed.

  (** *** The invariant *)

  Definition block (r : arec) : Z * Z := (r_ptr r, r_size r).
  Definition known (x : home) : arec := mkRec (ho_ptr x) (ho_size x) (ho_owner x) 0.
  Definition blocks (h : list home) : list (Z * Z) := map (fun x => (ho_ptr x, ho_size x)) h.

  Fixpoint all_apart (l : list (Z * Z)) : Prop :=
    match l with [] => True | (p, n) :: l' => 0 < n /\ apart page p n l' /\ all_apart l' end.

  Definition inv (w : pworld) (h : list home) : Prop :=
    p_live w = map known h /\
    (exists rest, Permutation (p_taken w) (blocks h ++ rest)) /\
    all_apart (p_taken w) /\
    forall x k, In x h -> ho_node x = Some k -> forall g, in_pages (ho_ptr x) (ho_size x) g = true -> p_node w g = Some k.

  Lemma apart_incl q n l l' : incl l' l -> apart page q n l -> apart page q n l'.
  Proof. intros Hi Ha p m x y H. apply (Ha p m x y). auto. Qed.

  Lemma all_apart_perm l l' : Permutation l l' -> all_apart l -> all_apart l'.
  Proof.
    induction 1 as [|[p n] l l' Hp IH|[p n] [q m] l|l l' l'' H1 IH1 H2 IH2]; cbn [all_apart]; auto.
    - intros (H1 & H2 & H3). split; auto. split; auto. eapply apart_incl; [|exact H2].
      intros b Hb. eapply Permutation_in; [apply Permutation_sym; eauto|auto].
    - intros (H1 & H2 & H3 & H4 & H5). repeat split; auto.
      + intros p' m' x y [E|Hi] Hx Hy.
        * injection E as <- <-. intros E. apply (H2 p n y x); auto. now left.
        * apply (H4 p' m' x y); auto.
      + intros p' m' x y Hi. apply (H2 p' m' x y). now right.
  Qed.

  Lemma all_apart_app l l' : all_apart (l ++ l') -> all_apart l'.
  Proof. induction l as [|[p n] l IH]; cbn [app all_apart]; tauto. Qed.

  Lemma all_apart_app_l l l' : all_apart (l ++ l') -> all_apart l.
  Proof.
    induction l as [|[p n] l IH]; cbn [app all_apart]; auto. intros (H1 & H2 & H3). repeat split; auto.
    eapply apart_incl; [|exact H2]. apply incl_appl, incl_refl.
  Qed.

  Lemma all_apart_first p n m l : all_apart ((p, n) :: l) -> In (p, m) l -> False.
  Proof.
    intros (H1 & H2 & H3) Hi. assert (0 < m).
    { clear H2. revert Hi H3. induction l as [|[q k] l IH]; [intros []|].
      intros [E|Hi] (A & B & D); [injection E as -> ->; auto|auto]. }
    apply (H2 p m p p); auto; lia.
  Qed.

  Lemma drop_block_perm p n l l' : all_apart l -> Permutation l ((p, n) :: l') -> Permutation (drop_block p l) l'.
  Proof.
    revert l'. induction l as [|[q m] l IH]; intros l' Ha Hp.
    - apply Permutation_nil in Hp. discriminate.
    - cbn [drop_block fst]. destruct (q =? p) eqn:E.
      + assert (q = p) by lia. subst q. assert (Hi : In (p, n) ((p, m) :: l)) by (eapply Permutation_in; [apply Permutation_sym; eauto|now left]).
        destruct Hi as [E2|Hi]; [|exfalso; eauto using all_apart_first].
        injection E2 as ->. eapply Permutation_cons_inv; eauto.
      + assert (Hi : In (q, m) l').
        { assert (Hi : In (q, m) ((p, n) :: l')) by (eapply Permutation_in; [eauto|now left]).
          destruct Hi as [E2|Hi]; auto. injection E2 as -> ->. lia. }
        apply in_split in Hi as (l1 & l2 & ->).
        assert (Hp2 : Permutation l ((p, n) :: l1 ++ l2)).
        { eapply Permutation_cons_inv with (a := (q, m)). rewrite Hp. rewrite perm_swap. constructor.
          apply Permutation_sym, Permutation_middle. }
        rewrite (IH (l1 ++ l2)); [apply Permutation_middle| |auto]. now destruct Ha as (_ & _ & Ha).
  Qed.

  Lemma find_known p h : find (fun r => r_ptr r =? p) (map known h) = option_map known (find (fun x => ho_ptr x =? p) h).
  Proof. induction h as [|x h IH]; cbn; auto. destruct (ho_ptr x =? p); auto. Qed.

  Lemma drop_known p h : drop_rec p (map known h) = map known (drop_home p h).
  Proof. induction h as [|x h IH]; cbn; auto. destruct (ho_ptr x =? p); auto. cbn. now rewrite IH. Qed.

  Lemma find_in p h x : find (fun x => ho_ptr x =? p) h = Some x -> In x h /\ ho_ptr x = p.
  Proof. intros H. apply find_some in H. split; [tauto|lia]. Qed.

  Lemma drop_home_perm p x h : find (fun x => ho_ptr x =? p) h = Some x -> Permutation h (x :: drop_home p h).
  Proof.
    induction h as [|y h IH]; cbn [find drop_home]; [discriminate|]. destruct (ho_ptr y =? p) eqn:E.
    - intros E2. injection E2 as ->. apply Permutation_refl.
    - intros H. rewrite perm_swap. constructor. auto.
  Qed.

  Lemma in_drop_home p x h : In x (drop_home p h) -> In x h.
  Proof.
    induction h as [|y h IH]; cbn [drop_home]; auto. destruct (ho_ptr y =? p); [now right|].
    intros [->|H]; [now left|right; auto].
  Qed.

  Lemma in_blocks x h : In x h -> In (ho_ptr x, ho_size x) (blocks h).
  Proof. intros H. apply in_map_iff. now exists x. Qed.

  Lemma inv_size w h x : inv w h -> In x h -> 0 < ho_size x.
  Proof.
    intros (I1 & (rest & I2) & I3 & I4) Hx. apply (all_apart_perm _ _ I2), all_apart_app_l in I3.
    apply in_blocks in Hx. clear I2. revert I3 Hx. induction (blocks h) as [|[p n] l IH]; [intros _ []|].
    intros (A & B & D) [E|Hi]; [injection E as E1 E2; lia|auto].
  Qed.

  Lemma inv_taken w h x : inv w h -> In x h -> In (ho_ptr x, ho_size x) (p_taken w).
  Proof.
    intros (I1 & (rest & I2) & I3 & I4) Hx. eapply Permutation_in; [apply Permutation_sym; exact I2|].
    apply in_or_app. left. now apply in_blocks.
  Qed.

  (** Two allocations are on different pages. *)
  Lemma inv_other w h x y g : inv w h -> In x h -> In y h -> ho_ptr x <> ho_ptr y ->
    in_pages (ho_ptr x) (ho_size x) g = true -> in_pages (ho_ptr y) (ho_size y) g = false.
  Proof.
    intros (I1 & (rest & I2) & I3 & I4) Hx Hy Hn Hg. apply (all_apart_perm _ _ I2), all_apart_app_l in I3.
    assert (Hp : exists l, Permutation (blocks h) ((ho_ptr x, ho_size x) :: l) /\ In (ho_ptr y, ho_size y) l).
    { apply in_blocks in Hx as Hbx. apply in_split in Hbx as (l1 & l2 & E). exists (l1 ++ l2). rewrite E.
      split; [apply Permutation_sym, Permutation_middle|]. apply in_blocks in Hy. rewrite E in Hy.
      apply in_app_or in Hy as [Hy|[Hy|Hy]]; [apply in_or_app; auto|congruence|apply in_or_app; auto]. }
    destruct Hp as (l & Hl & Hi). apply (all_apart_perm _ _ Hl) in I3. destruct I3 as (_ & Ha & _).
    eapply apart_pages; eauto.
  Qed.

  (** Names of the homes stay what they are unless dropped: a home of the same address is the same home. *)
  Lemma inv_unique w h x y : inv w h -> In x h -> In y h -> ho_ptr x = ho_ptr y -> ho_size x = ho_size y.
  Proof.
    intros (I1 & (rest & I2) & I3 & I4) Hx Hy E. apply (all_apart_perm _ _ I2), all_apart_app_l in I3.
    apply in_blocks in Hx as Hbx, Hy as Hby. apply in_split in Hbx as (l1 & l2 & El). rewrite El in *.
    assert (Hp : Permutation (l1 ++ (ho_ptr x, ho_size x) :: l2) ((ho_ptr x, ho_size x) :: l1 ++ l2)) by (apply Permutation_sym, Permutation_middle).
    apply (all_apart_perm _ _ Hp) in I3. apply (Permutation_in _ Hp) in Hby. destruct Hby as [E2|Hi]; [congruence|].
    exfalso. rewrite <- E in Hi. eapply all_apart_first; eauto.
  Qed.

  Lemma inv_deallocate w h p w' a : inv w h -> p_deallocate strat_of p w = Ok w' a -> inv w' (drop_home p h) /\
    p_node w' = p_node w /\ p_masks w' = p_masks w.
  Proof.
    intros I. pose proof I as (I1 & (rest & I2) & I3 & I4). unfold p_deallocate. rewrite I1, find_known.
    destruct (find (fun x => ho_ptr x =? p) h) as [x|] eqn:E; cbn [option_map]; [|discriminate].
    intros E2. apply Ok_inj in E2 as (<- & _).
    destruct (s_deallocate_spec (strat_of (r_strat (known x))) p (with_live (drop_rec p (map known h)) w)) as (A1 & A2 & A3 & A4).
    split; [|split; [exact A3|exact A4]].
    apply drop_home_perm in E as Hp. apply (Permutation_map (fun x => (ho_ptr x, ho_size x))) in Hp. cbn [map] in Hp.
    apply find_in in E as (_ & Ep).
    assert (D : Permutation (p_taken (s_deallocate (strat_of (r_strat (known x))) p (with_live (drop_rec p (map known h)) w)))
                  (blocks (drop_home p h) ++ rest)).
    { rewrite A2. cbn [p_taken with_live]. apply drop_block_perm with (n := ho_size x); auto.
      rewrite I2. change (blocks h) with (map (fun x => (ho_ptr x, ho_size x)) h). rewrite Hp. cbn [app]. now rewrite Ep. }
    split; [rewrite A1; cbn [p_live with_live]; apply drop_known|]. split; [now exists rest|]. split.
    - apply (all_apart_perm _ _ I2) in I3. apply (all_apart_perm _ _ (Permutation_sym D)).
      change (blocks h) with (map (fun x => (ho_ptr x, ho_size x)) h) in I3.
      assert (Hq : Permutation (map (fun x => (ho_ptr x, ho_size x)) h ++ rest) ((ho_ptr x, ho_size x) :: (blocks (drop_home p h) ++ rest)))
        by (rewrite Hp; apply Permutation_refl).
      apply (all_apart_perm _ _ Hq) in I3. now destruct I3 as (_ & _ & I3).
    - intros y k Hy Hk g Hg. rewrite A3. cbn [p_node with_live]. eapply I4; eauto using in_drop_home.
  Qed.

  Lemma inv_allocate w h i n w' q : inv w h -> 0 < n -> (forall i n q, place (p_calls w) i n = Some q -> 0 < n -> apart page q n (p_taken w)) ->
    p_allocate i n w = Ok w' q -> inv w' (mkHome q n i (policy_node (strat_of i)) :: h) /\ ~ In q (map ho_ptr h) /\ p_masks w' = p_masks w.
  Proof.
    intros I Hn Hf. pose proof I as (I1 & (rest & I2) & I3 & I4). unfold PlaceModel.p_allocate.
    pose proof (s_allocate_spec (strat_of i) n w) as H. destruct (s_allocate (strat_of i) n w) as [w1 q1|w1 e| | |]; try discriminate.
    destruct H as ((j & Hj) & L & T & M & N & P). intros E. apply Ok_inj in E as (<- & <-).
    specialize (Hf _ _ _ Hj Hn). split; [|split; [|exact M]].
    - split; [cbn [p_live with_live map]; unfold known at 1; cbn [ho_ptr ho_size ho_owner]; congruence|].
      split; [exists rest; cbn [p_taken with_live blocks map ho_ptr ho_size app]; rewrite T; now constructor|].
      split; [cbn [p_taken with_live]; rewrite T; cbn [all_apart]; auto|].
      cbn [p_node with_live]. intros x k [<-|Hx] Hk g Hg; cbn [ho_node ho_ptr ho_size] in *; [eauto|].
      rewrite N; [eauto|]. destruct (in_pages q1 n g) eqn:Eg; auto.
      rewrite (apart_pages q1 n (ho_ptr x) (ho_size x) (p_taken w) g) in Hg; auto. eauto using inv_taken.
    - intros Hq. apply in_map_iff in Hq as (x & Ex & Hx). pose proof (inv_taken _ _ _ I Hx) as Ht.
      pose proof (inv_size _ _ _ I Hx). apply (Hf _ _ q1 q1 Ht); lia.
  Qed.

  Lemma inv_allocate_throw w h i n w' e : inv w h -> 0 < n -> (forall i n q, place (p_calls w) i n = Some q -> 0 < n -> apart page q n (p_taken w)) ->
    p_allocate i n w = Throw w' e -> inv w' h.
  Proof.
    intros I Hn Hf. pose proof I as (I1 & (rest & I2) & I3 & I4). unfold PlaceModel.p_allocate.
    pose proof (s_allocate_spec (strat_of i) n w) as H. destruct (s_allocate (strat_of i) n w) as [w1 q1|w1 e1| | |]; try discriminate.
    intros E. injection E as <- <-. destruct H as (L & [(T & N & M)|(j & q & Hj & T & M & N)]).
    - unfold inv. rewrite L, T, N. repeat split; eauto.
    - specialize (Hf _ _ _ Hj Hn). unfold inv. rewrite L, T. repeat split; auto.
      + exists ((q, n) :: rest). rewrite I2. apply Permutation_middle.
      + intros x k Hx Hk g Hg. rewrite N; [eauto|]. destruct (in_pages q n g) eqn:Eg; auto.
        rewrite (apart_pages q n (ho_ptr x) (ho_size x) (p_taken w) g) in Hg; auto. eauto using inv_taken.
  Qed.

  Lemma known_settle p k h : map known (settle p k h) = map known h.
  Proof. unfold settle. rewrite map_map. apply map_ext. intros x. now destruct (ho_ptr x =? p). Qed.

  Lemma blocks_settle p k h : blocks (settle p k h) = blocks h.
  Proof. unfold settle, blocks. rewrite map_map. apply map_ext. intros x. now destruct (ho_ptr x =? p). Qed.

  Lemma inv_settle w h x k w' : inv w h -> In x h -> same_but (ho_ptr x) (ho_size x) w w' ->
    (forall k', k = Some k' -> forall g, in_pages (ho_ptr x) (ho_size x) g = true -> p_node w' g = Some k') ->
    inv w' (settle (ho_ptr x) k h).
  Proof.
    intros I Hx (S1 & S2 & S3 & S4) Hk. pose proof I as (I1 & (rest & I2) & I3 & I4).
    unfold inv. rewrite S1, S2, known_settle, blocks_settle. repeat split; eauto.
    intros y k' Hy Ek g Hg. apply in_map_iff in Hy as (z & Ez & Hz). destruct (ho_ptr z =? ho_ptr x) eqn:E.
    - subst y. cbn [ho_node ho_ptr ho_size] in *. assert (ho_ptr z = ho_ptr x) by lia.
      apply (Hk _ Ek). rewrite <- (inv_unique _ _ _ _ I Hz Hx H). congruence.
    - subst y. rewrite S4; [eauto|]. assert (ho_ptr z <> ho_ptr x) by lia. eapply inv_other with (x := z); eauto.
  Qed.

  Lemma inv_move w h p i : oc_numa c = true -> inv w h -> fits page place (PMove p i) w ->
    match p_move p i w with
    | Ok w' a => inv w' (observe strat_of (PMove p i) (Some a) h)
    | Throw w' _ => inv w' (observe strat_of (PMove p i) None h)
    | _ => True
    end.
  Proof.
    intros Hn I (Hf & r & Hr & Ep). pose proof I as (I1 & (rest & I2) & I3 & I4).
    unfold PlaceModel.p_move, p_find. cbn [observe]. rewrite I1, find_known.
    destruct (find (fun x => ho_ptr x =? p) h) as [x|] eqn:E; cbn [option_map].
    2:{ exfalso. rewrite I1 in Hr. apply in_map_iff in Hr as (x & <- & Hx). eapply find_none in E; eauto. cbn in *. lia. }
    apply find_in in E as Hx. destruct Hx as (Hx & Ex). pose proof (inv_size _ _ _ I Hx) as Hs.
    cbn [bind known r_strat]. destruct (ho_owner x =? i) eqn:Eo; [exact I|]. rewrite Hn.
    assert (Hm : match (if negb (p =? r_ptr (known x)) then Throw w RuntimeError
                   else let* (w2, q) := p_allocate i (r_size (known x)) w in
                        let* (w3, _) := p_deallocate strat_of p w2 in Ok w3 q) with
             | Ok w' q => inv w' (mkHome q (ho_size x) i (policy_node (strat_of i)) :: drop_home p h)
             | Throw w' _ => inv w' h
             | _ => True
             end).
    { cbn [r_ptr r_size known]. rewrite Ex, Z.eqb_refl. cbn [negb].
      destruct (p_allocate i (ho_size x) w) as [w2 q|w2 e| | |] eqn:Ea; cbn [bind]; auto.
      - destruct (inv_allocate _ _ _ _ _ _ I Hs Hf Ea) as (I' & Hq & _).
        destruct (p_deallocate strat_of p w2) as [w3 u|w3 e| | |] eqn:Ed; cbn [bind]; auto.
        + apply (inv_deallocate _ _ _ _ _ I') in Ed as (I'' & _). cbn [drop_home ho_ptr] in I''.
          destruct (q =? p) eqn:Eq; auto. exfalso. apply Hq. assert (q = p) by lia. subst q. rewrite <- Ex. now apply in_map.
        + exfalso. destruct I' as (L & _). unfold p_deallocate in Ed. rewrite L, find_known in Ed. cbn [find ho_ptr] in Ed.
          destruct (q =? p); [discriminate|]. rewrite E in Ed. discriminate.
      - eapply inv_allocate_throw; eauto. }
    destruct (strat_of i) as [j|k pf t|op d t|op d t] eqn:Et.
    1, 3, 4: rewrite ?Et in Hm; destruct (if negb (p =? r_ptr (known x)) then _ else _) as [w' q|w' e| | |]; auto.
    clear Hm. cbn [bind]. cbn [r_size known]. replace (0 <? ho_size x) with true by lia.
    unfold find_op. destruct (find_operation _ _ _) as [t0 op|t0 e| | |]; cbn [bind].
    2-5: rewrite <- Ex; apply (inv_settle w h x None w I Hx); [repeat split; auto|discriminate].
    destruct op; try (rewrite <- Ex; apply (inv_settle w h x None w I Hx); [repeat split; auto|discriminate]).
    pose proof (move_to_node_spec p (ho_size x) k w) as Hmn.
    destruct (move_to_node p (ho_size x) k w) as [w3 u|w3 e| | |]; cbn [bind]; auto.
    - destruct Hmn as (S & _ & _ & _ & _ & P). rewrite <- Ex in *. apply (inv_settle w h x (Some k) w3 I Hx S).
      intros k' Ek. injection Ek as <-. exact P.
    - destruct Hmn as (S & _). rewrite <- Ex in *. apply (inv_settle w h x None w3 I Hx S). discriminate.
  Qed.

  Lemma history_inv w h : oc_numa c = true ->
    history strat_of c page available usable binds plat place fails current props w h -> inv w h.
  Proof.
    intros Hn. induction 1 as [|w h o w' a H IH Hf E|w h o w' e H IH Hf E].
    - repeat split; auto. + now exists []. + intros x k [].
    - destruct o as [i n|p|p i]; cbn [PlaceModel.p_do] in E.
      + destruct Hf as (Hf & Hp). destruct (inv_allocate _ _ _ _ _ _ IH Hp Hf E) as (I & _). exact I.
      + destruct (inv_deallocate _ _ _ _ _ IH E) as (I & _). exact I.
      + pose proof (inv_move _ _ _ _ Hn IH Hf) as I. rewrite E in I. exact I.
    - destruct o as [i n|p|p i]; cbn [PlaceModel.p_do] in E.
      + destruct Hf as (Hf & Hp). apply (inv_allocate_throw _ _ _ _ _ _ IH Hp Hf E).
      + unfold p_deallocate in E. destruct (find (fun r => r_ptr r =? p) (p_live w)); [discriminate|]. injection E as <- _. exact IH.
      + pose proof (inv_move _ _ _ _ Hn IH Hf) as I. rewrite E in I. exact I.
  Qed.

  Lemma location_of w x k : p_node w (x / page) = Some k -> get_location x w = Ok w k.
  Proof. unfold PlaceModel.get_location. now intros ->. Qed.

  Lemma place_placed w h x y k : oc_numa c = true ->
    history strat_of c page available usable binds plat place fails current props w h -> In x h -> ho_node x = Some k ->
    ho_ptr x <= y < ho_ptr x + ho_size x -> get_location y w = Ok w k.
  Proof.
    intros Hn H Hx Hk Hy. apply history_inv in H as (I1 & I2 & I3 & I4); auto. apply location_of.
    eapply I4; eauto. now apply in_pages_byte.
  Qed.

  Lemma place_known w h : oc_numa c = true ->
    history strat_of c page available usable binds plat place fails current props w h ->
    map (fun x => (ho_ptr x, ho_size x, ho_owner x)) h = map (fun r => (r_ptr r, r_size r, r_strat r)) (p_live w).
  Proof. intros Hn H. apply history_inv in H as (I1 & _); auto. rewrite I1, map_map. reflexivity. Qed.

  (** *** Single calls *)

  Lemma not_in_pages p n g : (forall x, p <= x < p + n -> x / page <> g) -> in_pages p n g = false.
  Proof.
    intros H. destruct (in_pages p n g) eqn:E; auto. apply in_pages_inv in E as (x & Hx & E). now elim (H x Hx).
  Qed.

  Lemma place_allocate i n w w' q k : policy_node (strat_of i) = Some k -> p_allocate i n w = Ok w' q ->
    p_live w' = mkRec q n i 0 :: p_live w /\ p_masks w' = p_masks w /\
    (forall x, q <= x < q + n -> get_location x w' = Ok w' k) /\
    (forall y, (forall x, q <= x < q + n -> x / page <> y / page) -> p_node w' (y / page) = p_node w (y / page)).
  Proof.
    clear c plat.
    intros Hk. unfold PlaceModel.p_allocate.
    pose proof (s_allocate_spec (strat_of i) n w) as H. destruct (s_allocate (strat_of i) n w) as [w1 q1|w1 e| | |]; try discriminate.
    destruct H as ((j & Hj) & L & T & M & N & P). intros E. apply Ok_inj in E as (<- & <-).
    split; [cbn [p_live with_live]; now rewrite L|]. split; [exact M|]. split.
    - intros x Hx. apply location_of. cbn [p_node with_live]. apply (P k Hk). now apply in_pages_byte.
    - intros y Hy. cbn [p_node with_live]. apply N. now apply not_in_pages.
  Qed.

  Lemma place_move p i w w' q r k pf t : oc_numa c = true -> In r (p_live w) -> p_find p w = Ok w r -> r_strat r <> i -> 0 < r_size r ->
    strat_of i = NumaPolicy k pf t -> p_move p i w = Ok w' q ->
    q = p /\ p_live w' = p_live w /\ p_taken w' = p_taken w /\ p_masks w' = p_masks w /\
    (forall x, p <= x < p + r_size r -> get_location x w' = Ok w' k) /\
    (forall y, (forall x, p <= x < p + r_size r -> x / page <> y / page) -> p_node w' (y / page) = p_node w (y / page)).
  Proof.
    intros Hn Hr Hf Ho Hs Ht. unfold PlaceModel.p_move. rewrite Hf. cbn [bind]. replace (r_strat r =? i) with false by lia.
    rewrite Hn, Ht. replace (0 <? r_size r) with true by lia. unfold find_op.
    destruct (find_operation _ _ _) as [t0 op|t0 e| | |]; cbn [bind]; try discriminate. destruct op; try discriminate.
    pose proof (move_to_node_spec p (r_size r) k w) as Hmn.
    destruct (move_to_node p (r_size r) k w) as [w3 u|w3 e| | |]; cbn [bind]; try discriminate. intros E. apply Ok_inj in E as (<- & <-).
    destruct Hmn as ((S1 & S2 & S3 & S4) & M & _ & _ & _ & P). repeat split; auto.
    - intros x Hx. apply location_of, P. now apply in_pages_byte.
    - intros y Hy. apply S4. now apply not_in_pages.
  Qed.

  (** Nothing of the library's own is left behind by calls that return. *)
  Lemma place_masks o w w' a : p_do o w = Ok w' a -> p_masks w' = p_masks w.
  Proof.
    clear Hpage.
    assert (HA : forall i n w w' q, p_allocate i n w = Ok w' q -> p_masks w' = p_masks w).
    { intros i n w0 w0' q. unfold PlaceModel.p_allocate.
      pose proof (s_allocate_spec (strat_of i) n w0) as H. destruct (s_allocate (strat_of i) n w0) as [w1 q1|w1 e| | |]; try discriminate.
      destruct H as ((j & Hj) & L & T & M & N & P). intros E. apply Ok_inj in E as (<- & <-). exact M. }
    assert (HD : forall p w w' q, p_deallocate strat_of p w = Ok w' q -> p_masks w' = p_masks w).
    { intros p w0 w0' q. unfold p_deallocate. destruct (find _ _); [|discriminate]. intros E. apply Ok_inj in E as (<- & _).
      now destruct (s_deallocate_spec (strat_of (r_strat a0)) p (with_live (drop_rec p (p_live w0)) w0)) as (_ & _ & _ & ->). }
    destruct o as [i n|p|p i]; cbn [PlaceModel.p_do]; eauto.
    unfold PlaceModel.p_move, p_find.
    assert (H : forall r, (if r_strat r =? i then Ok w p else match oc_numa c, strat_of i with
         | true, NumaPolicy node _ _ =>
             if 0 <? r_size r then
               let* (w2, op) := find_op c "MOVE" (platform_of plat (strat_of (r_strat r))) (platform_of plat (strat_of i)) w in
               match op with
               | NumaMoveOperation => let* (w3, _) := move_to_node p (r_size r) node w2 in Ok w3 p
               | _ => Throw w2 RuntimeError
               end
             else Ok w p
         | _, _ =>
             if negb (p =? r_ptr r) then Throw w RuntimeError
             else let* (w2, q) := p_allocate i (r_size r) w in
                  let* (w3, _) := p_deallocate strat_of p w2 in
                  Ok w3 q
         end) = Ok w' a -> p_masks w' = p_masks w).
    { intros r. destruct (r_strat r =? i); [intros E; apply Ok_inj in E as (<- & _); reflexivity|].
      assert (HG : (if negb (p =? r_ptr r) then Throw w RuntimeError
             else let* (w2, q) := p_allocate i (r_size r) w in
                  let* (w3, _) := p_deallocate strat_of p w2 in
                  Ok w3 q) = Ok w' a -> p_masks w' = p_masks w).
      { destruct (negb (p =? r_ptr r)); [discriminate|]. destruct (p_allocate i (r_size r) w) as [w2 q| | | |] eqn:Ea; cbn [bind]; try discriminate.
        destruct (p_deallocate strat_of p w2) as [w3 u| | | |] eqn:Ed; cbn [bind]; try discriminate. intros E. apply Ok_inj in E as (<- & _).
        rewrite (HD _ _ _ _ Ed). eauto. }
      destruct (oc_numa c); [|exact HG]. destruct (strat_of i) as [j|k pf t|op d t|op d t] eqn:Et; try exact HG.
      destruct (0 <? r_size r); [|intros E; apply Ok_inj in E as (<- & _); reflexivity].
      unfold find_op. destruct (find_operation _ _ _) as [t0 op|t0 e| | |]; cbn [bind]; try discriminate. destruct op; try discriminate.
      pose proof (move_to_node_spec p (r_size r) k w) as Hmn.
      destruct (move_to_node p (r_size r) k w) as [w3 u|w3 e| | |]; cbn [bind]; try discriminate. intros E. apply Ok_inj in E as (<- & _). tauto. }
    destruct (find _ (p_live w)) as [r|]; [apply H|]. destruct (find _ (p_live w)) as [r|]; [apply H|discriminate].
  Qed.

  Lemma place_unaligned k pf t n w w1 q : s_allocate t n w = Ok w1 q -> q mod page <> 0 ->
    exists w', s_allocate (NumaPolicy k pf t) n w = Throw w' RuntimeError /\ p_live w' = p_live w /\
      p_taken w' = (q, n) :: p_taken w.
  Proof.
    clear c plat strat_of Hpage.
    intros E Hq. cbn [PlaceModel.s_allocate]. rewrite E. cbn [bind]. pose proof (s_allocate_spec t n w) as H. rewrite E in H.
    destruct H as (_ & L & T & _). pose proof (move_to_node_spec q n k w1) as Hm.
    destruct (move_to_node q n k w1) as [w2 u|w2 e| | |]; cbn [bind]; try contradiction.
    - destruct Hm as (_ & _ & A & _). contradiction.
    - destruct Hm as ((S1 & S2 & _) & _ & ->). exists w2. repeat split; congruence.
  Qed.

  (** *** Advice *)

  Lemma place_hints t : forall n w w' q, s_allocate t n w = Ok w' q ->
    p_hints w' = (rev (hints_due (can_prefetch current props) t q n) ++ p_hints w)%list.
  Proof.
    clear c plat strat_of Hpage.
    induction t as [i|k pf t IH|op d t IH|op d t IH]; intros n w w' q; cbn [PlaceModel.s_allocate hints_due].
    - destruct (place (p_calls w) i n); [|discriminate]. intros E. apply Ok_inj in E as (<- & _). reflexivity.
    - destruct (s_allocate t n w) as [w1 q1|w1 e| | |] eqn:E1; cbn [bind]; try discriminate. pose proof (move_to_node_spec q1 n k w1) as Hm.
      destruct (move_to_node q1 n k w1) as [w2 u|w2 e| | |]; cbn [bind]; try discriminate. intros E. apply Ok_inj in E as (<- & <-).
      destruct Hm as ((_ & _ & S3 & _) & _). rewrite S3. eauto.
    - destruct (s_allocate t n w) as [w1 q1|w1 e| | |] eqn:E1; cbn [bind]; try discriminate. apply IH in E1.
      unfold apply_op, can_prefetch. destruct op; cbn [bind]; try discriminate.
      1,3: destruct (fails (p_calls w1)); cbn [bind]; try discriminate; intros E; apply Ok_inj in E as (<- & <-);
           rewrite rev_app_distr; cbn [rev app p_hints hinted p_called]; now rewrite E1.
      destruct (props (if d =? -1 then current else d)) as [[|]|]; cbn [bind]; try discriminate.
      + destruct (fails (p_calls w1)); cbn [bind]; try discriminate; intros E; apply Ok_inj in E as (<- & <-);
           rewrite rev_app_distr; cbn [rev app p_hints hinted p_called]; now rewrite E1.
      + intros E; apply Ok_inj in E as (<- & <-). now rewrite app_nil_r.
    - destruct (s_allocate t n w) as [w1 q1|w1 e| | |] eqn:E1; cbn [bind]; try discriminate. apply IH in E1.
      unfold apply_op, can_prefetch. destruct op; cbn [bind]; try discriminate.
      1,3: destruct (fails (p_calls w1)); cbn [bind]; try discriminate; intros E; apply Ok_inj in E as (<- & <-);
           rewrite rev_app_distr; cbn [rev app p_hints hinted p_called]; now rewrite E1.
      destruct (props (if d =? -1 then current else d)) as [[|]|]; cbn [bind]; try discriminate.
      + destruct (fails (p_calls w1)); cbn [bind]; try discriminate; intros E; apply Ok_inj in E as (<- & <-);
           rewrite rev_app_distr; cbn [rev app p_hints hinted p_called]; now rewrite E1.
      + intros E; apply Ok_inj in E as (<- & <-). now rewrite app_nil_r.
  Qed.

  Context (nodes : list Z) (cpus : Z -> option Z).

  Lemma nodes_with_spec want l w :
    match nodes_with cpus want l w with
    | Ok w' r => w' = w /\ r = filter (fun i => match cpus i with Some n => want n | None => false end) l /\
                 forall i, In i l -> cpus i <> None
    | Throw w' _ => w' = w /\ exists i, In i l /\ cpus i = None
    | _ => False
    end.
  Proof.
    clear c plat available page Hpage usable binds place fails current props strat_of.
    induction l as [|i l IH]; cbn [nodes_with filter]; [auto|]. destruct (cpus i) as [n|] eqn:E; [|split; eauto; exists i; split; [now left|auto]].
    destruct (nodes_with cpus want l w) as [w1 r|w1 e| | |]; cbn [bind]; try contradiction.
    - destruct IH as (-> & -> & H). repeat split; auto. intros j [<-|Hj]; [congruence|auto].
    - destruct IH as (-> & j & Hj & Ej). split; auto. exists j. split; [now right|auto].
  Qed.

  Lemma place_nodes w w1 w2 hosts devices' : (forall i n, cpus i = Some n -> 0 <= n) ->
    get_host_nodes available nodes cpus w = Ok w1 hosts -> get_device_nodes available nodes cpus w = Ok w2 devices' ->
    Permutation (hosts ++ devices') nodes /\ (forall i, In i hosts <-> In i nodes /\ exists n, cpus i = Some n /\ 0 < n) /\
    (forall i, In i devices' <-> In i nodes /\ cpus i = Some 0) /\ p_masks w1 = p_masks w /\ p_masks w2 = p_masks w.
  Proof.
    clear c plat page Hpage usable binds place fails current props strat_of.
    intros Hc. unfold get_host_nodes, get_device_nodes. destruct (negb available); [discriminate|].
    pose proof (nodes_with_spec (fun n => 0 <? n) nodes (with_masks (p_masks w + 1) w)) as H1.
    pose proof (nodes_with_spec (fun n => n =? 0) nodes (with_masks (p_masks w + 1) w)) as H2.
    destruct (nodes_with cpus (fun n => 0 <? n) nodes _) as [w3 r3| | | |]; cbn [bind]; try discriminate.
    destruct (nodes_with cpus (fun n => n =? 0) nodes _) as [w4 r4| | | |]; cbn [bind]; try discriminate.
    destruct H1 as (-> & -> & H1), H2 as (-> & -> & H2). intros E1 E2. apply Ok_inj in E1 as (<- & <-), E2 as (<- & <-).
    split; [|split; [|split; [|cbn; lia]]].
    - clear H2. induction nodes as [|i l IH]; cbn [filter]; [constructor|].
      assert (Hi : cpus i <> None) by (apply H1; now left). destruct (cpus i) as [n|] eqn:E; [|congruence].
      assert (IH' := IH (fun j Hj => H1 j (or_intror Hj))). specialize (Hc i n E).
      destruct (0 <? n) eqn:E0.
      + replace (n =? 0) with false by lia. cbn [app]. now constructor.
      + replace (n =? 0) with true by lia. rewrite <- Permutation_middle. now constructor.
    - intros i. rewrite filter_In. destruct (cpus i) as [n|] eqn:E.
      + split; [intros (A & B); split; auto; exists n; split; [auto|lia]|].
        intros (A & m & B & D). injection B as <-. split; [auto|lia].
      + split; [intros (_ & A); discriminate|intros (_ & m & A & _); discriminate].
    - intros i. rewrite filter_In. destruct (cpus i) as [n|] eqn:E.
      + split; intros (A & B); split; auto; [f_equal; lia|injection B as ->; reflexivity].
      + split; [intros (_ & A); discriminate|intros (_ & A); discriminate].
  Qed.

  (** *** Constructors *)

  Lemma find_op_advice a p w : find_op c (advice_name a) p p w =
    match find (fun x => platform_eqb (fst x) p) (advisable c a) with Some (_, op) => Ok w op | None => Throw w RuntimeError end.
  Proof.
    unfold find_op. rewrite op_find. destruct c as [n1 n2 n3 n4 n5 n6]. clear.
    destruct a, p, n2, n3; try (destruct n4); destruct n1, n5, n6; reflexivity.
  Qed.

  Lemma place_new_advisor a t acc d w : new_advisor c plat (advice_name a) t acc d w =
    match find (fun x => platform_eqb (fst x) (platform_of plat t)) (advisable c a) with
    | Some (_, op) => Ok w (Advisor op (if oc_cuda c && platform_eqb (platform_of plat acc) PHost then -1 else d) t)
    | None => Throw w RuntimeError
    end.
  Proof.
    clear page Hpage usable binds place fails current props strat_of available nodes cpus.
    unfold new_advisor. rewrite find_op_advice. now destruct (find _ (advisable c a)) as [[q op]|].
  Qed.

  Lemma place_new_prefetcher t d w : new_prefetcher c plat t d w =
    match platform_of plat t with
    | PCuda => if oc_cuda c then Ok w (Prefetcher CudaMemPrefetchOperation d t) else Throw w RuntimeError
    | PSycl => if oc_sycl c then Ok w (Prefetcher SyclMemPrefetchOperation d t) else Throw w RuntimeError
    | _ => Throw w RuntimeError
    end.
  Proof.
    clear page Hpage usable binds place fails current props strat_of available nodes cpus.
    unfold new_prefetcher, find_op. rewrite op_find. generalize (platform_of plat t) as p. intros p.
    destruct c as [n1 n2 n3 n4 n5 n6]. clear. destruct p, n1, n2, n3, n4, n5, n6; reflexivity.
  Qed.

  Lemma get_host_nodes_ok w w' hosts : get_host_nodes available nodes cpus w = Ok w' hosts -> p_masks w' = p_masks w /\
    forall i, In i hosts <-> In i nodes /\ exists n, cpus i = Some n /\ 0 < n.
  Proof.
    clear c plat page Hpage usable binds place fails current props strat_of.
    unfold get_host_nodes. destruct (negb available); [discriminate|].
    pose proof (nodes_with_spec (fun n => 0 <? n) nodes (with_masks (p_masks w + 1) w)) as H1.
    destruct (nodes_with cpus (fun n => 0 <? n) nodes _) as [w3 r3| | | |]; cbn [bind]; try discriminate.
    destruct H1 as (-> & -> & H1). intros E1. apply Ok_inj in E1 as (<- & <-). split; [cbn; lia|].
    intros i. rewrite filter_In. destruct (cpus i) as [n|] eqn:E.
    - split; [intros (A & B); split; auto; exists n; split; [auto|lia]|].
      intros (A & m & B & D). injection B as <-. split; [auto|lia].
    - split; [intros (_ & A); discriminate|intros (_ & m & A & _); discriminate].
  Qed.

  Lemma place_new_numa node t w w' s : new_numa c available nodes cpus plat node t w = Ok w' s ->
    0 <= node /\ platform_of plat t = PHost /\ p_masks w' = p_masks w /\
    exists pf, s = NumaPolicy node pf t /\
      (pf = PHost <-> (device_build c = false \/ In node nodes /\ exists n, cpus node = Some n /\ 0 < n)).
  Proof.
    clear page Hpage usable binds place fails current props strat_of.
    unfold new_numa. destruct (node <? 0) eqn:E0; [discriminate|].
    destruct (platform_eqb (platform_of plat t) PHost) eqn:E1; cbn [negb]; [|discriminate]. apply platform_eqb_ok in E1.
    destruct (device_build c) eqn:Ed; cbn [negb].
    - destruct (get_host_nodes available nodes cpus w) as [w1 hosts| | | |] eqn:Eh; cbn [bind]; try discriminate.
      apply get_host_nodes_ok in Eh as (M & Hh). specialize (Hh node).
      assert (Hb : existsb (Z.eqb node) hosts = true <-> In node hosts).
      { rewrite existsb_exists. split; [intros (x & A & B); assert (node = x) by lia; congruence|intros A; exists node; split; [auto|lia]]. }
      destruct (existsb (Z.eqb node) hosts).
      + intros E. apply Ok_inj in E as (<- & <-). repeat split; auto; [lia|]. exists PHost. split; [auto|].
        split; auto. intros _. right. apply Hh, Hb, eq_refl.
      + assert (Hx : ~ In node hosts) by (intros A; apply Hb in A; discriminate).
        destruct (oc_cuda c); [|destruct (oc_hip c); [|discriminate]]; intros E; apply Ok_inj in E as (<- & <-).
        all: repeat split; auto; try lia; eexists; split; [reflexivity|]; split; [discriminate|].
        all: intros [A|A]; [discriminate|]; elim Hx; now apply Hh.
    - intros E. apply Ok_inj in E as (<- & <-). repeat split; auto; [lia|]. exists PHost. split; auto. split; auto.
  Qed.

  (** Where prefetching goes through SYCL, an allocation is never returned. *)
  Lemma place_sycl_prefetcher t d n w w1 q : s_allocate t n w = Ok w1 q ->
    s_allocate (Prefetcher SyclMemPrefetchOperation d t) n w = UB.
  Proof.
    clear c plat nodes cpus Hpage strat_of. intros E. cbn [PlaceModel.s_allocate]. now rewrite E. Qed.
End Facts.
