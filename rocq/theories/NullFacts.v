(** Proofs about the null resource. *)
From Verif Require Import Base BaseFacts FixedMallocPoolModel NullModel NullSpec.

(** ** The slots: one pool that is never full *)

Notation at_ d i := (d + i * SLOT).

Fixpoint links (d : Z) (m : fmap Z) (H : Z) (F : list Z) : Prop :=
  match F with
  | [] => True
  | f :: F => m (at_ d f) = Some (hd H F) /\ links d m H F
  end.

(** Slots up to [H] have been used; [F] are free, [A] in use; those from [H] to [ni] are ready. *)
Definition slots_ok (s : fmstate) (d H : Z) (F A : list Z) : Prop :=
  exists ni, fm_pools s = [mkFm d (at_ d (hd H F)) ni (Z.of_nat (length F) + (SLOTS - H))] /\ 0 < d /\
    0 <= H <= ni /\ ni <= SLOTS /\ NoDup (F ++ A) /\ (forall i, In i (F ++ A) -> 0 <= i < H) /\
    Z.of_nat (length F) + Z.of_nat (length A) = H /\
    links d (fm_mem s) H F /\ (forall i, H <= i < ni -> fm_mem s (at_ d i) = Some (i + 1)).

Lemma links_frame d m m' H F : (forall f, In f F -> m' (at_ d f) = m (at_ d f)) -> links d m H F -> links d m' H F.
Proof.
  induction F as [|f F IH]; cbn [links]; [auto|]. intros E [A B]. split.
  - rewrite E by (left; reflexivity). exact A.
  - apply IH; [|exact B]. intros x Hx. apply E. right. exact Hx.
Qed.

Lemma at_inj d i j : at_ d i = at_ d j -> i = j.
Proof. unfold SLOT. lia. Qed.

Lemma SLOTS_eq : SLOTS = 1048576. Proof. reflexivity. Qed.
Lemma SLOT_eq : SLOT = 8. Proof. reflexivity. Qed.
Lemma M32_eq : M32 = 4294967296. Proof. reflexivity. Qed.
Lemma w32_in x : 0 <= x < M32 -> w32 x = x.
Proof. intros H. apply Z.mod_small. exact H. Qed.

Section Slots.
  Context {W : Type} (P : Parent W).

  Lemma slot_alloc s d H F A (h : W) : slots_ok s d H F A -> H < SLOTS - 1 ->
    exists s' i, fm_allocate SLOT SLOTS P 2 (s, h) = Ok (s', h) (at_ d i) /\ ~ In i A /\
      ((exists F', F = i :: F' /\ slots_ok s' d H F' (i :: A)) \/ (F = [] /\ i = H /\ slots_ok s' d (H + 1) [] (i :: A))).
  Proof.
    pose proof SLOTS_eq as ES. pose proof SLOT_eq as EO. pose proof M32_eq as EM.
    intros (ni & Ep & Hd & HH & Hni & ND & Hin & Hl & HL & Hr) Hlt. cbn [fm_allocate]. rewrite Ep. cbn [rev app fm_try].
    set (next := at_ d (hd H F)).
    assert (Hhd : 0 <= hd H F <= H). { destruct F as [|f F]; cbn [hd]; [lia|]. specialize (Hin f (or_introl eq_refl)). lia. }
    (* the state after one more slot is made ready *)
    assert (Hinit : exists ni' m', H < ni' <= SLOTS /\ links d m' H F /\ (forall i, H <= i < ni' -> m' (at_ d i) = Some (i + 1)) /\
      fm_alloc_in_pool SLOT SLOTS (mkFm d next ni (Z.of_nat (length F) + (SLOTS - H))) (fm_mem s) =
      match m' next with Some i => Ok (mkFm d (at_ d i) ni' (Z.of_nat (length F) + (SLOTS - H) - 1), m') next | None => UB end).
    { unfold fm_alloc_in_pool. cbn [fm_ninit fm_data fm_next fm_nfree].
      destruct (Z.ltb_spec ni SLOTS) as [Hn|Hn].
      - exists (ni + 1), (fset (fm_mem s) (at_ d ni) (ni + 1)). split; [lia|]. split.
        + eapply links_frame; [|exact HL]. intros f Hf. apply fset_ne. intros E. apply at_inj in E.
          specialize (Hin f (in_or_app _ _ _ (or_introl Hf))). lia.
        + split.
          * intros i Hi. destruct (Z.eq_dec i ni) as [->|Hne]; [apply fset_eq|]. rewrite fset_ne; [apply Hr; lia|].
            intros E. apply at_inj in E. auto.
          * replace (d =? 0) with false by (symmetry; apply Z.eqb_neq; lia). rewrite (w32_in (ni + 1)) by lia.
            unfold fm_addr. cbn [fm_data fm_nfree fm_next fm_ninit].
            replace (0 <? Z.of_nat (length F) + (SLOTS - H)) with true by (symmetry; apply Z.ltb_lt; lia).
            replace (Z.of_nat (length F) + (SLOTS - H) - 1 =? 0) with false by (symmetry; apply Z.eqb_neq; lia). reflexivity.
      - exists ni, (fm_mem s). split; [lia|]. split; [exact HL|]. split; [exact Hr|].
        unfold fm_addr. cbn [fm_data fm_nfree fm_next fm_ninit].
        replace (0 <? Z.of_nat (length F) + (SLOTS - H)) with true by (symmetry; apply Z.ltb_lt; lia).
        replace (Z.of_nat (length F) + (SLOTS - H) - 1 =? 0) with false by (symmetry; apply Z.eqb_neq; lia). reflexivity. }
    destruct Hinit as (ni' & m' & Hni' & HL' & Hr' & ->).
    assert (Hnz : (next =? 0) = false) by (apply Z.eqb_neq; unfold next; lia).
    destruct F as [|f F'].
    - cbn [hd] in *. unfold next in *. rewrite (Hr' H) by lia. rewrite Hnz. cbn iota. rewrite Hnz.
      eexists. exists H. split; [cbn [rev app]; reflexivity|]. split.
      + intros HA. specialize (Hin H HA). lia.
      + right. split; [reflexivity|]. split; [reflexivity|]. exists ni'. cbn [fm_pools fm_mem hd length app links].
        split; [f_equal; f_equal; cbn [length]; lia|]. split; [exact Hd|]. split; [lia|]. split; [lia|]. split; [|split; [|split; [|split]]].
        * constructor; [|exact ND]. intros HA. specialize (Hin H HA). lia.
        * intros i [<-|HA]; [lia|]. specialize (Hin i HA). lia.
        * cbn [length] in *. lia.
        * exact I.
        * intros i Hi. apply Hr'. lia.
    - cbn [hd links] in *. destruct HL' as [HL1 HL2]. unfold next in *. rewrite HL1, Hnz. cbn iota. rewrite Hnz.
      eexists. exists f. split; [cbn [rev app]; reflexivity|]. inversion ND as [|? ? N1 N2]; subst. split.
      + intros HA. apply N1, in_or_app. auto.
      + left. exists F'. split; [reflexivity|]. exists ni'. cbn [fm_pools fm_mem].
        split; [f_equal; f_equal; cbn [length]; lia|]. split; [exact Hd|]. split; [lia|]. split; [lia|]. split; [|split; [|split; [|split]]].
        * apply (Permutation_NoDup (Permutation_middle F' A f)). constructor; assumption.
        * intros i Hi. apply Hin. apply in_app_or in Hi. cbn. destruct Hi as [Hi|[Hi|Hi]]; [right; apply in_or_app; auto|left; auto|right; apply in_or_app; auto].
        * cbn [length] in *. lia.
        * exact HL2.
        * exact Hr'.
  Qed.

  (** The word left in a returned slot is the number of the slot that was next. *)
  Lemma slot_free s d H F A1 i A2 (h : W) : slots_ok s d H F (A1 ++ i :: A2) -> H < SLOTS ->
    exists s', fm_deallocate SLOT SLOTS (at_ d i) (s, h) = Ok (s', h) tt /\ owner_full (at_ d i) s = false /\
      (exists v, fm_mem s' (at_ d i) = Some v /\ 0 <= v <= H) /\ slots_ok s' d H (i :: F) (A1 ++ A2).
  Proof.
    pose proof SLOTS_eq as ES. pose proof SLOT_eq as EO. pose proof M32_eq as EM. assert (E64 : M64 = 18446744073709551616) by reflexivity.
    intros (ni & Ep & Hd & HH & Hni & ND & Hin & Hl & HL & Hr) Hlt.
    assert (Hi : 0 <= i < H) by (apply Hin, in_or_app; right; apply in_elt).
    assert (Hhd : 0 <= hd H F <= H). { destruct F as [|f F]; cbn [hd]; [lia|]. specialize (Hin f (or_introl eq_refl)). lia. }
    assert (Ho : fm_owns SLOT SLOTS (mkFm d (at_ d (hd H F)) ni (Z.of_nat (length F) + (SLOTS - H))) (at_ d i) = true).
    { unfold fm_owns. cbn [fm_data]. replace (w64 (SLOT * SLOTS)) with 8388608 by reflexivity. apply andb_true_intro.
      split; [apply Z.leb_le; lia|apply Z.ltb_lt; lia]. }
    assert (Hz : (at_ d (hd H F) =? 0) = false) by (apply Z.eqb_neq; lia).
    assert (Hix : fm_index SLOT (mkFm d (at_ d (hd H F)) ni (Z.of_nat (length F) + (SLOTS - H))) (at_ d (hd H F)) = hd H F).
    { unfold fm_index. cbn [fm_data]. replace (at_ d (hd H F) - d) with (hd H F * SLOT) by lia. rewrite Z.div_mul by lia. apply w32_in. lia. }
    unfold fm_deallocate, owner_full. rewrite Ep. cbn [find fm_free_in]. rewrite Ho. cbn [fm_next fm_data fm_ninit fm_nfree]. rewrite Hz, Hix.
    eexists. split; [reflexivity|]. split; [reflexivity|]. cbn [fm_mem]. split.
    { exists (hd H F). split; [apply fset_eq|lia]. }
    assert (Hm : forall j, j <> i -> fset (fm_mem s) (at_ d i) (hd H F) (at_ d j) = fm_mem s (at_ d j)).
    { intros j Hj. apply fset_ne. intros E. apply at_inj in E. auto. }
    assert (HP : Permutation (F ++ A1 ++ i :: A2) ((i :: F) ++ A1 ++ A2)).
    { cbn [app]. rewrite !app_assoc. apply Permutation_sym, Permutation_middle. }
    pose proof (Permutation_NoDup HP ND) as ND2. rewrite app_length in Hl. cbn [length] in Hl.
    exists ni. cbn [fm_pools fm_mem hd]. split.
    { f_equal. f_equal. cbn [length]. rewrite w64_small by lia. lia. }
    split; [exact Hd|]. split; [lia|]. split; [lia|]. split; [exact ND2|]. split; [|split; [|split]].
    - intros j Hj. apply Hin. exact (Permutation_in _ (Permutation_sym HP) Hj).
    - rewrite app_length. cbn [length]. lia.
    - cbn [links]. split; [apply fset_eq|]. eapply links_frame; [|exact HL]. intros f Hf. apply Hm. intros ->.
      inversion ND2 as [|? ? N1 _]. apply N1, in_or_app. auto.
    - intros j Hj. rewrite Hm by lia. apply Hr. exact Hj.
  Qed.

  (** The owner of a slot writes to it. *)
  Lemma slot_write s d H F A i v : slots_ok s d H F A -> In i A -> slots_ok (fm_write (at_ d i) v s) d H F A.
  Proof.
    intros (ni & Ep & Hd & HH & Hni & ND & Hin & Hl & HL & Hr) Hi. exists ni. cbn [fm_write fm_pools fm_mem].
    assert (Hlt : 0 <= i < H) by (apply Hin, in_or_app; auto).
    split; [exact Ep|]. split; [exact Hd|]. split; [lia|]. split; [lia|]. split; [exact ND|]. split; [exact Hin|]. split; [exact Hl|]. split.
    - eapply links_frame; [|exact HL]. intros f Hf. apply fset_ne. intros E. apply at_inj in E. subst f.
      apply in_split in Hi. destruct Hi as (A1 & A2 & ->). apply in_split in Hf. destruct Hf as (F1 & F2 & ->).
      rewrite <- app_assoc in ND. cbn [app] in ND. apply NoDup_remove_2 in ND. apply ND. apply in_or_app. right. apply in_or_app. right. apply in_elt.
    - intros j Hj. rewrite fset_ne; [auto|]. intros E. apply at_inj in E. lia.
  Qed.
End Slots.

(** ** Mappings *)

Lemma cut_apart a l x : disj (a, l) x -> 0 < l -> 0 < snd x -> cut a l x = [x].
Proof.
  destruct x as [b m]. unfold disj, cut. cbn [fst snd]. intros D Hl Hm. destruct D as [D|D].
  - replace (Z.min a (b + m)) with a by lia. replace (b <? a) with false by (symmetry; apply Z.ltb_ge; lia).
    replace (Z.max (a + l) b) with b by lia. replace (b <? b + m) with true by (symmetry; apply Z.ltb_lt; lia).
    cbn [app]. replace (b + m - b) with m by lia. reflexivity.
  - replace (Z.min a (b + m)) with (b + m) by lia. replace (b <? b + m) with true by (symmetry; apply Z.ltb_lt; lia).
    replace (Z.max (a + l) b <? b + m) with false by (symmetry; apply Z.ltb_ge; lia). cbn [app]. replace (b + m - b) with m by lia. reflexivity.
Qed.

Lemma cut_front a l n : 0 < l < n -> cut a l (a, n) = [(a + l, n - l)].
Proof.
  intros H. unfold cut. cbn [fst snd]. replace (a <? Z.min a (a + n)) with false by (symmetry; apply Z.ltb_ge; lia).
  replace (Z.max (a + l) a) with (a + l) by lia. replace (a + l <? a + n) with true by (symmetry; apply Z.ltb_lt; lia).
  cbn [app]. replace (a + n - (a + l)) with (n - l) by lia. reflexivity.
Qed.

Section Pages.
  Context (page : Z).
  Hypothesis Hpage : 0 < page.

  Lemma pages_ge n : 0 < n -> page <= pages page n /\ n <= pages page n.
  Proof.
    intros H. unfold pages. pose proof (Z.div_mod (n + (page - 1)) page ltac:(lia)) as E. pose proof (Z.mod_pos_bound (n + (page - 1)) page Hpage) as B.
    set (q := (n + (page - 1)) / page) in *. set (r := (n + (page - 1)) mod page) in *.
    assert (Hq : 1 <= q) by (destruct (Z.lt_ge_cases q 1); [nia|lia]). split; nia.
  Qed.
  Lemma pages_one v : 0 < v <= page -> pages page v = page.
  Proof.
    intros H. unfold pages. replace (v + (page - 1)) with ((v - 1) + 1 * page) by lia. rewrite Z.div_add by lia. rewrite Z.div_small by lia. lia.
  Qed.
End Pages.

Section Null.
  Context {W : Type} (P : Parent W) (mmap : nat -> Z -> option Z) (page cap lim : Z).
  Hypothesis Hpage : 0 < page.

  Definition whole (r : region) : region := (fst r, pages page (snd r)).

  Definition null_inv (w : nullw W) (G : list region) : Prop :=
    exists d H F T, slots_ok (n_slots w) d H F (map snd T) /\ H <= cap /\ map fst T = G /\
      n_table w = map (fun x : Z * Z * Z => (fst (fst x), at_ d (snd x))) T /\
      (forall i, In i (map snd T) -> n_high w (at_ d i) = Some 0) /\
      (forall r, In r G -> 0 < fst r /\ fst r mod page = 0 /\ 0 < snd r /\ fst r + pages page (snd r) <= ASP /\ In (whole r) (n_maps w)) /\
      pairwise disj (map whole G).

  Lemma key_find_none p T d : (forall x, In x T -> fst (fst x) <> p) ->
    key_find p (map (fun x : Z * Z * Z => (fst (fst x), at_ d (snd x))) T) = None.
  Proof.
    induction T as [|x T IH]; cbn [map key_find]; [auto|]. intros H. destruct (Z.eqb_spec (fst (fst x)) p) as [E|E].
    - exfalso. exact (H x (or_introl eq_refl) E).
    - apply IH. intros y Hy. apply H. right. exact Hy.
  Qed.

  Lemma key_find_some p n i T1 T2 d : (forall x, In x T1 -> fst (fst x) <> p) ->
    key_find p (map (fun x : Z * Z * Z => (fst (fst x), at_ d (snd x))) (T1 ++ ((p, n), i) :: T2)) = Some (at_ d i).
  Proof.
    induction T1 as [|x T IH]; cbn [app map key_find fst snd]; [rewrite Z.eqb_refl; auto|]. intros H.
    destruct (Z.eqb_spec (fst (fst x)) p) as [E|E].
    - exfalso. exact (H x (or_introl eq_refl) E).
    - apply IH. intros y Hy. apply H. right. exact Hy.
  Qed.

  Lemma key_erase_other p T d : (forall x, In x T -> fst (fst x) <> p) ->
    key_erase p (map (fun x : Z * Z * Z => (fst (fst x), at_ d (snd x))) T) = map (fun x : Z * Z * Z => (fst (fst x), at_ d (snd x))) T.
  Proof.
    unfold key_erase. induction T as [|x T IH]; cbn [map filter fst]; [auto|]. intros H. destruct (Z.eqb_spec (fst (fst x)) p) as [E|E].
    - exfalso. exact (H x (or_introl eq_refl) E).
    - cbn [negb]. f_equal. apply IH. intros y Hy. apply H. right. exact Hy.
  Qed.

  Lemma start_inv h h' d w : 0 <= cap -> 0 < d -> p_alloc P (SLOT * SLOTS) h = Ok h' d -> null_init P h = Ok h' w -> null_inv w [].
  Proof.
    intros Hcap Hd E1 E2. unfold null_init, fm_init, fm_new_pool in E2. replace (w64 (SLOT * SLOTS)) with (SLOT * SLOTS) in E2 by reflexivity.
    rewrite E1 in E2. injection E2 as <-. exists d, 0, [], []. cbn [n_slots n_table n_high n_maps map].
    split; [|split; [exact Hcap|]; split; [reflexivity|]; split; [reflexivity|]; split; [intros ? []|]; split; [intros ? []|exact I]].
    exists 0. cbn [fm_pools fm_mem hd length app links]. pose proof SLOTS_eq. split.
    { f_equal. f_equal; lia. }
    split; [exact Hd|]. split; [lia|]. split; [lia|]. split; [constructor|]. split; [intros i []|]. split; [lia|]. split; [exact I|]. intros; lia.
  Qed.

  Lemma pairwise_disj_ne p n G : pairwise disj (map whole ((p, n) :: G)) -> 0 < n -> (forall r, In r G -> 0 < snd r) -> forall r, In r G -> fst r <> p.
  Proof.
    intros [D _] Hn HG r Hr E. specialize (D (whole r) (in_map whole _ _ Hr)). unfold disj, whole in D. cbn [fst snd] in D.
    pose proof (pages_ge page Hpage n Hn). pose proof (pages_ge page Hpage (snd r) (HG r Hr)). lia.
  Qed.

  Lemma alloc_inv w G n : null_inv w G -> Z.of_nat (length G) < cap -> cap < SLOTS - 1 -> 0 < n < lim -> lim <= M32 ->
    match null_allocate P mmap page n w with
    | Ok w' p => p = MAP_FAILED \/ null_inv w' ((p, n) :: G)
    | _ => False
    end.
  Proof.
    intros (d & H & F & T & HS & HH & HT & Etab & Hhigh & HG & HD) Hcap Hslots Hn Hlim. pose proof HS as (ni & _ & _ & HHn & _ & _ & _ & Hl & _).
    unfold null_allocate, sys_mmap.
    assert (Hgo : forall t maps p, (p = MAP_FAILED \/
        (0 < p /\ p mod page = 0 /\ p + pages page n <= ASP /\ In (p, pages page n) maps /\ (forall r, In r (n_maps w) -> In r maps) /\ (forall r, In r (n_maps w) -> disj (p, pages page n) r))) ->
      match
        match key_find p (n_table w) with
        | Some _ => Ok (mkNull t maps (n_table w) (n_slots w) (n_high w) (n_heap w)) p
        | None =>
            match fm_allocate SLOT SLOTS P 2 (n_slots w, n_heap w) with
            | Ok (s, h) a => Ok (mkNull t maps ((p, a) :: n_table w) (fm_write a (w32 n) s) (fset (n_high w) a (n / M32)) h) p
            | Throw (s, h) e => Throw (mkNull t maps (n_table w) s (n_high w) h) e
            | UB => UB | Abort => Abort | NoFuel => NoFuel
            end
        end
      with
      | Ok w' p => p = MAP_FAILED \/ null_inv w' ((p, n) :: G)
      | _ => False
      end).
    { intros t maps p Hp. destruct (key_find p (n_table w)) as [a|] eqn:Ek.
      - destruct Hp as [Hp|(Hp & _ & _ & Hin & Hmaps & Hap)]; [left; exact Hp|]. exfalso.
        assert (Hne : forall x, In x T -> fst (fst x) <> p).
        { intros x Hx Ex. assert (Hr : In (fst x) G) by (rewrite <- HT; apply in_map; exact Hx).
          destruct (HG _ Hr) as (_ & _ & R3 & _ & R5). specialize (Hap _ R5). unfold disj, whole in Hap. cbn [fst snd] in Hap.
          pose proof (pages_ge page Hpage n (proj1 Hn)). pose proof (pages_ge page Hpage _ R3). lia. }
        rewrite Etab, (key_find_none p T d Hne) in Ek. discriminate.
      - assert (HLT : H < SLOTS - 1 ) by lia.
        destruct (slot_alloc P (n_slots w) d H F (map snd T) (n_heap w) HS HLT) as (s' & i & E & Hi & HC). rewrite E.
        destruct Hp as [Hp|(Hp & Hmod & Hasp & Hin & Hmaps & Hap)]; [left; exact Hp|]. right.
        assert (Hrest : forall H', H' <= cap -> (exists F', slots_ok s' d H' F' (i :: map snd T)) ->
          null_inv (mkNull t maps ((p, at_ d i) :: n_table w) (fm_write (at_ d i) (w32 n) s') (fset (n_high w) (at_ d i) (n / M32)) (n_heap w)) ((p, n) :: G)).
        { intros H' HH' (F' & HS'). exists d, H', F', (((p, n), i) :: T). cbn [n_slots n_table n_high n_maps map fst snd].
          split; [apply slot_write; [exact HS'|left; reflexivity]|]. split; [exact HH'|]. split; [f_equal; exact HT|]. split; [f_equal; exact Etab|]. split; [|split].
          - intros j [<-|Hj].
            + rewrite fset_eq. f_equal. apply Z.div_small. lia.
            + rewrite fset_ne; [exact (Hhigh j Hj)|]. intros Ej. apply at_inj in Ej. subst j. exact (Hi Hj).
          - intros r [<-|Hr].
            + cbn [fst snd]. split; [exact Hp|]. split; [exact Hmod|]. split; [lia|]. split; [exact Hasp|exact Hin].
            + destruct (HG r Hr) as (R1 & R2 & R3 & R4 & R5). split; [exact R1|]. split; [exact R2|]. split; [exact R3|]. split; [exact R4|]. apply Hmaps, R5.
          - split; [|exact HD]. intros y Hy. apply in_map_iff in Hy. destruct Hy as (r & <- & Hr). apply Hap. destruct (HG r Hr) as (_ & _ & _ & _ & R5). exact R5. }
        destruct HC as [(F' & EF & HS')|(EF & Ei & HS')].
        + apply (Hrest H HH). exists F'. exact HS'.
        + apply (Hrest (H + 1)); [|exists []; exact HS']. subst F. cbn [length] in Hl. rewrite <- HT in Hcap. rewrite map_length in *. lia. }
    destruct (mmap (n_time w) n) as [p|].
    - destruct ((0 <? n) && (0 <? p) && (p mod page =? 0) && (p + pages page n <=? ASP) && fresh (p, pages page n) (n_maps w)) eqn:E.
      + apply andb_prop in E as [E E5]. apply andb_prop in E as [E E4]. apply andb_prop in E as [E E3]. apply andb_prop in E as [E1 E2].
        apply (Hgo (S (n_time w)) ((p, pages page n) :: n_maps w) p). right.
        split; [apply Z.ltb_lt; exact E2|]. split; [apply Z.eqb_eq; exact E3|]. split; [apply Z.leb_le; exact E4|]. split; [left; reflexivity|].
        split; [intros r Hr; right; exact Hr|]. intros r Hr. unfold fresh in E5. rewrite forallb_forall in E5. specialize (E5 r Hr).
        apply Bool.orb_true_iff in E5. unfold disj. destruct E5 as [E5|E5]; [left|right]; apply Z.leb_le; exact E5.
      + apply (Hgo (S (n_time w)) (n_maps w) MAP_FAILED). left. reflexivity.
    - apply (Hgo (S (n_time w)) (n_maps w) MAP_FAILED). left. reflexivity.
  Qed.

  (** Deallocation: at most the first page goes, nothing else. *)
  Lemma free_inv w G1 p n G2 : null_inv w (G1 ++ (p, n) :: G2) -> cap < SLOTS - 1 -> cap <= page -> 
    exists w', null_deallocate page p w = Ok w' tt /\ null_inv w' (G1 ++ G2) /\
      (n_maps w' = n_maps w \/ n_maps w' = flat_map (cut p page) (n_maps w)).
  Proof.
    intros (d & H & F & T & HS & HH & HT & Etab & Hhigh & HG & HD) Hslots Hcp.
    apply map_eq_app in HT. destruct HT as (T1 & T2' & -> & HT1 & HT2). destruct T2' as [|[r i] T2]; [discriminate|]. cbn [map fst] in HT2. injection HT2 as -> HT2.
    rewrite map_app in HS, Hhigh. cbn [map snd] in HS, Hhigh.
    assert (HPerm : Permutation (map whole (G1 ++ (p, n) :: G2)) (map whole ((p, n) :: G1 ++ G2))) by (apply Permutation_map, Permutation_sym, Permutation_middle).
    assert (HD' : pairwise disj (map whole ((p, n) :: G1 ++ G2))) by (exact (pairwise_perm disj disj_sym _ _ HPerm HD)).
    destruct (HG (p, n) (in_elt _ _ _)) as (R1 & R2 & R3 & R4 & R5). cbn [fst snd] in R1, R2, R3, R4.
    assert (Hpos : forall r, In r (G1 ++ G2) -> 0 < snd r).
    { intros r Hr. apply HG. apply in_app_or in Hr. apply in_or_app. destruct Hr; [auto|right; right; auto]. }
    pose proof (pairwise_disj_ne p n _ HD' R3 Hpos) as Hne.
    assert (Hne1 : forall x, In x T1 -> fst (fst x) <> p) by (intros x Hx; apply Hne, in_or_app; left; rewrite <- HT1; apply in_map; exact Hx).
    assert (Hne2 : forall x, In x T2 -> fst (fst x) <> p) by (intros x Hx; apply Hne, in_or_app; right; rewrite <- HT2; apply in_map; exact Hx).
    destruct (slot_free (n_slots w) d H F (map snd T1) i (map snd T2) (n_heap w) HS ltac:(lia)) as (s' & E & Ef & (v & Ev & Hv) & HS').
    unfold null_deallocate. replace (key_find p (n_table w)) with (Some (at_ d i)) by (rewrite Etab; symmetry; exact (key_find_some p n i T1 T2 d Hne1)).
    rewrite E, Ef, Ev.
    rewrite (Hhigh i (in_elt _ _ _)). replace (v + M32 * 0) with v by lia.
    assert (Hmaps : sys_munmap page p v (n_maps w) = n_maps w \/ sys_munmap page p v (n_maps w) = flat_map (cut p page) (n_maps w)).
    { unfold sys_munmap. destruct (Z.ltb_spec 0 v); [|left; reflexivity]. rewrite R2. cbn [Z.eqb andb]. rewrite pages_one by lia.
      destruct (_ <=? ASP); [right|left]; reflexivity. }
    eexists. split; [reflexivity|]. split; [|exact Hmaps]. exists d, H, (i :: F), (T1 ++ T2). cbn [n_slots n_table n_high n_maps].
    rewrite !map_app. split; [exact HS'|]. split; [exact HH|]. split; [exact (f_equal2 (@app region) HT1 HT2)|]. split; [|split; [|split]].
    - rewrite Etab. rewrite map_app. unfold key_erase. rewrite filter_app. cbn [map filter fst snd]. rewrite Z.eqb_refl. cbn [negb].
      f_equal; [apply (key_erase_other p T1 d Hne1)|apply (key_erase_other p T2 d Hne2)].
    - intros j Hj. apply Hhigh. apply in_app_or in Hj. apply in_or_app. destruct Hj; [auto|right; right; auto].
    - intros r Hr. destruct (HG r) as (S1 & S2 & S3 & S4 & S5).
      { apply in_app_or in Hr. apply in_or_app. destruct Hr; [auto|right; right; auto]. }
      split; [exact S1|]. split; [exact S2|]. split; [exact S3|]. split; [exact S4|]. destruct Hmaps as [->| ->]; [exact S5|].
      apply in_flat_map. exists (whole r). split; [exact S5|]. rewrite cut_apart.
      + left. reflexivity.
      + destruct HD' as [D _]. specialize (D (whole r) (in_map whole _ _ Hr)). unfold disj, whole in *. cbn [fst snd] in *.
        pose proof (pages_ge page Hpage n R3). lia.
      + exact Hpage.
      + unfold whole. cbn [snd]. pose proof (pages_ge page Hpage _ S3). lia.
    - destruct HD' as [_ D]. rewrite map_app in D. exact D.
  Qed.

  Lemma hist_null_inv w G : null_hist P mmap page cap lim w G -> 0 <= cap -> cap < SLOTS - 1 -> cap <= page -> lim <= M32 -> null_inv w G.
  Proof.
    intros H Hc0 Hc1 Hc2 Hl. induction H as [h h' d w Hd E1 E2|w G n w' p H IH Hlen Hn E Hp|w G1 p n G2 w' H IH E].
    - exact (start_inv h h' d w Hc0 Hd E1 E2).
    - pose proof (alloc_inv w G n IH Hlen Hc1 Hn Hl) as A. rewrite E in A. destruct A as [A|A]; [contradiction|exact A].
    - destruct (free_inv w G1 p n G2 IH Hc1 Hc2) as (w2 & E2 & I2 & _). rewrite E in E2. injection E2 as <-. exact I2.
  Qed.
End Null.

Lemma live_mapped : forall W (P : Parent W) mmap page cap lim w G,
  0 < page -> 0 <= cap <= page -> cap < SLOTS - 1 -> lim <= M32 -> null_hist P mmap page cap lim w G ->
  good G /\ (forall r a, In r G -> fst r <= a < fst r + snd r -> is_mapped (n_maps w) a).
Proof.
  intros W P mmap page cap lim w G Hpage Hcap Hs Hl H.
  destruct (hist_null_inv P mmap page cap lim Hpage w G H) as (d & H0 & F & T & _ & _ & _ & _ & _ & HG & HD); try lia. split.
  - split.
    + intros r Hr. destruct (HG r Hr) as (A & _ & B & C & _). pose proof (pages_ge page Hpage (snd r) B). unfold wf_region. lia.
    + clear -HG HD Hpage. induction G as [|r G IH]; [exact I|]. destruct HD as [D1 D2]. split.
      * intros y Hy. specialize (D1 _ (in_map (whole page) _ _ Hy)). destruct (HG r (or_introl eq_refl)) as (_ & _ & B & _).
        destruct (HG y (or_intror Hy)) as (_ & _ & B' & _). unfold disj, whole in *. cbn [fst snd] in *.
        pose proof (pages_ge page Hpage _ B). pose proof (pages_ge page Hpage _ B'). lia.
      * apply IH; [|exact D2]. intros y Hy. apply HG. right. exact Hy.
  - intros r a Hr Ha. destruct (HG r Hr) as (_ & _ & B & _ & C). pose proof (pages_ge page Hpage _ B).
    exists (whole page r). split; [exact C|]. unfold whole. cbn [fst snd]. lia.
Qed.

Lemma calls_defined : forall W (P : Parent W) mmap page cap lim w G,
  0 < page -> 0 <= cap <= page -> cap < SLOTS - 1 -> lim <= M32 -> null_hist P mmap page cap lim w G ->
  (forall n, 0 < n < lim -> Z.of_nat (length G) < cap -> exists w' p, null_allocate P mmap page n w = Ok w' p) /\
  (forall p n, In (p, n) G -> exists w', null_deallocate page p w = Ok w' tt).
Proof.
  intros W P mmap page cap lim w G Hpage Hcap Hs Hl H.
  assert (HI : null_inv page cap w G) by (apply (hist_null_inv P mmap page cap lim Hpage w G H); lia). split.
  - intros n Hn Hlen. pose proof (alloc_inv P mmap page cap lim Hpage w G n HI Hlen Hs Hn Hl) as A.
    destruct (null_allocate P mmap page n w) as [w' p|w' e| | |]; try contradiction. eauto.
  - intros p n Hin. apply in_split in Hin. destruct Hin as (G1 & G2 & ->).
    destruct (free_inv mmap page cap Hpage w G1 p n G2 HI Hs) as (w' & E & _); [lia|]. eauto.
Qed.

Lemma rest_stays : forall W (P : Parent W) mmap page cap lim w G p n w',
  0 < page -> 0 <= cap <= page -> cap < SLOTS - 1 -> lim <= M32 -> null_hist P mmap page cap lim w G -> In (p, n) G ->
  null_deallocate page p w = Ok w' tt -> forall a, p + page <= a < p + n -> is_mapped (n_maps w') a.
Proof.
  intros W P mmap page cap lim w G p n w' Hpage Hcap Hs Hl H Hin E a Ha.
  assert (HI : null_inv page cap w G) by (apply (hist_null_inv P mmap page cap lim Hpage w G H); lia).
  assert (Hw : In (p, pages page n) (n_maps w) /\ n <= pages page n).
  { destruct HI as (d & H0 & F & T & _ & _ & _ & _ & _ & HG & _). destruct (HG _ Hin) as (_ & _ & B & _ & C). split; [exact C|].
    apply (pages_ge page Hpage). exact B. }
  apply in_split in Hin. destruct Hin as (G1 & G2 & ->).
  destruct (free_inv mmap page cap Hpage w G1 p n G2 HI Hs) as (w2 & E2 & _ & Hm); [lia|]. rewrite E in E2. assert (w' = w2) as -> by congruence.
  destruct Hm as [-> | ->].
  - exists (p, pages page n). split; [apply Hw|]. cbn [fst snd]. lia.
  - exists (p + page, pages page n - page). split; [|cbn [fst snd]; lia]. apply in_flat_map. exists (p, pages page n). split; [apply Hw|].
    rewrite cut_front by lia. left. reflexivity.
Qed.

Lemma failure_answer : forall W (P : Parent W) mmap page n w w' p, mmap (n_time w) n = None ->
  null_allocate P mmap page n w = Ok w' p -> p = M64 - 1.
Proof.
  intros W P mmap page n w w' p E. unfold null_allocate, sys_mmap. rewrite E. cbn [n_table n_slots n_heap n_time n_maps n_high].
  destruct (key_find MAP_FAILED (n_table w)); [unfold MAP_FAILED; congruence|].
  destruct (fm_allocate SLOT SLOTS P 2 (n_slots w, n_heap w)) as [[s h] a|[s h] e| | |]; unfold MAP_FAILED; congruence.
Qed.

Lemma unknown_pointer : forall W page p (w : nullw W), (forall a, ~ In (p, a) (n_table w)) -> null_deallocate page p w = UB.
Proof.
  intros W page p w H. unfold null_deallocate. replace (key_find p (n_table w)) with (@None Z); [reflexivity|].
  induction (n_table w) as [|[k a] l IH]; [reflexivity|]. cbn [key_find]. destruct (Z.eqb_spec k p) as [->|E].
  - exfalso. exact (H a (or_introl eq_refl)).
  - apply IH. intros b Hb. exact (H b (or_intror Hb)).
Qed.
