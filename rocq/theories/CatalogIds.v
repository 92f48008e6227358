(** Listed names are different, the device ids, and the registry of a build without GPU. *)
From Coq Require Import String Ascii.
From Verif Require Import Base BaseFacts NamingModel NamingFacts RegistryModel RegistrySpec RegistryFacts CatalogModel CatalogSpec CatalogFacts.

(** ** Device ids *)
Lemma list_of_app s t : list_ascii_of_string (s ++ t)%string = (list_ascii_of_string s ++ list_ascii_of_string t)%list.
Proof. induction s; cbn; [reflexivity|now f_equal]. Qed.

Lemma all_digits_list s : all_digits s -> Forall (fun c => is_digit c = true) (list_ascii_of_string s).
Proof. induction s; intros H; [constructor|]. destruct H. constructor; auto. Qed.

Lemma span_digits_app l r : Forall (fun c => is_digit c = true) l -> span_digits (l ++ r) = (let (a, q) := span_digits r in ((l ++ a)%list, q)).
Proof.
  induction 1 as [|c l Hc Hl IH]; cbn [app span_digits]; [now destruct (span_digits r)|]. rewrite Hc, IH. now destruct (span_digits r).
Qed.

Lemma span_digits_none c r : is_digit c = false -> span_digits (c :: r) = ([], c :: r).
Proof. intros H. cbn. now rewrite H. Qed.

Lemma regex_device d : regex_id ("DEVICE::" ++ dec d)%string = Some (dec d).
Proof.
  unfold regex_id. rewrite list_of_app, rev_app_distr. pose proof (all_digits_list _ (dec_digits d)) as HD. pose proof (dec_nonempty d) as HN.
  rewrite span_digits_app by now apply Forall_rev.
  change (span_digits (rev (list_ascii_of_string "DEVICE::"))) with (@nil ascii, [":"; ":"; "E"; "C"; "I"; "V"; "E"; "D"]%char).
  cbn iota beta. rewrite app_nil_r. destruct (rev (list_ascii_of_string (dec d))) as [|c ds] eqn:E.
  - exfalso. apply HN. apply (f_equal (@rev ascii)) in E. rewrite rev_involutive in E. now destruct (dec d).
  - cbn [forallb Ascii.eqb]. vm_compute (negb _). cbn [andb]. rewrite <- E, rev_involutive, string_of_list_ascii_of_string. reflexivity.
Qed.

Lemma regex_grain x g : grain g -> regex_id (x ++ g)%string = None.
Proof.
  intros Hg. unfold regex_id. rewrite list_of_app, rev_app_distr. destruct Hg as [->| ->]; reflexivity.
Qed.

Lemma substring_all s : forall k, (String.length s <= k)%nat -> substring 0 k s = s.
Proof. induction s as [|a s IH]; intros [|k] H; cbn in *; try reflexivity; try lia. now rewrite (IH k ltac:(lia)). Qed.

Lemma device_id_device cuda cur d : 0 <= d <= INT_MAX -> device_id cuda cur ("DEVICE::" ++ dec d)%string = Some d.
Proof.
  intros Hd. unfold device_id. destruct cuda.
  - replace (index 0 "::" ("DEVICE::" ++ dec d)%string) with (Some 6%nat) by (destruct (dec d); reflexivity). cbn iota beta.
    change (substring (6 + 2) (String.length ("DEVICE::" ++ dec d) - (6 + 2)) ("DEVICE::" ++ dec d))
      with (substring 0 (String.length (dec d) - 0) (dec d)).
    rewrite substring_all by lia. now apply stoi_dec.
  - rewrite regex_device. now apply stoi_dec.
Qed.

Lemma device_id_plain cuda cur ty x : resource_to_string ty = Some x -> device_id cuda cur x = Some cur.
Proof. intros H. destruct ty; try discriminate; injection H as <-; destruct cuda; reflexivity. Qed.

Lemma device_id_grain cur x g : grain g -> device_id false cur (x ++ g)%string = Some cur.
Proof. intros H. unfold device_id. now rewrite regex_grain. Qed.

Lemma device_id_listed b cuda cur x : (cuda = true -> b_hip b = None) -> Z.of_nat (devices b) <= INT_MAX -> In x (names b) ->
  exists i, device_id cuda cur x = Some i /\ (i = cur \/ 0 <= i < Z.of_nat (devices b) /\ names_device i x).
Proof.
  intros Hc Hn H. destruct (names_cases b x H) as (ty & _ & C).
  destruct C as [C|[(Hh & _ & y & g & _ & Hg & ->)|(_ & d & Hd & [->|(Hh & g & Hg & ->)])]].
  - exists cur. split; [now apply device_id_plain with ty|now left].
  - destruct cuda; [now rewrite Hc in Hh|]. exists cur. split; [now apply device_id_grain|now left].
  - exists (Z.of_nat d). split; [apply device_id_device; lia|]. right. split; [lia|constructor].
  - destruct cuda; [now rewrite Hc in Hh|]. exists cur. split; [now apply device_id_grain|now left].
Qed.

(** ** Different names *)
Definition no_digit_first (g : string) : Prop := match g with EmptyString => True | String c _ => is_digit c = false end.

Lemma digits_app_inj s : forall s' g g', all_digits s -> all_digits s' -> no_digit_first g -> no_digit_first g' ->
  (s ++ g)%string = (s' ++ g')%string -> s = s' /\ g = g'.
Proof.
  induction s as [|c s IH]; intros [|c' s'] g g' H H' Hg Hg' E; cbn [append] in E.
  - auto.
  - subst g. destruct H'. cbn in Hg. congruence.
  - subst g'. destruct H. cbn in Hg'. congruence.
  - injection E as -> E. destruct H, H'. destruct (IH s' g g') as [-> ->]; auto.
Qed.

Lemma names_device_form d x : names_device d x -> exists g, no_digit_first g /\ x = ("DEVICE::" ++ dec d ++ g)%string.
Proof.
  intros [|g Hg]; [exists ""%string|exists g]; (split; [|try reflexivity]).
  - exact I.
  - now rewrite append_empty_r.
  - destruct Hg as [->| ->]; reflexivity.
Qed.

Lemma names_device_fun d d' x : 0 <= d -> 0 <= d' -> names_device d x -> names_device d' x -> d = d'.
Proof.
  intros Hd Hd' H H'. apply names_device_form in H. apply names_device_form in H'. destruct H as (g & Hg & ->), H' as (g' & Hg' & E).
  apply append_inj in E. apply digits_app_inj in E; auto using dec_digits. destruct E as [E _]. now apply dec_inj.
Qed.

Lemma names_device_digit d x : names_device d x -> exists c t, is_digit c = true /\ x = ("DEVICE::" ++ String c t)%string.
Proof.
  intros H. apply names_device_form in H. destruct H as (g & _ & ->). pose proof (dec_digits d) as HD. pose proof (dec_nonempty d) as HN.
  destruct (dec d) as [|c t]; [contradiction|]. destruct HD. exists c, (t ++ g)%string. auto.
Qed.

Ltac no_device H := let c := fresh in let t := fresh in let Hc := fresh in apply names_device_digit in H; destruct H as (c & t & Hc & H); cbn [append] in H; try discriminate; injection H; intros; subst; discriminate.

Lemma nodup_app {A : Type} (l l' : list A) : NoDup l -> NoDup l' -> (forall x, In x l -> ~ In x l') -> NoDup (l ++ l').
Proof.
  induction l as [|a l IH]; intros H H' D; [exact H'|]. inversion H as [|? ? Ha Hl]; subst. cbn. constructor.
  - rewrite in_app_iff. intros [Q|Q]; [contradiction|]. now apply (D a (or_introl eq_refl)).
  - apply IH; auto. intros x Hx. apply D. now right.
Qed.

Lemma nodup_flat_map {A B : Type} (f : A -> list B) l : NoDup l -> (forall a, NoDup (f a)) ->
  (forall a a' x, In x (f a) -> In x (f a') -> a = a') -> NoDup (flat_map f l).
Proof.
  intros Hl Hf Hd. induction Hl as [|a l Ha Hl IH]; [constructor|]. cbn. apply nodup_app; auto.
  intros x Hx Hx'. apply in_flat_map in Hx'. destruct Hx' as (a' & Ha' & Hx'). rewrite (Hd a a' x Hx Hx') in Ha. contradiction.
Qed.

Lemma grain_block fine d x : In x (device_name d :: when fine [(device_name d ++ "::FINE")%string; (device_name d ++ "::COARSE")%string]) -> names_device (Z.of_nat d) x.
Proof.
  intros [<-|H]; [apply device_name_kind|]. apply in_when in H. destruct H as [_ [<-|[<-|[]]]]; apply device_name_grain; [now left|now right].
Qed.

Lemma app_self_r a g : a = (a ++ g)%string -> g = ""%string.
Proof. intros H. apply (append_inj a). now rewrite append_empty_r. Qed.

Lemma hip_names_nodup fine n : NoDup (hip_device_names fine n).
Proof.
  apply nodup_flat_map.
  - apply seq_NoDup.
  - intros d. destruct fine; cbn [when]; repeat constructor; cbn [In]; intros H; repeat (destruct H as [H|H]); try contradiction.
    + symmetry in H. now apply app_self_r in H.
    + symmetry in H. now apply app_self_r in H.
    + apply append_inj in H. discriminate.
  - intros a a' x H H'. apply grain_block in H, H'. pose proof (names_device_fun (Z.of_nat a) (Z.of_nat a') x ltac:(lia) ltac:(lia) H H'). lia.
Qed.

Lemma device_names_hip n : map device_name (seq 0 n) = hip_device_names false n.
Proof. unfold hip_device_names. cbn [when]. induction (seq 0 n); [reflexivity|]. cbn. now f_equal. Qed.

Lemma in_hip_dev fine n x : In x (hip_device_names fine n) -> exists d, names_device d x.
Proof. intros H. apply in_flat_map in H. destruct H as (d & _ & H). exists (Z.of_nat d). now apply grain_block in H. Qed.

(** Concrete names before and after the names of the devices. *)
Lemma nodup_around l1 l2 fine n : NoDup (l1 ++ l2) -> (forall x d, In x (l1 ++ l2) -> ~ names_device d x) ->
  NoDup (l1 ++ hip_device_names fine n ++ l2).
Proof.
  intros H D.
  assert (H2 : NoDup l2) by (clear -H; induction l1; [exact H|apply IHl1; now inversion H]).
  assert (H1 : NoDup l1).
  { clear -H. induction l1 as [|a l1 IH]; [constructor|]. cbn in H. inversion H as [|? ? Ha Hl]; subst. constructor; [|auto].
    intros Q. apply Ha. rewrite in_app_iff. auto. }
  assert (X : forall x, In x l1 -> ~ In x l2).
  { clear -H. induction l1 as [|a l1 IH]; intros x Hx; [destruct Hx|]. cbn in H. inversion H as [|? ? Ha Hl]; subst.
    destruct Hx as [->|Hx]; [intros Q; apply Ha; rewrite in_app_iff; auto|now apply IH]. }
  apply nodup_app; [exact H1|apply nodup_app; [apply hip_names_nodup|exact H2|]|].
  - intros x Hx Hx'. apply in_hip_dev in Hx. destruct Hx as [d Hd]. apply (D x d); [rewrite in_app_iff; auto|exact Hd].
  - intros x Hx Hx'. rewrite in_app_iff in Hx'. destruct Hx' as [Hx'|Hx']; [|now apply (X x)].
    apply in_hip_dev in Hx'. destruct Hx' as [d Hd]. apply (D x d); [rewrite in_app_iff; auto|exact Hd].
Qed.

Ltac concrete := cbn [app when]; repeat constructor; cbn [In]; intros ?; repeat match goal with H : _ \/ _ |- _ => destruct H end; try discriminate; try contradiction.

Lemma names_nodup b : one_vendor b -> NoDup (names b).
Proof.
  intros (O1 & O2 & O3). unfold names. rewrite ?device_names_hip. destruct b as [a1 a2 a3 a4 c h s o]; cbn [b_noop b_shared b_file b_const b_cuda b_hip b_sycl b_omp] in *.
  set (pre := (["HOST"%string] ++ when a1 ["NO_OP"%string] ++ when a2 ["SHARED"%string] ++ when a3 ["FILE"%string])%list).
  assert (K : forall l, (["HOST"%string] ++ when a1 ["NO_OP"%string] ++ when a2 ["SHARED"%string] ++ when a3 ["FILE"%string] ++ l = pre ++ l)%list)
    by (intros; unfold pre; now rewrite <- !app_assoc).
  rewrite K. clear K.
  assert (G : forall m1 m2 fine n, incl m1 ["DEVICE"; "DEVICE::FINE"; "DEVICE::COARSE"]%string ->
     incl m2 ["DEVICE"; "UM"; "UM::FINE"; "UM::COARSE"; "PINNED"; "PINNED::FINE"; "PINNED::COARSE"; "DEVICE_CONST"]%string ->
     NoDup (m1 ++ m2) -> NoDup (pre ++ m1 ++ hip_device_names fine n ++ m2)).
  { intros m1 m2 fine n I1 I2 HN. rewrite app_assoc. apply nodup_around.
    - rewrite <- app_assoc. apply nodup_app; [unfold pre; destruct a1, a2, a3; concrete|exact HN|].
      intros x Hx Hx'. rewrite in_app_iff in Hx'. destruct Hx' as [Hx'|Hx']; [apply I1 in Hx'|apply I2 in Hx']; unfold pre in Hx; destruct a1, a2, a3; cbn in Hx, Hx';
        repeat match goal with H : _ \/ _ |- _ => destruct H end; try contradiction; subst; discriminate.
    - intros x d Hx Hd. rewrite !in_app_iff in Hx. destruct Hx as [[Hx|Hx]|Hx]; [|apply I1 in Hx|apply I2 in Hx]; unfold pre in Hx; [destruct a1, a2, a3|..]; cbn in Hx;
        repeat match goal with H : _ \/ _ |- _ => destruct H end; try contradiction; subst x; no_device Hd. }
  destruct c as [n|].
  { destruct O1 as [O1|(-> & -> & ->)]; [discriminate|]. rewrite !app_nil_r, device_names_hip. apply G.
    - intros x Hx. cbn in *. tauto.
    - intros x Hx. destruct a4; cbn in *; tauto.
    - destruct a4; concrete. }
  destruct h as [[n fine]|].
  { destruct O2 as [O2|(-> & ->)]; [discriminate|]. rewrite !app_nil_r. cbn [app]. 
    rewrite (app_comm_cons (when fine ["DEVICE::FINE"; "DEVICE::COARSE"]%string) _ "DEVICE"%string). apply G.
    - intros x Hx. destruct fine; cbn in *; tauto.
    - intros x Hx. destruct a4, fine; cbn in *; tauto.
    - destruct a4, fine; concrete. }
  destruct s as [n|].
  { destruct O3 as [O3| ->]; [discriminate|]. rewrite !app_nil_r, device_names_hip. cbn [app]. apply (G ["DEVICE"%string] ["UM"; "PINNED"]%string).
    - intros x Hx. cbn in *. tauto.
    - intros x Hx. cbn in *; tauto.
    - concrete. }
  destruct o as [n|].
  { rewrite device_names_hip. cbn [app]. apply (G [] ["DEVICE"]%string).
    - intros x [].
    - intros x Hx. cbn in *; tauto.
    - concrete. }
  apply (G [] [] false 0%nat); try (intros x []). constructor.
Qed.

(** ** The registry of a build without GPU *)
Lemma host_names_harmless b valid prep st x : no_gpu b -> In x (names b) -> harmless (names b) valid prep st x.
Proof.
  intros (H1 & H2 & H3 & H4) Hx _. unfold names in Hx. rewrite H1, H2, H3, H4, !app_nil_r in Hx.
  repeat (apply in_app_or in Hx; destruct Hx as [Hx|Hx]); try (apply in_when in Hx; destruct Hx as [_ Hx]); destruct Hx as [<-|[]]; (split; [right; discriminate|split; [discriminate|vm_compute; discriminate]]).
Qed.

Lemma ordinary_allowed b valid prep st c : no_gpu b -> ordinary (names b) st c -> allowed (names b) valid prep st c.
Proof.
  intros Hb Hc. pose proof (host_names_harmless b valid prep st) as HH.
  destruct c as [x|x|x|x|ty|i| |h|x h|x h]; cbn [allowed ordinary owned] in *; auto.
Qed.

Lemma ordinary_hist b valid prep st : no_gpu b -> rhist (names b) valid prep (ordinary (names b)) st -> rhist (names b) valid prep (allowed (names b) valid prep) st.
Proof.
  intros Hb H. induction H as [|fl c st st' H IH Hc Hl]; [constructor|]. econstructor; [exact IH| |exact Hl]. now apply ordinary_allowed.
Qed.

Section HostRegistry.
  Context (b : build) (Hb : no_gpu b) (prep : string -> option exn).
  Notation R := (names b).
  Notation valid := (any_valid b).

  (** A listed name stands for an allocator of that name. *)
  Definition named (st : registry) : Prop := forall x h, In x R -> by_name x st = Some h -> exists i, is_alloc st h x i.

  Lemma host_names_list : incl R ["HOST"; "NO_OP"; "SHARED"; "FILE"]%string.
  Proof.
    destruct Hb as (H1 & H2 & H3 & H4). unfold names. rewrite H1, H2, H3, H4. intros x Hx.
    destruct (b_noop b), (b_shared b), (b_file b); cbn in *; tauto.
  Qed.

  Lemma host_extra x : In x R -> extra_names x = [].
  Proof. intros H. apply host_names_list in H. destruct H as [<-|[<-|[<-|[<-|[]]]]]; reflexivity. Qed.

  Lemma named_entered st x xs ts : rinv st -> named st -> (forall y, In y xs -> ~ In y R) -> named (entered st x xs ts).
  Proof.
    intros I H Hxs y h Hy E. rewrite by_name_entered in E. cbn [existsb] in E. destruct (x =? y)%string eqn:Ex.
    - apply String.eqb_eq in Ex. subst y. cbn [orb] in E. injection E as <-. exists (rg_next st). exists (mkObj x (rg_next st) true).
      cbn [entered rg_objs]. rewrite nth_error_app2, Nat.sub_diag by lia. auto.
    - cbn [orb] in E. destruct (existsb _ xs) eqn:Ee.
      + apply existsb_exists in Ee as (z & Hz & Ez). apply String.eqb_eq in Ez. subst z. now destruct (Hxs y Hz).
      + destruct (H y h Hy E) as (i & o & Ho & Hl). exists i, o. split; [|exact Hl]. cbn [entered rg_objs].
        rewrite nth_error_app1; [exact Ho|]. apply nth_error_Some. congruence.
  Qed.

  Lemma named_burn st : named st -> named (burn st).
  Proof. intros H. exact H. Qed.

  Lemma made_named st x o st' : rinv st -> named st -> In x R -> made st x o -> left_by o st' -> named st'.
  Proof.
    intros I H Hx Hm Hl. destruct Hm as [e|e|Hm|xs ts A B C D]; destruct Hl as [[a Hl]|[a Hl]]; try discriminate; injection Hl as <- _.
    - exact H.
    - now apply named_burn.
    - apply named_entered; auto. intros y Hy. apply D in Hy. rewrite (host_extra x Hx) in Hy. destruct Hy.
  Qed.

  Lemma get_named fl x st st' : rinv st -> named st -> left_by (get_by_name R valid prep fl x st) st' -> named st'.
  Proof.
    intros I H Hl. destruct (by_name x st) as [h|] eqn:E.
    - rewrite (get_by_name_found R valid prep fl x st h I E) in Hl. destruct Hl as [[a Hl]|[a Hl]]; [injection Hl as <- _; exact H|discriminate].
    - destruct (in_dec string_dec x R) as [Hi|Hi].
      + refine (made_named st x _ st' I H Hi _ Hl). apply (get_by_name_not R valid prep fl x st I E). intros _. now apply host_names_harmless.
      + unfold get_by_name in Hl. rewrite E in Hl. destruct (existsb _ R) eqn:Ee; [now apply existsb_in in Ee|].
        rewrite (listing_ok st I) in Hl. destruct Hl as [[a Hl]|[a Hl]]; [discriminate|injection Hl as <- _; exact H].
  Qed.

  Lemma left_ok {A : Type} (st : registry) (a : A) st' : left_by (Ok st a) st' -> st' = st.
  Proof. intros [[x H]|[x H]]; [now injection H|discriminate]. Qed.
  Lemma left_throw {A : Type} (st : registry) e st' : left_by (@Throw registry A st e) st' -> st' = st.
  Proof. intros [[x H]|[x H]]; [discriminate|now injection H]. Qed.

  Lemma left_bind (o : outcome registry nat) (k : registry -> nat -> outcome registry nat) st' : left_by (let* (w, a) := o in k w a) st' -> (forall w a st1, left_by (k w a) st1 -> exists w', w' = w /\ rg_names st1 = rg_names w' /\ rg_objs st1 = rg_objs w') ->
    exists st1, left_by o st1 /\ rg_names st' = rg_names st1 /\ rg_objs st' = rg_objs st1.
  Proof.
    intros H Hk. destruct o as [w a|w e| | |]; cbn [bind] in H.
    - destruct (Hk w a st' H) as (w' & -> & E). exists w. split; [left; now exists a|exact E].
    - apply left_throw in H. subst st'. exists w. split; [right; now exists e|auto].
    - destruct H as [[? H]|[? H]]; discriminate.
    - destruct H as [[? H]|[? H]]; discriminate.
    - destruct H as [[? H]|[? H]]; discriminate.
  Qed.

  Lemma named_same st st' : named st -> rg_names st' = rg_names st -> rg_objs st' = rg_objs st -> named st'.
  Proof. intros H E1 E2 x h Hx. unfold by_name, is_alloc. rewrite E1, E2. now apply H. Qed.

  Lemma step_named fl c st st' : rinv st -> named st -> ordinary R st c -> left_by (rexec R valid prep fl c st) st' -> named st'.
  Proof.
    intros I H Hc Hl. destruct c as [x|x|x|x|ty|i| |h|x h|x h]; cbn [rexec ordinary owned] in *.
    - destruct (make_allocator_cases R valid prep fl x st I) as [(_ & E)|[(_ & _ & E)|[(_ & _ & e & _ & E)|(_ & _ & _ & E & I')]]]; rewrite E in Hl.
      + apply left_throw in Hl. now subst st'.
      + destruct Hl as [[? Hl]|[? Hl]]; discriminate.
      + apply left_throw in Hl. subst st'. now apply named_burn.
      + apply left_ok in Hl. subst st'. apply named_entered; auto.
    - refine (made_named st x _ st' I H Hc _ Hl). apply (make_resource_made R valid prep fl x st I). now apply host_names_harmless.
    - refine (made_named st x _ st' I H Hc _ Hl). apply (make_resource_with_made R valid prep fl x st I). now apply host_names_harmless.
    - now apply (get_named fl x st st').
    - unfold get_by_type in Hl. destruct (alook rtype_eqb ty (rg_types st)) as [h|].
      + unfold handle in Hl. destruct (live_obj h st); [apply left_ok in Hl; now subst|destruct Hl as [[? Hl]|[? Hl]]; discriminate].
      + destruct (resource_to_string ty) as [x|]; [now apply (get_named fl x st st')|apply left_throw in Hl; now subst].
    - unfold get_by_id in Hl. destruct (i <? 0); [apply left_throw in Hl; now subst|]. destruct (_ =? _); [apply left_throw in Hl; now subst|].
      destruct (by_id i st).
      + unfold handle in Hl. destruct (live_obj _ st); [apply left_ok in Hl; now subst|destruct Hl as [[? Hl]|[? Hl]]; discriminate].
      + rewrite (listing_ok st I) in Hl. apply left_throw in Hl. now subst.
    - unfold get_default in Hl. destruct (rg_dflt st) as [h|].
      + unfold handle in Hl. destruct (live_obj _ st); [apply left_ok in Hl; now subst|destruct Hl as [[? Hl]|[? Hl]]; discriminate].
      + apply left_bind in Hl.
        * destruct Hl as (st1 & Hl & E1 & E2). apply (named_same st1); auto. now apply (get_named fl "HOST" st st1).
        * intros w a st1 Q. apply left_ok in Q. subst st1. now exists w.
    - apply left_ok in Hl. subst st'. exact H.
    - unfold add_alias in Hl. destruct (is_allocator R x st) eqn:E.
      + apply left_bind in Hl.
        * destruct Hl as (st1 & Hl & E1 & E2). apply (named_same st1); auto. now apply (get_named fl x st st1).
        * intros w a st1 Q. apply left_throw in Q. subst st1. now exists w.
      + apply left_ok in Hl. subst st'. intros y k Hy Ey. unfold by_name in Ey. cbn [set_names rg_names] in Ey. rewrite (alook_put String.eqb String.eqb_eq) in Ey.
        destruct (x =? y)%string eqn:Exy; [|now apply (H y k Hy)]. apply String.eqb_eq in Exy. subst y.
        unfold is_allocator in E. destruct (by_name x st); [discriminate|]. apply existsb_in in Hy. congruence.
    - assert (U : forall w, ~ left_by (@UB registry nat) w) by (intros w [[? Q]|[? Q]]; discriminate).
      unfold remove_alias in Hl. destruct (negb _); [apply left_throw in Hl; now subst|].
      destruct (by_name x st) as [k|]; [|now apply U in Hl]. destruct (live_obj k st) as [o|]; [|now apply U in Hl].
      destruct (o_name o =? x)%string; [apply left_throw in Hl; now subst|]. destruct (live_obj h st) as [o'|]; [|now apply U in Hl].
      destruct (negb _); [apply left_throw in Hl; now subst|]. apply left_ok in Hl. subst st'.
      intros y j Hy Ey. apply (H y j Hy). unfold by_name in *. cbn [set_names rg_names] in Ey.
      rewrite (alook_drop String.eqb String.eqb_eq) in Ey. now destruct (_ =? y)%string.
  Qed.

  Lemma hist_named st : rhist R valid prep (ordinary R) st -> rinv st /\ named st.
  Proof.
    intros H. split; [apply (rhist_inv R valid prep); now apply ordinary_hist|].
    induction H as [|fl c st st' H IH Hc Hl]; [intros x h _ E; discriminate|].
    apply (step_named fl c st st'); auto. apply (rhist_inv R valid prep). now apply ordinary_hist.
  Qed.

  (** getAllocator of a listed name. *)
  Lemma get_listed st x : rhist R valid prep (ordinary R) st -> In x R -> prep x = None -> rg_next st <> INT_MAX ->
    exists st' h i, get_by_name R valid prep None x st = Ok st' h /\ is_alloc st' h x i.
  Proof.
    intros H Hx Hp Hn. destruct (hist_named st H) as [I N]. destruct (by_name x st) as [h|] eqn:E.
    - destruct (N x h Hx E) as [i Hi]. exists st, h, i. split; [|exact Hi]. now apply get_by_name_found.
    - assert (V : valid x = true) by (unfold any_valid; destruct (listed_served b x Hx) as (f & -> & _); reflexivity).
      unfold get_by_name. rewrite E, (proj2 (existsb_in R x) Hx). unfold make_resource. rewrite V. cbn [negb].
      destruct (make_resource_with_cases R valid prep None x st I (host_names_harmless b valid prep st x Hb Hx)) as [((h & Q) & _)|[(_ & e & Q & _)|[(_ & Q & _)|[(_ & e & [Q|[_ Q]] & _)|(_ & _ & _ & -> & I')]]]]; try congruence.
      cbn [bind]. rewrite (entered_handle valid prep st x _ _ I'). do 2 eexists. exists (rg_next st). split; [reflexivity|].
      exists (mkObj x (rg_next st) true). cbn [entered rg_objs]. rewrite nth_error_app2, Nat.sub_diag by lia. auto.
  Qed.
End HostRegistry.
