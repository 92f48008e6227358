(** Every listed resource can be made, and the device ids. *)
From Coq Require Import String Ascii DecimalString DecimalN.
From Verif Require Import Base BaseFacts NamingModel NamingFacts RegistryModel RegistrySpec RegistryFacts CatalogModel CatalogSpec.

(** ** Decimal numbers *)
Fixpoint all_digits (s : string) : Prop :=
  match s with EmptyString => True | String c t => is_digit c = true /\ all_digits t end.

Lemma uint_digits u : all_digits (NilEmpty.string_of_uint u).
Proof. induction u; cbn; auto. Qed.

Lemma dec_cases d : exists u, dec d = NilEmpty.string_of_uint u /\ u <> Decimal.Nil /\ N.of_uint u = Z.to_N d.
Proof.
  unfold dec, NilZero.string_of_uint. pose proof (to_uint_nonnil (Z.to_N d)) as H. pose proof (Unsigned.of_to (Z.to_N d)) as E.
  destruct (N.to_uint (Z.to_N d)) as [|u|u|u|u|u|u|u|u|u|u]; [now contradiction H|..]; eexists; (split; [reflexivity|split; [discriminate|exact E]]).
Qed.

Lemma dec_digits d : all_digits (dec d).
Proof. destruct (dec_cases d) as (u & -> & _). apply uint_digits. Qed.

Lemma dec_nonempty d : dec d <> ""%string.
Proof. destruct (dec_cases d) as (u & -> & H & _). destruct u; [contradiction|..]; discriminate. Qed.

Lemma dec_val_acc u : forall acc, dec_val (Zpos acc) (NilEmpty.string_of_uint u) = Zpos (Pos.of_uint_acc u acc).
Proof.
  induction u as [|u IH|u IH|u IH|u IH|u IH|u IH|u IH|u IH|u IH|u IH]; intros acc; [reflexivity|..]; cbn [NilEmpty.string_of_uint dec_val Pos.of_uint_acc].
  all: match goal with |- (if is_digit ?c then _ else _) = _ => change (is_digit c) with true; cbn iota;
         let v := eval vm_compute in (digit_val c) in change (digit_val c) with v end.
  all: rewrite <- IH; f_equal; lia.
Qed.

Lemma dec_val_uint u : dec_val 0 (NilEmpty.string_of_uint u) = Z.of_N (N.of_uint u).
Proof.
  unfold N.of_uint. induction u as [|u IH|u IH|u IH|u IH|u IH|u IH|u IH|u IH|u IH|u IH]; [reflexivity|..]; cbn [NilEmpty.string_of_uint dec_val Pos.of_uint Z.of_N].
  all: match goal with |- (if is_digit ?c then _ else _) = _ => change (is_digit c) with true; cbn iota;
         let v := eval vm_compute in (digit_val c) in change (digit_val c) with v end.
  1: exact IH.
  all: apply dec_val_acc.
Qed.

Lemma dec_val_dec d : 0 <= d -> dec_val 0 (dec d) = d.
Proof. intros Hd. destruct (dec_cases d) as (u & -> & _ & E). rewrite dec_val_uint, E. lia. Qed.

Lemma digit_not_space c : is_digit c = true -> is_space c = false.
Proof. unfold is_digit, is_space. lia. Qed.

Lemma digit_not_sign c : is_digit c = true -> Ascii.eqb c "-" = false /\ Ascii.eqb c "+" = false.
Proof. intros H. split; apply Ascii.eqb_neq; intros ->; discriminate. Qed.

Lemma stoi_dec d : 0 <= d <= INT_MAX -> stoi (dec d) = Some d.
Proof.
  intros Hd. pose proof (dec_digits d) as HD. pose proof (dec_nonempty d) as HN. pose proof (dec_val_dec d ltac:(lia)) as HV.
  destruct (dec d) as [|c t]; [contradiction|]. destruct HD as [Hc Ht]. destruct (digit_not_sign c Hc) as [S1 S2].
  unfold stoi. cbn [skip_space]. rewrite (digit_not_space c Hc), S1, S2, Hc, HV.
  replace ((- 2 ^ 31 <=? d) && (d <=? INT_MAX)) with true by lia. reflexivity.
Qed.

(** ** Searching in names *)
Lemma index_digits c sub s : is_digit c = false -> all_digits s -> index 0 (String c sub) s = None.
Proof.
  intros Hc. induction s as [|a s IH]; intros HS; [reflexivity|]. destruct HS as [Ha HS]. cbn [index prefix].
  destruct (ascii_dec c a) as [->|]; [congruence|]. now rewrite (IH HS).
Qed.

Lemma contains_cons a s sub : contains (String a s) sub = prefix sub (String a s) || contains s sub.
Proof.
  unfold contains. destruct sub as [|c sub]; [cbn; now destruct s|].
  cbn [index]. destruct (prefix (String c sub) (String a s)); [reflexivity|]. now destruct (index 0 (String c sub) s).
Qed.

Lemma contains_digits c sub s : is_digit c = false -> all_digits s -> contains s (String c sub) = false.
Proof. intros Hc HS. unfold contains. now rewrite index_digits. Qed.

Lemma contains_digits_app c sub s t : is_digit c = false -> all_digits s -> contains (s ++ t)%string (String c sub) = contains t (String c sub).
Proof.
  intros Hc. induction s as [|a s IH]; intros HS; [reflexivity|]. destruct HS as [Ha HS]. cbn [append]. rewrite contains_cons, (IH HS).
  cbn [prefix]. destruct (ascii_dec c a) as [->|]; [congruence|reflexivity].
Qed.

Lemma index_digits_app c sub s t : is_digit c = false -> all_digits s ->
  index 0 (String c sub) (s ++ t)%string = option_map (Nat.add (String.length s)) (index 0 (String c sub) t).
Proof.
  intros Hc. induction s as [|a s IH]; intros HS; [cbn; now destruct (index 0 _ t)|]. destruct HS as [Ha HS]. cbn [append index prefix].
  destruct (ascii_dec c a) as [->|]; [congruence|]. rewrite (IH HS). now destruct (index 0 _ t).
Qed.

Lemma append_empty_r s : (s ++ "")%string = s.
Proof. induction s; cbn; [reflexivity|now f_equal]. Qed.

(** The factories and the name of a device. *)
Lemma f_valid_device f d g : 0 <= d -> g = ""%string \/ grain g -> f_valid f ("DEVICE::" ++ dec d ++ g)%string = true <-> made_kind f = Device.
Proof.
  intros Hd Hg. pose proof (dec_digits d) as HD.
  assert (HC : forall c sub, is_digit c = false -> contains g (String c sub) = contains (dec d ++ g) (String c sub)) by (intros; now rewrite contains_digits_app).
  assert (HN : forall y, (String "D" y =? "__umpire_internal_null")%string = false) by reflexivity.
  destruct f; cbn [f_valid made_kind append].
  all: try (rewrite !contains_cons, <- ?HC by reflexivity; destruct Hg as [->|[->| ->]]; vm_compute; split; congruence).
  - rewrite HN. split; discriminate.
  - destruct (dec d); destruct Hg as [->|[->| ->]]; split; discriminate.
Qed.

Lemma f_valid_plain f ty x : resource_to_string ty = Some x -> f_valid f x = true <-> made_kind f = ty.
Proof. intros H. destruct ty; try discriminate; injection H as <-; destruct f; vm_compute; split; congruence. Qed.

Lemma f_valid_grain f ty x g : resource_to_string ty = Some x -> ty = Device \/ ty = Unified \/ ty = Pinned -> grain g ->
  f_valid f (x ++ g)%string = true <-> made_kind f = ty.
Proof.
  intros H Ht [->| ->]; destruct Ht as [->|[->| ->]]; injection H as <-; destruct f; vm_compute; split; congruence.
Qed.

Lemma f_valid_names_device f d x : 0 <= d -> names_device d x -> f_valid f x = true <-> made_kind f = Device.
Proof.
  intros Hd Hx. destruct Hx as [|g Hg].
  - rewrite <- (append_empty_r (dec d)). apply f_valid_device; auto.
  - apply f_valid_device; auto.
Qed.

Lemma f_valid_kind f x ty : names_kind x ty -> f_valid f x = true <-> made_kind f = ty.
Proof.
  intros [ty' y H|ty' y g H Ht Hg|d y Hd H].
  - apply documented_is in H. now apply f_valid_plain.
  - apply documented_is in H. now apply f_valid_grain.
  - now apply f_valid_names_device with d.
Qed.

Lemma make_right_kind b x ty f : names_kind x ty -> make_memory_resource b x = Some f -> made_kind f = ty.
Proof. intros Hk H. apply find_some in H. now apply (f_valid_kind f x ty Hk). Qed.

Lemma make_in b x f : make_memory_resource b x = Some f -> In f (factories b).
Proof. intros H. now apply find_some in H. Qed.

Lemma make_exists b x ty : names_kind x ty -> (exists f, In f (factories b) /\ made_kind f = ty) -> exists f, make_memory_resource b x = Some f.
Proof.
  intros Hk (f & Hf & Ht). unfold make_memory_resource. destruct (find _ _) as [f'|] eqn:E; [eauto|].
  pose proof (find_none _ _ E f Hf) as H. cbn in H. rewrite (proj2 (f_valid_kind f x ty Hk) Ht) in H. discriminate.
Qed.

Lemma names_kind_fun x ty ty' : names_kind x ty -> names_kind x ty' -> ty = ty'.
Proof.
  intros H H'.
  assert (E : ty <> Unknown) by (destruct H as [? ? H|? ? ? H|]; [apply documented_is in H; destruct ty; discriminate|apply documented_is in H; destruct ty; discriminate|discriminate]).
  assert (Hf : exists f, made_kind f = ty).
  { destruct ty; [exists FHost|exists (FDevice VCuda)|exists (FUnified VCuda)|exists (FPinned VCuda)|exists (FConst VCuda)|exists FFile|exists FNoOp|exists FShared|contradiction]; reflexivity. }
  destruct Hf as [f Hf]. rewrite <- Hf. apply (f_valid_kind f x ty' H'). now apply (f_valid_kind f x ty H).
Qed.

(** ** The listed names *)
Lemma in_when {A : Type} (c : bool) (l : list A) x : In x (when c l) <-> c = true /\ In x l.
Proof. destruct c; cbn; intuition congruence. Qed.

Lemma device_name_kind d : names_device (Z.of_nat d) (device_name d).
Proof. constructor. Qed.

Lemma append_assoc_s a b c : ((a ++ b) ++ c)%string = (a ++ (b ++ c))%string.
Proof. induction a; cbn; [reflexivity|now f_equal]. Qed.

Lemma device_name_grain d g : grain g -> names_device (Z.of_nat d) (device_name d ++ g)%string.
Proof. intros Hg. unfold device_name. rewrite append_assoc_s. now constructor. Qed.

Lemma in_device_names n x : In x (map device_name (seq 0 n)) -> exists d, (d < n)%nat /\ x = device_name d.
Proof. intros H. apply in_map_iff in H. destruct H as (d & <- & Hd). apply in_seq in Hd. exists d. split; [lia|reflexivity]. Qed.

Lemma in_hip_names fine n x : In x (hip_device_names fine n) -> exists d, (d < n)%nat /\
  (x = device_name d \/ fine = true /\ exists g, grain g /\ x = (device_name d ++ g)%string).
Proof.
  intros H. apply in_flat_map in H. destruct H as (d & Hd & H). apply in_seq in Hd. exists d. split; [lia|].
  destruct H as [<-|H]; [now left|]. right. apply in_when in H. destruct H as [Hf H]. split; [exact Hf|]. unfold grain.
  destruct H as [<-|[<-|[]]]; eauto.
Qed.

(** What a listed name looks like. *)
Lemma names_cases b x : In x (names b) ->
  exists ty, (exists f, In f (factories b) /\ made_kind f = ty) /\
  (resource_to_string ty = Some x
   \/ b_hip b <> None /\ (ty = Device \/ ty = Unified \/ ty = Pinned) /\ (exists y g, resource_to_string ty = Some y /\ grain g /\ x = (y ++ g)%string)
   \/ ty = Device /\ exists d, (d < devices b)%nat /\ (x = device_name d \/ b_hip b <> None /\ exists g, grain g /\ x = (device_name d ++ g)%string)).
Proof.
  intros H. unfold names in H. unfold factories, devices, grain.
  repeat (apply in_app_or in H; destruct H as [H|H]).
  - destruct H as [<-|[]]. exists Host. split; [|now left]. exists FHost. split; [now left|reflexivity].
  - apply in_when in H. destruct H as [Hc [<-|[]]]. exists NoOp. split; [|now left]. exists FNoOp. rewrite Hc. split; [|reflexivity]. rewrite !in_app_iff. cbn. tauto.
  - apply in_when in H. destruct H as [Hc [<-|[]]]. exists Shared. split; [|now left]. exists FShared. rewrite Hc. split; [|reflexivity]. rewrite !in_app_iff. cbn. tauto.
  - apply in_when in H. destruct H as [Hc [<-|[]]]. exists File. split; [|now left]. exists FFile. rewrite Hc. split; [|reflexivity]. rewrite !in_app_iff. cbn. tauto.
  - destruct (b_cuda b) as [n|]; [|destruct H]. repeat (apply in_app_or in H; destruct H as [H|H]).
    + destruct H as [<-|[]]. exists Device. split; [|now left]. exists (FDevice VCuda). split; [|reflexivity]. rewrite !in_app_iff. cbn. tauto.
    + apply in_device_names in H. destruct H as (d & Hd & ->). exists Device. split; [exists (FDevice VCuda); split; [|reflexivity]; rewrite !in_app_iff; cbn; tauto|].
      right. right. split; [reflexivity|]. exists d. split; [lia|now left].
    + destruct H as [<-|[<-|[]]]; [exists Unified|exists Pinned]; (split; [|now left]); [exists (FUnified VCuda)|exists (FPinned VCuda)]; (split; [|reflexivity]); rewrite !in_app_iff; cbn; tauto.
    + apply in_when in H. destruct H as [Hc [<-|[]]]. exists Constant. split; [|now left]. exists (FConst VCuda). rewrite Hc. split; [|reflexivity]. rewrite !in_app_iff. cbn. tauto.
  - destruct (b_hip b) as [[n fine]|]; [|destruct H]. repeat (apply in_app_or in H; destruct H as [H|H]).
    + destruct H as [<-|[]]. exists Device. split; [|now left]. exists (FDevice VHip). split; [|reflexivity]. rewrite !in_app_iff. cbn. tauto.
    + apply in_when in H. destruct H as [_ H]. exists Device. split; [exists (FDevice VHip); split; [|reflexivity]; rewrite !in_app_iff; cbn; tauto|].
      right. left. split; [discriminate|]. split; [now left|]. exists "DEVICE"%string. destruct H as [<-|[<-|[]]]; eauto 6.
    + apply in_hip_names in H. destruct H as (d & Hd & H). exists Device. split; [exists (FDevice VHip); split; [|reflexivity]; rewrite !in_app_iff; cbn; tauto|].
      right. right. split; [reflexivity|]. exists d. split; [lia|]. destruct H as [->|(_ & g & Hg & ->)]; [now left|]. right. split; [discriminate|]. eauto.
    + destruct H as [<-|[]]. exists Unified. split; [|now left]. exists (FUnified VHip). split; [|reflexivity]. rewrite !in_app_iff. cbn. tauto.
    + apply in_when in H. destruct H as [_ H]. exists Unified. split; [exists (FUnified VHip); split; [|reflexivity]; rewrite !in_app_iff; cbn; tauto|].
      right. left. split; [discriminate|]. split; [now right; left|]. exists "UM"%string. destruct H as [<-|[<-|[]]]; eauto 6.
    + destruct H as [<-|[]]. exists Pinned. split; [|now left]. exists (FPinned VHip). split; [|reflexivity]. rewrite !in_app_iff. cbn. tauto.
    + apply in_when in H. destruct H as [_ H]. exists Pinned. split; [exists (FPinned VHip); split; [|reflexivity]; rewrite !in_app_iff; cbn; tauto|].
      right. left. split; [discriminate|]. split; [now right; right|]. exists "PINNED"%string. destruct H as [<-|[<-|[]]]; eauto 6.
    + apply in_when in H. destruct H as [Hc [<-|[]]]. exists Constant. split; [|now left]. exists (FConst VHip). rewrite Hc. split; [|reflexivity]. rewrite !in_app_iff. cbn. tauto.
  - destruct (b_sycl b) as [n|]; [|destruct H]. repeat (apply in_app_or in H; destruct H as [H|H]).
    + destruct H as [<-|[]]. exists Device. split; [|now left]. exists (FDevice VSycl). split; [|reflexivity]. rewrite !in_app_iff. cbn. tauto.
    + apply in_device_names in H. destruct H as (d & Hd & ->). exists Device. split; [exists (FDevice VSycl); split; [|reflexivity]; rewrite !in_app_iff; cbn; tauto|].
      right. right. split; [reflexivity|]. exists d. split; [lia|now left].
    + destruct H as [<-|[<-|[]]]; [exists Unified|exists Pinned]; (split; [|now left]); [exists (FUnified VSycl)|exists (FPinned VSycl)]; (split; [|reflexivity]); rewrite !in_app_iff; cbn; tauto.
  - destruct (b_omp b) as [n|]; [|destruct H]. repeat (apply in_app_or in H; destruct H as [H|H]).
    + apply in_device_names in H. destruct H as (d & Hd & ->). exists Device. split; [exists (FDevice VOmp); split; [|reflexivity]; rewrite !in_app_iff; cbn; tauto|].
      right. right. split; [reflexivity|]. exists d. split; [lia|now left].
    + destruct H as [<-|[]]. exists Device. split; [|now left]. exists (FDevice VOmp). split; [|reflexivity]. rewrite !in_app_iff. cbn. tauto.
Qed.

Lemma names_have_kind b x : In x (names b) -> exists ty, (exists f, In f (factories b) /\ made_kind f = ty) /\ names_kind x ty.
Proof.
  intros H. destruct (names_cases b x H) as (ty & Hf & C). exists ty. split; [exact Hf|].
  destruct C as [C|[(_ & Ht & y & g & Hy & Hg & ->)|(-> & d & _ & [->|(_ & g & Hg & ->)])]].
  - constructor. now apply documented_is.
  - constructor; [now apply documented_is|exact Ht|exact Hg].
  - apply nk_device with (Z.of_nat d); [lia|]. apply device_name_kind.
  - apply nk_device with (Z.of_nat d); [lia|]. now apply device_name_grain.
Qed.

Lemma listed_served b x : In x (names b) -> exists f, make_memory_resource b x = Some f /\ names_kind x (made_kind f).
Proof.
  intros H. destruct (names_have_kind b x H) as (ty & Hf & Hk). destruct (make_exists b x ty Hk Hf) as [f E].
  exists f. split; [exact E|]. now rewrite (make_right_kind b x ty f Hk E).
Qed.

Lemma types_listed b f : In f (factories b) -> f <> FNull -> exists x, resource_to_string (made_kind f) = Some x /\ In x (names b).
Proof.
  intros H Hn. unfold factories in H. unfold names.
  assert (Q : forall x, resource_to_string (made_kind f) = Some x -> In x (names b) -> exists x, resource_to_string (made_kind f) = Some x /\ In x (names b)) by eauto.
  unfold names in Q.
  repeat (apply in_app_or in H; destruct H as [H|H]).
  all: try (apply in_when in H; destruct H as [Hc H]; rewrite Hc in * ).
  all: try (destruct (b_cuda b) as [n|]; [|now destruct H]; repeat (apply in_app_or in H; destruct H as [H|H])).
  all: try (destruct (b_hip b) as [[n fine]|]; [|now destruct H]; repeat (apply in_app_or in H; destruct H as [H|H])).
  all: try (destruct (b_sycl b) as [n'|]; [|now destruct H]).
  all: try (destruct (b_omp b) as [n''|]; [|now destruct H]).
  all: try (apply in_when in H; destruct H as [Hc H]; rewrite Hc in * ).
  all: cbn [In] in H.
  all: repeat match type of H with _ \/ _ => destruct H as [H|H] end; try contradiction; subst f; try contradiction; cbn [made_kind resource_to_string] in *.
  all: eapply Q; [reflexivity|]; rewrite !in_app_iff; cbn; tauto.
Qed.
