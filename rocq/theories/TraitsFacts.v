(** Proofs about traits. *)
From Coq Require Import String Ascii.
From Verif Require Import VendSpec VendFacts Base BaseFacts NamingModel NamingFacts RegistryModel RegistrySpec RegistryFacts CatalogModel CatalogSpec CatalogFacts CatalogIds VendModel TraitsModel TraitsSpec.

Lemma get_over a t : over a t -> get_traits a = t.
Proof. induction 1; [reflexivity|]. destruct s; exact IHover. Qed.

(** ** Names *)
Lemma prefix_same a s t : prefix (String a s) (String a t) = prefix s t.
Proof. cbn [prefix]. now destruct (ascii_dec a a). Qed.
Lemma prefix_other a a' s t : a <> a' -> prefix (String a s) (String a' t) = false.
Proof. intros N. cbn [prefix]. now destruct (ascii_dec a a'). Qed.

Lemma device_contains d g sub c : is_digit c = false -> contains ("DEVICE::" ++ dec d ++ g)%string (String c sub) =
  prefix (String c sub) ("DEVICE::" ++ dec d ++ g)%string || prefix (String c sub) ("EVICE::" ++ dec d ++ g)%string ||
  prefix (String c sub) ("VICE::" ++ dec d ++ g)%string || prefix (String c sub) ("ICE::" ++ dec d ++ g)%string ||
  prefix (String c sub) ("CE::" ++ dec d ++ g)%string || prefix (String c sub) ("E::" ++ dec d ++ g)%string ||
  prefix (String c sub) ("::" ++ dec d ++ g)%string || prefix (String c sub) (":" ++ dec d ++ g)%string || contains g (String c sub).
Proof. intros Hc. cbn [append]. rewrite !contains_cons, contains_digits_app by (assumption || apply dec_digits). now rewrite !orb_assoc. Qed.

Lemma grain_contains d g c sub : is_digit c = false ->
  contains ("DEVICE::" ++ dec d ++ g)%string (String ":" (String ":" (String c sub))) = contains g (String ":" (String ":" (String c sub))).
Proof.
  intros Hc. rewrite device_contains by reflexivity. pose proof (dec_digits d) as HD. pose proof (dec_nonempty d) as HN.
  destruct (dec d) as [|a s]; [contradiction|]. destruct HD as [Ha _].
  assert (N : c <> a) by congruence. assert (N' : ":"%char <> a) by (intros <-; discriminate). cbn [append].
  rewrite ?prefix_other by discriminate. rewrite !prefix_same, prefix_other by exact N. rewrite prefix_other by exact N'. reflexivity.
Qed.

Lemma grain_of_name x g : grain_named x g ->
  (g = GCoarse <-> contains x "::COARSE" = true) /\ (g = GFine <-> contains x "::FINE" = true).
Proof.
  assert (H : forall y e, bare y -> e = ""%string \/ e = "::FINE"%string \/ e = "::COARSE"%string ->
              (contains (y ++ e) "::COARSE" = true <-> e = "::COARSE"%string) /\ (contains (y ++ e) "::FINE" = true <-> e = "::FINE"%string)).
  { intros y e [ty z H|d Hd] He.
    - cbn in H. destruct He as [->|[->| ->]]; decompose [or] H; clear H; try contradiction;
        match goal with E : (_, _) = (_, _) |- _ => injection E as _ <- end; vm_compute; repeat split; congruence.
    - rewrite append_assoc_s, !grain_contains by reflexivity. destruct He as [->|[->| ->]]; vm_compute; repeat split; congruence. }
  intros [y Hy|y Hy|y Hy].
  - pose proof (H y ""%string Hy (or_introl eq_refl)) as [E1 E2]. rewrite append_empty_r in *. rewrite E1, E2. repeat split; discriminate.
  - pose proof (H y "::FINE"%string Hy ltac:(auto)) as [E1 E2]. rewrite E1, E2. repeat split; discriminate.
  - pose proof (H y "::COARSE"%string Hy ltac:(auto)) as [E1 E2]. rewrite E1, E2. repeat split; discriminate.
Qed.

Lemma kind_device x ty : names_kind x ty -> contains x "DEVICE" = true <-> ty = Device \/ ty = Constant.
Proof.
  intros [ty' y H|ty' y g H Ht Hg|d y Hd [|g Hg]].
  - cbn in H. decompose [or] H; clear H; try contradiction; match goal with E : (_, _) = (_, _) |- _ => injection E as <- <- end; vm_compute; intuition congruence.
  - cbn in H. decompose [or] H; clear H; try contradiction; match goal with E : (_, _) = (_, _) |- _ => injection E as <- <- end;
      try (decompose [or] Ht; discriminate); destruct Hg as [->| ->]; vm_compute; intuition congruence.
  - cbn [append]. rewrite contains_cons. cbn. tauto.
  - cbn [append]. rewrite contains_cons. cbn. tauto.
Qed.

(** ** The traits that are kept *)
Lemma alike_refl t : alike t t. Proof. repeat split. Qed.

Lemma create_keeps sys f t t' : create sys f t = Ok tt t' -> alike t t' /\ t_id t' = t_id t /\ t_grain t' = t_grain t.
Proof.
  intros H. destruct f as [| | | | |v|v|v|v]; cbn in H; try destruct v; try (injection H as <-; repeat split).
  - destruct (t_scope t) eqn:E; try discriminate. injection H as <-. repeat split.
  - destruct (t_id t) eqn:E; [|discriminate]. destruct (sycl_queue _ _); injection H as <-; repeat split; cbn; auto.
  - destruct (t_id t) eqn:E; [|discriminate]. injection H as <-; repeat split; auto.
  - destruct (t_id t) eqn:E; [|discriminate]. destruct (sycl_queue _ _); injection H as <-; repeat split; cbn; auto.
  - destruct (t_id t) eqn:E; [|discriminate]. destruct (sycl_queue _ _); injection H as <-; repeat split; cbn; auto.
Qed.

Lemma make_with_keeps b sys x t t' : make_resource_with_traits b sys x t = Ok tt t' ->
  alike t t' /\
  (if contains x "DEVICE" then device_id (s_cuda sys) (s_current sys) x <> None /\ t_id t' = device_id (s_cuda sys) (s_current sys) x else t_id t' = t_id t) /\
  t_grain t' = (if contains x "::FINE" then GFine else if contains x "::COARSE" then GCoarse else t_grain t) /\
  exists f u, make_memory_resource b x = Some f /\ create sys f u = Ok tt t'.
Proof.
  unfold make_resource_with_traits. intros H.
  destruct (contains x "DEVICE").
  - destruct (device_id _ _ x) as [i|]; [|discriminate]. cbn [bind] in H. destruct (make_memory_resource b x) as [f|]; [|discriminate].
    pose proof (create_keeps _ _ _ _ H) as (A & I & G).
    split; [|split; [|split; [|eauto]]]; destruct (contains x "::COARSE"), (contains x "::FINE"); (exact A || exact G || (split; [discriminate|exact I])).
  - cbn [bind] in H. destruct (make_memory_resource b x) as [f|]; [|discriminate].
    pose proof (create_keeps _ _ _ _ H) as (A & I & G).
    split; [|split; [|split; [|eauto]]]; destruct (contains x "::COARSE"), (contains x "::FINE"); (exact A || exact G || exact I).
Qed.

Lemma make_default b sys x t : make_resource_traits b sys x = Ok tt t ->
  exists f u, make_memory_resource b x = Some f /\ default_traits sys f = Ok tt u /\ alike u t /\
  (if contains x "DEVICE" then device_id (s_cuda sys) (s_current sys) x <> None /\ t_id t = device_id (s_cuda sys) (s_current sys) x else t_id t = t_id u) /\
  t_grain t = (if contains x "::FINE" then GFine else if contains x "::COARSE" then GCoarse else t_grain u).
Proof.
  unfold make_resource_traits, get_default_resource_traits. destruct (make_memory_resource b x) as [f|] eqn:F; [|discriminate].
  destruct (default_traits sys f) as [[] u| | | |] eqn:D; try discriminate. cbn [bind]. intros H.
  destruct (make_with_keeps b sys x u t H) as (A & I & G & _). exists f, u. auto.
Qed.

Lemma factory_vendor b f : In f (factories b) ->
  match f with
  | FDevice v => has_vendor b v
  | FUnified v | FPinned v => has_vendor b v /\ v <> VOmp
  | FConst v => has_vendor b v /\ (v = VCuda \/ v = VHip)
  | _ => True
  end.
Proof.
  unfold factories. rewrite !in_app_iff, !in_when. cbn [In].
  intros H. decompose [or and] H; clear H; subst; try contradiction; try exact I; destruct (b_cuda b) eqn:E1, (b_hip b) eqn:E2, (b_sycl b) eqn:E3, (b_omp b) eqn:E4;
    cbn [In app] in *; rewrite ?in_app_iff, ?in_when in *; cbn [In] in *;
    repeat match goal with H : _ \/ _ |- _ => destruct H end; repeat match goal with H : _ /\ _ |- _ => destruct H end; cbn [In] in *; repeat match goal with H : _ \/ _ |- _ => destruct H end; try contradiction; subst; cbn; rewrite ?E1, ?E2, ?E3, ?E4; repeat split; auto; try congruence; discriminate.
Qed.

Ltac made H :=
  let f := fresh "f" in let u := fresh "u" in
  destruct (make_default _ _ _ _ H) as (f & u & ? & ? & (? & ? & ? & ? & ? & ? & ? & ? & ?) & ? & ?).

(** The default traits of the kinds of memory. *)
Lemma default_kind b sys f u : In f (factories b) -> default_traits sys f = Ok tt u -> (made_kind f = Unified -> b_sycl b <> None -> s_sycl sys <> None) ->
  made_kind f <> NoOp -> made_kind f <> Unknown -> In (made_kind f, t_resource u) said.
Proof.
  intros F D S N U. apply factory_vendor in F.
  destruct f as [| | | | |v|v|v|v]; try (cbn in N, U; contradiction); try destruct v; cbn in D, F; try (exfalso; intuition discriminate).
  1: destruct (s_omp sys).
  all: try (destruct (s_mem sys 0); [|discriminate]).
  all: try (destruct (s_sycl sys); [|exfalso; apply S; auto; tauto]).
  all: injection D as <-; cbn; tauto.
Qed.

Lemma made_is_kind b sys x ty t : names_kind x ty -> ty <> NoOp -> (b_sycl b <> None -> s_sycl sys <> None) ->
  make_resource_traits b sys x = Ok tt t -> In (ty, t_resource t) said.
Proof.
  intros K N S H. made H. pose proof (make_right_kind _ _ _ _ K H0) as E. subst ty.
  assert (U : made_kind f <> Unknown).
  { intros E. rewrite E in K. inversion K as [? ? D|? ? g D _|]; apply documented_is in D; discriminate. }
  match goal with E : t_resource u = t_resource t |- _ => rewrite <- E end. eapply default_kind; eauto using make_in.
Qed.

Lemma made_unified b sys x ty t : names_kind x ty -> (b_sycl b <> None -> s_sycl sys <> None) ->
  make_resource_traits b sys x = Ok tt t -> t_unified t = true <-> ty = Unified.
Proof.
  intros K S H. made H. pose proof (make_right_kind _ _ _ _ K H0) as E. subst ty.
  match goal with E : t_unified u = t_unified t |- _ => rewrite <- E end.
  pose proof (factory_vendor b f (make_in _ _ _ H0)) as F. rename H1 into D.
  destruct f as [| | | | |v|v|v|v]; try destruct v; cbn in D, F; try (exfalso; intuition discriminate).
  1: destruct (s_omp sys).
  all: try (destruct (s_mem sys 0); [|discriminate]).
  all: try (destruct (s_sycl sys); [|exfalso; apply S; auto; tauto]).
  all: injection D as <-; cbn; intuition discriminate.
Qed.

Lemma made_size b sys x ty t : names_kind x ty -> (b_sycl b <> None -> s_sycl sys <> None) ->
  make_resource_traits b sys x = Ok tt t -> size_said b sys ty (t_size t) /\ chips_said ty (t_kind t) (t_used t).
Proof.
  intros K S H. made H. pose proof (make_right_kind _ _ _ _ K H0) as E. subst ty.
  match goal with E : t_size u = t_size t |- _ => rewrite <- E end. match goal with E : t_kind u = t_kind t |- _ => rewrite <- E end.
  match goal with E : t_used u = t_used t |- _ => rewrite <- E end.
  pose proof (factory_vendor b f (make_in _ _ _ H0)) as F. rename H1 into D.
  destruct f as [| | | | |v|v|v|v]; try destruct v; cbn in D, F; try (exfalso; intuition discriminate).
  1: destruct (s_omp sys).
  all: try (destruct (s_mem sys 0) eqn:EM; [|discriminate]).
  all: try (destruct (s_sycl sys) eqn:ES; [|exfalso; apply S; auto; tauto]).
  all: injection D as <-; cbn; intuition auto.
Qed.

Lemma made_error b sys x t e : (make_resource_traits b sys x = Throw t e \/ (exists u, make_resource_with_traits b sys x u = Throw t e) \/
  get_default_resource_traits b sys x = Throw t e) -> e = RuntimeError.
Proof.
  assert (C : forall f u, create sys f u = Throw t e -> e = RuntimeError).
  { intros f u H. unfold create in H. destruct f as [| | | | |v|v|v|v]; try destruct v; try (destruct (t_id u)); try (destruct (t_scope u)); congruence. }
  assert (D : forall f, default_traits sys f = Throw t e -> e = RuntimeError).
  { intros f H. unfold default_traits in H. destruct f as [| | | | |v|v|v|v]; try destruct v; try (destruct (s_mem sys 0)); try (destruct (s_sycl sys)); congruence. }
  assert (G : get_default_resource_traits b sys x = Throw t e -> e = RuntimeError).
  { unfold get_default_resource_traits. destruct (make_memory_resource b x); [apply D|congruence]. }
  assert (M : forall u, make_resource_with_traits b sys x u = Throw t e -> e = RuntimeError).
  { intros u. unfold make_resource_with_traits. destruct (contains x "DEVICE"); [destruct (device_id _ _ _)|]; cbn [bind]; try congruence.
    all: destruct (make_memory_resource b x); [apply C|congruence]. }
  intros [H|[[u H]|H]]; auto; [|eauto]. unfold make_resource_traits in H.
  destruct (get_default_resource_traits b sys x) as [w u|w e'| | |] eqn:E; cbn [bind] in H; try discriminate; [eauto|].
  injection H as -> ->. now apply G.
Qed.

Lemma made_scope b sys x ty t : names_kind x ty -> make_resource_traits b sys x = Ok tt t -> t_scope t = ScNode <-> ty = Shared.
Proof.
  intros K H. made H. pose proof (make_right_kind _ _ _ _ K H0) as E. subst ty.
  match goal with E : t_scope u = t_scope t |- _ => rewrite <- E end. rename H1 into D.
  destruct f as [| | | | |v|v|v|v]; try destruct v; cbn in D.
  1: destruct (s_omp sys).
  all: try (destruct (s_mem sys 0); [|discriminate]).
  all: try (destruct (s_sycl sys)).
  all: injection D as <-; cbn; intuition discriminate.
Qed.

Lemma made_vendor b sys x ty v t : one_vendor b -> has_vendor b v -> of_device ty -> names_kind x ty -> (b_sycl b <> None -> s_sycl sys <> None) ->
  make_resource_traits b sys x = Ok tt t -> In (v, t_vendor t) makers.
Proof.
  intros O V T K S H. made H. pose proof (make_right_kind _ _ _ _ K H0) as E. subst ty.
  match goal with E : t_vendor u = t_vendor t |- _ => rewrite <- E end.
  pose proof (factory_vendor b f (make_in _ _ _ H0)) as F. rename H1 into D. unfold of_device in T.
  assert (U : forall w, has_vendor b w -> w = v).
  { intros w W. destruct O as (O1 & O2 & O3). destruct v, w; cbn in V, W; try reflexivity; exfalso; tauto. }
  destruct f as [| | | | |w|w|w|w]; try (exfalso; cbn in T; intuition discriminate);
    (assert (w = v) by (apply U; first [exact F|exact (proj1 F)])); subst w; destruct v; cbn in D, F; try (exfalso; intuition discriminate).
  all: try (destruct (s_mem sys 0); [|discriminate]).
  all: try (destruct (s_sycl sys); [|exfalso; apply S; auto; tauto]).
  all: injection D as <-; cbn; tauto.
Qed.

Lemma made_host b sys t : make_resource_traits b sys "HOST" = Ok tt t ->
  t_vendor t = cpu_vendor_type (s_cpu sys) /\ t_id t = if s_omp sys then Some (s_initial sys) else None.
Proof.
  intros H. made H. pose proof (make_right_kind _ _ Host _ (nk_plain Host "HOST" ltac:(cbn; tauto)) H0) as E.
  change (contains "HOST" "DEVICE") with false in *. cbn iota in *. destruct f; try discriminate. cbn in H1. destruct (s_omp sys); injection H1 as <-; cbn in *; split; congruence.
Qed.

Lemma made_id b sys x ty t : names_kind x ty -> ty = Device \/ ty = Constant -> make_resource_traits b sys x = Ok tt t ->
  exists i, device_id (s_cuda sys) (s_current sys) x = Some i /\ t_id t = Some i.
Proof.
  intros K T H. made H. rewrite (proj2 (kind_device x ty K) T) in *.
  match goal with E : _ /\ _ |- _ => destruct E as [E E'] end. destruct (device_id _ _ x) as [i|]; [|contradiction]. eauto.
Qed.

Lemma made_id_device b sys d t : 0 <= d <= INT_MAX -> make_resource_traits b sys ("DEVICE::" ++ dec d) = Ok tt t -> t_id t = Some d.
Proof.
  intros D H. destruct (made_id b sys _ Device t (nk_device d _ (proj1 D) (nd_plain d)) (or_introl eq_refl) H) as (i & E & F).
  rewrite device_id_device in E by exact D. congruence.
Qed.

Lemma made_id_current b sys x t : x = "DEVICE"%string \/ x = "DEVICE_CONST"%string -> make_resource_traits b sys x = Ok tt t -> t_id t = Some (s_current sys).
Proof.
  intros X H.
  assert (exists i, device_id (s_cuda sys) (s_current sys) x = Some i /\ t_id t = Some i) as (i & E & F).
  { destruct X as [-> | ->]; [apply (made_id b sys _ Device)|apply (made_id b sys _ Constant)]; auto; constructor; cbn; tauto. }
  rewrite F, <- E. unfold device_id. clear E F. generalize (s_current sys). intros c. destruct X as [-> | ->], (s_cuda sys); reflexivity.
Qed.

Lemma default_id sys f u : default_traits sys f = Ok tt u -> t_grain u = GUnknown /\ t_tracking u = true.
Proof.
  intros D. destruct f as [| | | | |v|v|v|v]; try destruct v; cbn in D.
  1: destruct (s_omp sys).
  all: try (destruct (s_mem sys 0); [|discriminate]).
  all: try (destruct (s_sycl sys)).
  all: injection D as <-; cbn; auto.
Qed.

Lemma made_grain b sys x g t : grain_named x g -> make_resource_traits b sys x = Ok tt t -> t_grain t = g /\ t_tracking t = true.
Proof.
  intros G H. apply grain_of_name in G. destruct G as [G1 G2]. made H. destruct (default_id _ _ _ H1) as [D1 D2]. split; [|congruence].
  match goal with E : t_grain t = _ |- _ => rewrite E end.
  destruct g, (contains x "::FINE"), (contains x "::COARSE"); intuition congruence.
Qed.

Lemma given_kept b sys x t t' : make_resource_with_traits b sys x t = Ok tt t' ->
  alike t t' /\ (forall ty, names_kind x ty -> ty <> Device -> ty <> Constant -> t_id t' = t_id t) /\
  (forall g, grain_named x g -> t_grain t' = if match g with GUnknown => true | _ => false end then t_grain t else g).
Proof.
  intros H. destruct (make_with_keeps b sys x t t' H) as (A & I & G & _). split; [exact A|]. split.
  - intros ty K N N'. destruct (contains x "DEVICE") eqn:E; [|exact I]. apply (kind_device x ty K) in E. tauto.
  - intros g N. apply grain_of_name in N. rewrite G. destruct N as [G1 G2]. destruct g, (contains x "::FINE"), (contains x "::COARSE"); intuition congruence.
Qed.

Lemma shared_scope b sys x t : names_kind x Shared -> b_shared b = true ->
  (t_scope t = ScNode -> make_resource_with_traits b sys x t = Ok tt t) /\
  (t_scope t <> ScNode -> make_resource_with_traits b sys x t = Throw tt RuntimeError).
Proof.
  intros K B.
  assert (F : make_memory_resource b x = Some FShared).
  { destruct (make_exists b x Shared K) as [f E]; [exists FShared; split; [|reflexivity]; unfold factories; rewrite B, !in_app_iff; cbn; tauto|].
    pose proof (make_right_kind _ _ _ _ K E) as M. destruct f; try discriminate. exact E. }
  unfold make_resource_with_traits. rewrite F.
  assert (X : x = "SHARED"%string).
  { inversion K as [ty y H|ty y g H T|]; subst.
    - cbn in H. decompose [or] H; clear H; try contradiction; match goal with E : (_, _) = (_, _) |- _ => injection E as ? end; congruence.
    - decompose [or] T; discriminate. }
  subst x. change (contains "SHARED" "DEVICE") with false. change (contains "SHARED" "::COARSE") with false. change (contains "SHARED" "::FINE") with false.
  cbn [bind create]. split; intros S; destruct (t_scope t); congruence.
Qed.

Lemma default_same b sys x u t : get_default_resource_traits b sys x = Ok tt u -> make_resource_traits b sys x = Ok tt t -> alike u t.
Proof. unfold make_resource_traits. intros D H. rewrite D in H. cbn [bind] in H. apply make_with_keeps in H. tauto. Qed.

Lemma listed_made b sys x : working b sys -> In x (names b) -> exists t, make_resource_traits b sys x = Ok tt t.
Proof.
  intros (M & S & C & D) I. destruct (listed_served b x I) as (f & F & K).
  destruct (device_id_listed b (s_cuda sys) (s_current sys) x C D I) as (i & E & _).
  pose proof (factory_vendor b f (make_in _ _ _ F)) as V.
  unfold make_resource_traits, get_default_resource_traits, make_resource_with_traits. rewrite F, E.
  destruct f as [| | | | |v|v|v|v]; cbn in V; try destruct v; try (exfalso; intuition discriminate);
    (let c := fresh "c" in destruct (contains x "DEVICE") eqn:X; [|
      first [apply (proj2 (kind_device x _ K)) in X || idtac];
      try (rewrite (proj2 (kind_device x _ K)) in X; [discriminate|cbn; tauto])]); cbn;
    try (destruct (s_mem sys 0); [|contradiction]); try (destruct (s_sycl sys); [|exfalso; apply S; auto; tauto]); cbn;
    destruct (contains x "::COARSE"), (contains x "::FINE"); cbn; try (destruct (sycl_queue _ _)); eauto.
Qed.

(** ** Who looks at them *)
Lemma prefetch_um b sys a x ty : rests_on_name b sys a x -> names_kind x ty -> (b_sycl b <> None -> s_sycl sys <> None) ->
  prefetch_refused a = false <-> ty = Unified.
Proof.
  intros (t & H & O) K S. unfold prefetch_refused. rewrite (get_over _ _ O). destruct (rtype_eqb ty NoOp) eqn:E.
  - destruct ty; try discriminate. made H. pose proof (make_right_kind _ _ _ _ K H0) as M. destruct f; try discriminate.
    cbn in H1. injection H1 as <-. cbn in *. match goal with E : TUnknown = _ |- _ => rewrite <- E end. intuition discriminate.
  - assert (N : ty <> NoOp) by (intros ->; discriminate). pose proof (made_is_kind b sys x ty t K N S H) as W. cbn in W.
    decompose [or] W; clear W; try contradiction; match goal with E : (_, _) = (_, _) |- _ => injection E as <- <- end; intuition discriminate.
Qed.

Lemma communicator_shared b sys a x ty : rests_on_name b sys a x -> names_kind x ty -> has_communicator a = true <-> ty = Shared.
Proof.
  intros (t & H & O) K. unfold has_communicator. rewrite (get_over _ _ O). pose proof (made_scope b sys x ty t K H) as W.
  destruct (t_scope t); intuition discriminate.
Qed.

Lemma omp_devices b sys h a d : s_omp sys = true -> 0 <= d <= INT_MAX -> rests_on_name b sys h "HOST" -> rests_on_name b sys a ("DEVICE::" ++ dec d) ->
  omp_copy h a = Ok tt (d, s_initial sys) /\ omp_copy a h = Ok tt (s_initial sys, d) /\ omp_memset a = Ok tt d.
Proof.
  intros M D (t & H & O) (t' & H' & O'). unfold omp_copy, omp_memset. rewrite (get_over _ _ O), (get_over _ _ O').
  rewrite (made_id_device b sys d t' D H'). destruct (made_host b sys t H) as [_ E]. rewrite E, M. auto.
Qed.

Lemma omp_two b sys a a' d d' : 0 <= d <= INT_MAX -> 0 <= d' <= INT_MAX -> rests_on_name b sys a ("DEVICE::" ++ dec d) -> rests_on_name b sys a' ("DEVICE::" ++ dec d') ->
  omp_copy a a' = Ok tt (d', d).
Proof.
  intros D D' (t & H & O) (t' & H' & O'). unfold omp_copy. rewrite (get_over _ _ O), (get_over _ _ O').
  now rewrite (made_id_device b sys d t D H), (made_id_device b sys d' t' D' H').
Qed.

(** ** The queue *)
Lemma create_queue sys f t t' : create sys f t = Ok tt t' -> t_queue t = None ->
  forall u, t_queue t' = Some u -> exists d, t_id t' = Some d /\ sycl_queue (s_units sys) d = Some u.
Proof.
  intros H Hq u Hu.
  assert (HQ : match t_id t with
               | Some i => Ok tt (match sycl_queue (s_units sys) i with Some u => set_queue (Some u) t | None => t end)
               | None => UB
               end = Ok tt t' -> exists d, t_id t' = Some d /\ sycl_queue (s_units sys) d = Some u).
  { clear H. intros H. destruct (t_id t) as [i|] eqn:E; [|discriminate].
    destruct (sycl_queue (s_units sys) i) as [v|] eqn:Eq; injection H as <-; [|congruence].
    cbn in Hu. exists i. split; [exact E|congruence]. }
  destruct f as [| | | | |v|v|v|v]; cbn [create] in H; try destruct v;
    solve [exact (HQ H) | injection H as <-; congruence | destruct (t_scope t); try discriminate; injection H as <-; congruence
          | destruct (t_id t); try discriminate; injection H as <-; congruence].
Qed.

Lemma default_queue sys f t : default_traits sys f = Ok tt t -> t_queue t = None.
Proof.
  intros H. destruct f as [| | | | |v|v|v|v]; cbn in H; try destruct v; cbn in H;
    repeat match type of H with context [match ?x with _ => _ end] => destruct x end; try discriminate; injection H as <-; reflexivity.
Qed.

Lemma made_queue b sys x t : make_resource_traits b sys x = Ok tt t ->
  forall u, t_queue t = Some u -> exists d, t_id t = Some d /\ 0 <= d /\ nth_error (units (s_units sys)) (Z.to_nat d) = Some u.
Proof.
  unfold make_resource_traits, get_default_resource_traits. intros H u Hu.
  destruct (make_memory_resource b x) as [f|] eqn:Ef; [|discriminate]. cbn [bind] in H.
  destruct (default_traits sys f) as [w t0|w e| | |] eqn:Ed; try discriminate. destruct w. cbn [bind] in H. apply default_queue in Ed.
  unfold make_resource_with_traits in H. rewrite Ef in H.
  assert (HC : exists t1, create sys f t1 = Ok tt t /\ t_queue t1 = None).
  { destruct (contains x "DEVICE").
    - destruct (device_id _ _ x) as [i|]; [|discriminate]. cbn [bind] in H. eexists. split; [exact H|].
      destruct (contains x "::COARSE"), (contains x "::FINE"); exact Ed.
    - cbn [bind] in H. eexists. split; [exact H|]. destruct (contains x "::COARSE"), (contains x "::FINE"); exact Ed. }
  destruct HC as (t1 & HC & Hq). destruct (create_queue _ _ _ _ HC Hq u Hu) as (d & H1 & H2).
  exists d. split; [exact H1|]. rewrite queue_is in H2. destruct (Z.ltb_spec d 0); [discriminate|]. split; [lia|exact H2].
Qed.
