(** C39: DeviceAllocator under any interleaving of any threads ([dhist], DeviceSpec.v).  C48: the table of them. *)
From Coq Require Import String Ascii.
From Verif Require Import Base BaseFacts DeviceModel DeviceSpec DeviceFacts.

(** C39: the ranges handed out since the last reset are disjoint, as long as fewer than 2^32 bytes were asked for since. *)
Theorem C39_disjoint : forall hip size s P R T, dhist hip size s P R T ->
  pairwise disj R /\ forall r, In r R -> 0 <= fst r /\ fst r + snd r <= T.
Proof. exact d_disjoint. Qed.
Print Assumptions C39_disjoint.

(** C39: under HIP they are also inside the arena. *)
Theorem C39_inside_partial : forall size s P R T, dhist true size s P R T -> forall r, In r R -> 0 <= fst r /\ fst r + snd r <= size.
Proof. intros size s P R T. exact (d_inside true size s P R T eq_refl). Qed.
Print Assumptions C39_inside_partial.

(** C39: getCurrentSize is what was asked for since the reset, refused or not; a thread is refused only if that is more
    than there is, and from then on every thread is refused until the reset. *)
Theorem C39_current_size : forall hip size s P R T, dhist hip size s P R T -> d_counter s = T.
Proof. exact d_current. Qed.
Print Assumptions C39_current_size.
Theorem C39_refused : forall hip size s P R T t s', dhist hip size s P R T -> dexec hip size (DCheck t) s = (s', DError) -> size < T.
Proof. exact d_refused. Qed.
Print Assumptions C39_refused.
Theorem C39_served : forall size s P R T t s' off n, dhist true size s P R T -> dexec true size (DCheck t) s = (s', DGot off n) -> T <= size.
Proof. intros size s P R T t s' off n. exact (d_full true size s P R T t s' off n eq_refl). Qed.
Print Assumptions C39_served.

(** Two threads interleaved, a reset by a third that has to try twice, then another allocation. *)
Definition dev_steps : list dact :=
  [DAdd 1 40; DRead 3; DAdd 2 24; DCheck 2; DCas 3; DCheck 1; DRead 3; DCas 3; DAdd 2 100; DCheck 2; DAdd 1 1; DCheck 1].
Example C39_example : snd (drun true 100 dev_steps d_init) =
  [DNone; DNone; DNone; DGot 40 24; DNone; DGot 0 40; DNone; DDone; DNone; DGot 0 100; DNone; DError].
Proof. vm_compute. reflexivity. Qed.
Example C39_case : exists s, dhist true 100 s [] [(0, 40); (40, 24)] 64.
Proof.
  pose proof (dh_start true 100) as H.
  eapply (dh_add true 100 _ _ _ _ 1 40) in H; [|lia|unfold M32; lia|reflexivity].
  eapply (dh_add true 100 _ _ _ _ 2 24) in H; [|lia|unfold M32; lia|reflexivity].
  eapply (dh_got true 100 _ _ _ _ 2 40 24) in H; [|reflexivity|now left].
  eapply (dh_got true 100 _ _ _ _ 1 0 40) in H; [|reflexivity|now left].
  eexists. exact H.
Qed.

(** C39 fails under CUDA: nothing is checked. *)
Theorem C39_cuda_outside_refuted : snd (drun false 100 [DAdd 1 200; DCheck 1] d_init) = [DNone; DGot 0 200].
Proof. vm_compute. reflexivity. Qed.
Print Assumptions C39_cuda_outside_refuted.
(** C39 fails when the 32-bit counter wraps, even in an arena that is large enough. *)
Theorem C39_wrap_refuted : forall hip,
  snd (drun hip (2 ^ 34) [DAdd 1 (2 ^ 31); DCheck 1; DAdd 1 (2 ^ 31); DCheck 1; DAdd 1 8; DCheck 1] d_init) =
  [DNone; DGot 0 (2 ^ 31); DNone; DGot (2 ^ 31) (2 ^ 31); DNone; DGot 0 8].
Proof. intros []; vm_compute; reflexivity. Qed.
Print Assumptions C39_wrap_refuted.
(** C39 fails for a request of 2^32 or more, which is cut to 32 bits; 2^32 + 8 bytes are granted in an arena of 100. *)
Theorem C39_truncated_refuted : forall hip,
  snd (drun hip 100 [DAdd 1 (2 ^ 32 + 8); DCheck 1; DAdd 2 8; DCheck 2] d_init) = [DNone; DGot 0 (2 ^ 32 + 8); DNone; DGot 8 8].
Proof. intros []; vm_compute; reflexivity. Qed.
Print Assumptions C39_truncated_refuted.
(** C39 fails under HIP after a refused request: it stays counted, and the next one wraps past the check. *)
Theorem C39_after_refusal_refuted :
  snd (drun true 100 [DAdd 1 (2 ^ 32 - 10); DCheck 1; DAdd 2 20; DCheck 2] d_init) = [DNone; DError; DNone; DGot (2 ^ 32 - 10) 20].
Proof. vm_compute. reflexivity. Qed.
Print Assumptions C39_after_refusal_refuted.
(** C39 fails under HIP when a reset comes between a thread's addition and its check. *)
Theorem C39_reset_race_refuted :
  snd (drun true 100 [DAdd 1 200; DZero; DCheck 1] d_init) = [DNone; DDone; DGot 0 200].
Proof. vm_compute. reflexivity. Qed.
Print Assumptions C39_reset_race_refuted.
(** And a request that fits is refused when a later one of another thread does not. *)
Theorem C39_fitting_refused_refuted :
  snd (drun true 100 [DAdd 1 10; DAdd 2 200; DCheck 1] d_init) = [DNone; DNone; DError].
Proof. vm_compute. reflexivity. Qed.
Print Assumptions C39_fitting_refused_refuted.

(** C48: making a device allocator gives the next negative id, for the first 64 and for names below 64 characters. *)
Theorem C48_make : forall T made fresh size name, thist T made -> 0 < size -> Z.of_nat (String.length name) < 64 -> Z.of_nat (List.length made) < 64 ->
  exists T', make_device_allocator fresh size name T = Ok T' (mkEntry name size (- Z.of_nat (List.length made) - 1)).
Proof. exact t_make. Qed.
Print Assumptions C48_make.
(** C48: ids are distinct and negative, and each finds the allocator it was given to, whatever the array held at first. *)
Theorem C48_ids : forall T made, thist T made -> NoDup (map e_id made) /\ forall e, In e made -> e_id e < 0.
Proof. exact t_ids. Qed.
Print Assumptions C48_ids.
Theorem C48_by_id : forall T made e, thist T made -> In e made -> get_by_id (e_id e) T = Ok T e.
Proof. exact t_by_id. Qed.
Print Assumptions C48_by_id.
(** C48: on the host a name finds its allocator if no other has it and no unused entry happens to hold it. *)
Theorem C48_by_name_host : forall T made e, thist T made -> In e made -> (forall x, In x made -> e_name x = e_name e -> x = e) ->
  (forall l x, t_array T = Some l -> In x (skipn (List.length made) l) -> e_name x <> e_name e) -> get_by_name false (e_name e) T = Ok T e.
Proof. exact t_by_name_host. Qed.
Print Assumptions C48_by_name_host.
(** C48: on the device only if no other name is a prefix of it. *)
Theorem C48_by_name_device_partial : forall T made e, thist T made -> In e made -> (forall x, In x made -> prefix (e_name x) (e_name e) -> x = e) ->
  get_by_name true (e_name e) T = Ok T e.
Proof. exact t_by_name_device. Qed.
Print Assumptions C48_by_name_device_partial.
(** C48: a name that no entry has (on the device: of which no entry's name is a prefix) is an error, and so is any before the first is made. *)
Theorem C48_absent : forall T (device : bool) name,
  (forall l x, t_array T = Some l -> In x l -> if device then ~ prefix (e_name x) name else e_name x <> name) ->
  get_by_name device name T = Throw T RuntimeError.
Proof. exact t_absent. Qed.
Print Assumptions C48_absent.
(** C48: destroying destroys exactly those made, when it is defined. *)
Theorem C48_destroy : forall T made T' l, thist T made -> destroy_device_allocator T = Ok T' l -> l = rev made.
Proof. exact t_destroy. Qed.
Print Assumptions C48_destroy.

(** The array as fresh zero pages. *)
Definition zeroed : list dentry := repeat (mkEntry "" 0 0) 64.
Definition make2 (n1 n2 : string) : option dtable :=
  match make_device_allocator zeroed 100 n1 t_init with Ok T _ => match make_device_allocator zeroed 200 n2 T with Ok T2 _ => Some T2 | _ => None end | _ => None end.
Lemma make2_hist n1 n2 T : make2 n1 n2 = Some T -> thist T [mkEntry n2 200 (-2); mkEntry n1 100 (-1)].
Proof.
  unfold make2. destruct (make_device_allocator zeroed 100 n1 t_init) as [T1 e1| | | |] eqn:E1; try discriminate. destruct (make_device_allocator zeroed 200 n2 T1) as [T2 e2| | | |] eqn:E2; try discriminate.
  intros [= <-]. assert (H1 : thist T1 [e1]) by exact (th_make t_init [] zeroed 100 n1 T1 e1 th_start eq_refl E1). pose proof (th_make T1 [e1] zeroed 200 n2 T2 e2 H1 eq_refl E2) as H2.
  unfold make_device_allocator in E1. cbn [t_init t_array] in E1. change (100 <=? 0) with false in E1. destruct (NAME_BYTES <=? _); [discriminate|]. cbn in E1. injection E1 as <- <-.
  unfold make_device_allocator in E2. cbn [t_array] in E2. change (200 <=? 0) with false in E2. destruct (NAME_BYTES <=? _); [discriminate|]. cbn in E2. injection E2 as <- <-. exact H2.
Qed.
Example C48_case : exists T, thist T [mkEntry "beta" 200 (-2); mkEntry "alpha" 100 (-1)] /\ get_by_name false "beta" T = Ok T (mkEntry "beta" 200 (-2)) /\
  get_by_name true "beta" T = Ok T (mkEntry "beta" 200 (-2)) /\ get_by_id (-1) T = Ok T (mkEntry "alpha" 100 (-1)) /\ get_by_name false "gamma" T = Throw T RuntimeError /\
  get_by_id (-3) T = Throw T RuntimeError /\ (exists T', destroy_device_allocator T = Ok T' [mkEntry "alpha" 100 (-1); mkEntry "beta" 200 (-2)]).
Proof.
  destruct (make2 "alpha" "beta") as [T|] eqn:E; [|discriminate]. exists T. split; [exact (make2_hist _ _ T E)|]. vm_compute in E. injection E as <-.
  repeat split. eexists. vm_compute. reflexivity.
Qed.

(** A table whose unused entries hold names. *)
Example C48_absent_case : exists T, t_array T <> None /\ get_by_name true "gamma" T = Throw T RuntimeError /\ get_by_name true "beta2" T <> Throw T RuntimeError.
Proof.
  exists (mkTable (Some (mkEntry "beta" 200 (-1) :: repeat (mkEntry "x" 0 0) 63)) 1). split; [discriminate|]. split; vm_compute; [reflexivity|discriminate].
Qed.

(** C48 fails on the device: "pool2" finds "pool", and any unknown name finds an unused entry of zeroed memory. *)
Theorem C48_prefix_refuted : exists T, thist T [mkEntry "pool2" 200 (-2); mkEntry "pool" 100 (-1)] /\
  get_by_name true "pool2" T = Ok T (mkEntry "pool" 100 (-1)) /\ get_by_name true "other" T = Ok T (mkEntry "" 0 0).
Proof.
  destruct (make2 "pool" "pool2") as [T|] eqn:E; [|discriminate]. exists T. split; [exact (make2_hist _ _ T E)|]. vm_compute in E. injection E as <-. split; vm_compute; reflexivity.
Qed.
Print Assumptions C48_prefix_refuted.
(** C48 fails for the 65th allocator and for a name of 64 characters: both are written past the end. *)
Fixpoint make_many (n : nat) (T : dtable) : outcome dtable dentry :=
  match n with O => Ok T (mkEntry "" 0 0) | S n => let* (T, _) := make_device_allocator zeroed 8 "d" T in make_many n T end.
Theorem C48_65th_refuted : make_many 65 t_init = UB /\ exists T e, make_many 64 t_init = Ok T e.
Proof. split; [vm_compute; reflexivity|]. eexists _, _. vm_compute. reflexivity. Qed.
Print Assumptions C48_65th_refuted.
Theorem C48_long_name_refuted : make_device_allocator zeroed 8 "0123456789012345678901234567890123456789012345678901234567890123" t_init = UB.
Proof. vm_compute. reflexivity. Qed.
Print Assumptions C48_long_name_refuted.
(** C48 fails when the array's memory was not zero: destroying touches entries never made. *)
Theorem C48_destroy_refuted : exists T T' e, thist T [e] /\ make_device_allocator (repeat (mkEntry "x" 7 0) 64) 8 "d" t_init = Ok T e /\
  destroy_device_allocator T = UB /\ get_by_id (-2) T = Ok T' (mkEntry "x" 7 0).
Proof.
  destruct (make_device_allocator (repeat (mkEntry "x" 7 0) 64) 8 "d" t_init) as [T e| | | |] eqn:E; try discriminate.
  exists T, T, e. split; [exact (th_make t_init [] (repeat (mkEntry "x" 7 0) 64) 8 "d" T e th_start eq_refl E)|]. split; [reflexivity|]. vm_compute in E. injection E as <- <-. split; vm_compute; reflexivity.
Qed.
Print Assumptions C48_destroy_refuted.
