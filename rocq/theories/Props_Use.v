(** C78: questions about memory in use, and what errors say. *)
From Coq Require Import String Ascii.
From Verif Require Import Base NamingModel CatalogModel UseModel UseSpec UseFacts.

Local Notation "a ^^ b" := (String.append a b) (at level 60, right associativity).

(** C78: whatever the two first numbers of /proc/self/statm, however they are spaced and whatever follows, the answer is the second times
    the page size (modulo 2^64). *)
Theorem C78_usage :
  forall a1 n1 a2 n2 s page, blank a1 -> 0 <= n1 < M64 -> blank a2 -> a2 <> EmptyString -> 0 <= n2 < M64 -> no_digit s ->
    process_usage (Some (a1 ^^ dec n1 ^^ a2 ^^ dec n2 ^^ s)%string) page = Ok tt (n2 * page mod 2 ^ 64).
Proof. exact usage_ok. Qed.
Print Assumptions C78_usage.

(** C78: numbers may carry a sign; a minus sign negates modulo 2^64, and a second number that does not fit counts as the largest that does. *)
Theorem C78_sign :
  forall a1 g1 n1 a2 g2 n2 s page, blank a1 -> sign_text g1 -> 0 <= n1 < 2 ^ 64 -> blank a2 -> a2 <> EmptyString -> sign_text g2 -> 0 <= n2 -> no_digit s ->
    exists v, field_value g2 n2 v /\ process_usage (Some (a1 ^^ g1 ^^ dec n1 ^^ a2 ^^ g2 ^^ dec n2 ^^ s)%string) page = Ok tt (v * page mod 2 ^ 64).
Proof. exact usage_any. Qed.
Print Assumptions C78_sign.

(** C78: if what stands in place of the second number is no number the answer is 0. *)
Theorem C78_second :
  forall a1 g1 n1 a2 w page, blank a1 -> sign_text g1 -> 0 <= n1 < 2 ^ 64 -> blank a2 -> a2 <> EmptyString -> no_number w ->
    process_usage (Some (a1 ^^ g1 ^^ dec n1 ^^ a2 ^^ w)%string) page = Ok tt 0.
Proof. exact usage_bad2. Qed.
Print Assumptions C78_second.

(** C78: the high water mark is the number after the first VmHWM: that begins a line of /proc/self/status, times 1024 (modulo 2^64). *)
Theorem C78_hwm :
  forall before a b n rest after, Forall one_line before -> (forall s, In s before -> ~ first_word "VmHWM:" s) ->
    blank a -> blank b -> b <> EmptyString -> 0 <= n < M64 -> no_digit rest -> one_line (a ^^ "VmHWM:" ^^ b ^^ dec n ^^ rest)%string ->
    process_hwm (Some (unlines before ^^ (a ^^ "VmHWM:" ^^ b ^^ dec n ^^ rest) ^^ newline ^^ after)%string) = Ok tt (n * 1024 mod 2 ^ 64).
Proof. exact hwm_ok. Qed.
Print Assumptions C78_hwm.

(** C78: it is 0 if there is no such line, or no such file. *)
Theorem C78_hwm_none :
  (forall l, Forall one_line l -> (forall s, In s l -> ~ first_word "VmHWM:" s) -> process_hwm (Some (unlines l)) = Ok tt 0) /\ process_hwm None = Ok tt 0.
Proof. split; [exact hwm_none|reflexivity]. Qed.
Print Assumptions C78_hwm_none.

(** C78: of a device that exists the answer is total less free memory, and the current device is afterwards what it was. *)
Theorem C78_device :
  forall id d d' used, v_exists d (v_cur d) = true -> v_exists d id = true -> 0 <= v_free d id <= v_total d id -> v_total d id < 2 ^ 64 ->
    device_usage id d = (d', used) -> used = v_total d id - v_free d id /\ v_cur d' = v_cur d.
Proof.
  intros id d d' used Hc Hi Hf Ht E. unfold device_usage, set_device in E. rewrite Hi in E. cbn [v_cur v_exists v_free v_total] in E. rewrite Hc in E.
  injection E as <- <-. cbn [v_cur]. split; [|reflexivity]. unfold w64, M64. rewrite Z.mod_small; lia.
Qed.
Print Assumptions C78_device.

(** C78: the error of an allocation that failed for want of memory carries its size and the allocator. *)
Theorem C78_error :
  forall id ask null bytes, bytes <> 0 -> match ask bytes with
    | Fails _ => do_allocate id ask null bytes = Fails (mkOom bytes id)
    | r => do_allocate id ask null bytes = r
    end.
Proof. intros id ask null bytes H. unfold do_allocate. destruct (Z.eqb_spec bytes 0); [contradiction|]. destruct (ask bytes); reflexivity. Qed.
Print Assumptions C78_error.

Example C78_usage_ex : process_usage (Some ("3017 512 480 12 0 99 0" ^^ newline)%string) 4096 = Ok tt 2097152.
Proof. reflexivity. Qed.
Definition tab : string := String (ascii_of_nat 9) EmptyString.
Example C78_hwm_ex :
  process_hwm (Some (unlines ["Name:   VmHWM:"; "VmPeak:     9000 kB"; "VmHWM:" ^^ tab ^^ "    2048 kB"; "VmHWM: 1 kB"]%string)) = Ok tt 2097152.
Proof. reflexivity. Qed.
Definition two : devices := mkDevices 0 (fun i => (0 <=? i) && (i <? 2)) (fun i => 1000 * (i + 1)) (fun i => 5000 * (i + 1)).
Example C78_device_ex : snd (device_usage 1 two) = 8000 /\ v_cur (fst (device_usage 1 two)) = 0.
Proof. split; reflexivity. Qed.

(** The claim "the question about memory in use has an answer" is false: a file that cannot be opened, or has fewer than two numbers,
    leaves the variable without a value, and it is read. *)
Theorem C78_unreadable_refuted :
  forall page, process_usage None page = UB /\
    forall t, t = EmptyString \/ blank t \/ (exists a n b, t = (a ^^ dec n ^^ b)%string /\ blank a /\ blank b /\ 0 <= n < M64) -> process_usage (Some t) page = UB.
Proof. intros page. split; [reflexivity|]. intros t. apply usage_short. Qed.
Print Assumptions C78_unreadable_refuted.

(** The same if the first number is none, or does not fit, whatever the second is. *)
Theorem C78_first_refuted :
  forall page,
  (forall a w, blank a -> no_number w -> process_usage (Some (a ^^ w)%string) page = UB) /\
  (forall a g n s, blank a -> sign_text g -> 2 ^ 64 <= n -> no_digit s -> process_usage (Some (a ^^ g ^^ dec n ^^ s)%string) page = UB).
Proof. exact usage_bad1. Qed.
Print Assumptions C78_first_refuted.

Example C78_sign_ex : process_usage (Some "+12 -1 7"%string) 4096 = Ok tt (2 ^ 64 - 4096) /\ process_usage (Some "12 18446744073709551616"%string) 2 = Ok tt (2 ^ 64 - 2).
Proof. split; reflexivity. Qed.
Example C78_second_ex : process_usage (Some "12 n/a"%string) 4096 = Ok tt 0 /\ process_usage (Some "12 - 3"%string) 4096 = Ok tt 0.
Proof. split; reflexivity. Qed.
Example C78_first_ex : process_usage (Some "n/a 12"%string) 4096 = UB /\ process_usage (Some "18446744073709551616 12"%string) 4096 = UB.
Proof. split; reflexivity. Qed.

(** The claim "a line without a number does no harm" is false. *)
Theorem C78_hwm_refuted : process_hwm (Some (unlines ["VmHWM:"]%string)) = UB.
Proof. reflexivity. Qed.
Print Assumptions C78_hwm_refuted.

(** The claim "the answer is about the device asked for" is false of a device that does not exist: it is the use of the current one. *)
Theorem C78_device_refuted : exists d id, v_exists d id = false /\ v_exists d (v_cur d) = true /\ snd (device_usage id d) = v_total d (v_cur d) - v_free d (v_cur d) /\ snd (device_usage id d) <> 0.
Proof. exists two, 7. repeat split; vm_compute; discriminate. Qed.
Print Assumptions C78_device_refuted.

(** The claim "an allocator that is not one of shared memory is an error" is false where there is shared memory; and a name that is not in use
    is no error there. *)
Theorem C78_name_refuted :
  (forall find name, find_pointer true false find name = UB) /\ (forall find name, find name = 0 -> find_pointer true true find name = Ok tt 0).
Proof. split; [reflexivity|]. intros find name E. unfold find_pointer. now rewrite E. Qed.
Print Assumptions C78_name_refuted.

(** The claim "the error of a named allocation that failed carries its size and the allocator" is false: it says 0 bytes and allocator -1. *)
Theorem C78_named_refuted :
  forall id ask null bytes, bytes <> 0 -> ask bytes = Fails fresh_oom -> do_named_allocate id ask null bytes = Fails (mkOom 0 (-1)).
Proof. intros id ask null bytes H E. unfold do_named_allocate. destruct (Z.eqb_spec bytes 0); [contradiction|]. exact E. Qed.
Print Assumptions C78_named_refuted.

(** The claim "the error about a pointer not known gives the pointer" is false: nobody puts it there. *)
Theorem C78_pointer_refuted : forall ptr, get_pointer (raise_unknown ptr) = UB.
Proof. reflexivity. Qed.
Print Assumptions C78_pointer_refuted.
