(** C66, C67: the C and Fortran interface. *)
From Coq Require Import String Ascii.
From Verif Require Import Base BaseFacts CfModel CfSpec CfFacts.

(** ** C66 *)

(** A program that uses and deletes only handles it has not deleted does exactly what the C++ program does: same results,
    same state of the library; undefined only where the C++ program is.  Every object made is one of a handle not yet
    deleted.  Missing: the two copies (refuted below); exceptions end the program where its frames cannot be unwound. *)
Theorem C66_same_as_cpp_partial : forall W (api : xcall -> W -> outcome W xres) place unwinds fortran p w,
  good_api api -> Forall (good_stmt fortran) p -> careful p ->
  match x_run api p (x_start w) with
  | Ok x rs =>
      exists c, c_run api place unwinds fortran p (c_start w) = Ok c rs /\ c_w c = x_w x /\
                length (c_objs c) = length (own_live (own_after p own_start)) /\ c_strs c = []
  | Throw x e =>
      if unwinds then exists c, c_run api place unwinds fortran p (c_start w) = Throw c e /\ c_w c = x_w x
      else c_run api place unwinds fortran p (c_start w) = Abort
  | UB => c_run api place unwinds fortran p (c_start w) = UB
  | Abort => c_run api place unwinds fortran p (c_start w) = Abort
  | NoFuel => c_run api place unwinds fortran p (c_start w) = NoFuel
  end.
Proof. intros W api place unwinds fortran p w. exact (same_as_cpp api place unwinds fortran p w). Qed.
Print Assumptions C66_same_as_cpp_partial.

(** If it has deleted all its handles, nothing made by the interface is left. *)
Theorem C66_no_leak : forall W (api : xcall -> W -> outcome W xres) place unwinds fortran p w c rs,
  good_api api -> Forall (good_stmt fortran) p -> careful p -> own_live (own_after p own_start) = [] ->
  c_run api place unwinds fortran p (c_start w) = Ok c rs -> c_objs c = [] /\ c_strs c = [].
Proof. intros W. exact (@no_leak W). Qed.
Print Assumptions C66_no_leak.

(** Live handles are equal in Fortran iff they come from one call. *)
Theorem C66_equal : forall W (api : xcall -> W -> outcome W xres) place unwinds fortran p w c rs v v',
  good_api api -> Forall (good_stmt fortran) p -> careful p ->
  c_run api place unwinds fortran p (c_start w) = Ok c rs ->
  holds (own_after p own_start) v -> holds (own_after p own_start) v' ->
  (f_eq v v' c = true <-> own_vars (own_after p own_start) v = own_vars (own_after p own_start) v').
Proof. intros W api place unwinds fortran p w c rs v v'. exact (eq_tokens api place unwinds fortran p w c rs v v'). Qed.
Print Assumptions C66_equal.

(** Names: those of the language arrive as they are, and no others can be said. *)
Theorem C66_names : forall fortran s,
  good_name fortran (name_in fortran s) /\ (good_name fortran s -> name_in fortran s = s) /\
  (no_nul s -> name_out fortran s = s).
Proof. intros f s. exact (conj (name_in_is_good f s) (conj (name_in_good f s) (name_out_good f s))). Qed.
Print Assumptions C66_names.

(** The generated destructor of capsules does to a handle what umpire_allocator_delete does, whatever the program, and
    leaves a capsule for which it does nothing. *)
Theorem C66_destructor : forall W (api : xcall -> W -> outcome W xres) place unwinds fortran p w c rs v,
  c_run api place unwinds fortran p (c_start w) = Ok c rs ->
  match c_delete v c with
  | Ok c' _ =>
      exists c'', destructor (c_vars c v) c = Ok c'' (mkCap 0 0) /\ c_w c'' = c_w c' /\ c_objs c'' = c_objs c' /\
        c_strs c'' = c_strs c' /\ destructor (mkCap 0 0) c'' = Ok c'' (mkCap 0 0)
  | _ => destructor (c_vars c v) c = UB
  end.
Proof. intros W. exact (@destructor_deletes W). Qed.
Print Assumptions C66_destructor.

Example C66_destructor_case :
  match c_run toy (fun _ _ => 4096) false false
          [SGet 0 (ByName "HOST"); SGet 1 (ByName "POOL"); SAssign 2 0] (c_start (7, 9)) with
  | Ok c _ =>
      match destructor (c_vars c 0) c with
      | Ok c' x => length (c_objs c) = 2%nat /\ length (c_objs c') = 1%nat /\ x = mkCap 0 0 /\
        destructor (c_vars c 2) c' = UB /\ destructor x c' = Ok c' x
      | _ => False
      end
  | _ => False
  end.
Proof. vm_compute. repeat split; reflexivity. Qed.

(** Two handles of one allocator, one made from it; a copy is used; all deleted, one of them by its copy. *)
Definition cf_program : list stmt :=
  [SGet 0 (ByName "HOST"); SMake 1 (MkQuickPool 512 256) "quick" 0; SAssign 2 1; SAct 2 (Allocate 64); SAct 0 Name;
   SPlain (Backtrace 4096); SAct 1 (Deallocate 4096); SDelete 2; SDelete 0; SDelete 0].
Example C66_case :
  good_api toy /\ careful cf_program /\ Forall (good_stmt true) cf_program /\ Forall (good_stmt false) cf_program /\
  own_live (own_after cf_program own_start) = [] /\
  (match c_run toy (fun _ _ => 4096) false true cf_program (c_start (7, 9)) with
   | Ok c rs => rs = [RUnit; RUnit; RUnit; RNum 4096; RStr "HOST"; RStr "[none]"; RUnit; RUnit; RUnit; RUnit] /\ c_news c = 3%nat
   | _ => False
   end) /\
  (match c_run toy (fun _ _ => 4096) false true (firstn 4 cf_program) (c_start (7, 9)) with
   | Ok c rs => f_eq 1 2 c = true /\ f_eq 0 1 c = false
   | _ => False
   end).
Proof.
  split; [exact toy_good|]. split.
  { intros a s b. apply careful_from_ok. cbn. unfold holds. cbn.
    repeat split; try (eexists; split; [reflexivity|cbn; tauto]); try (right; eexists; split; [reflexivity|cbn; tauto]).
    left; reflexivity. }
  split.
  { repeat constructor; cbn; unfold size_t; try lia; apply trimmed_ok; reflexivity. }
  split.
  { repeat constructor; cbn; unfold size_t; try lia; apply nul_free_ok; reflexivity. }
  vm_compute. auto.
Qed.

(** "copy_all(src, dst) copies from src to dst" is false: it copies from dst to src. *)
Theorem C66_copy_refuted :
  good_api toy /\
  match c_run toy (fun _ _ => 4096) false false [SPlain (CopyAll 1 2)] (c_start (7, 9)),
        c_run toy (fun _ _ => 4096) false false [SPlain (CopySize 1 2 8)] (c_start (7, 9)),
        x_run toy [SPlain (CopyAll 1 2)] (x_start (7, 9)) with
  | Ok c _, Ok c' _, Ok x _ => c_w c = (9, 9) /\ c_w c' = (9, 9) /\ x_w x = (7, 7)
  | _, _, _ => False
  end.
Proof. split; [exact toy_good|]. vm_compute. auto. Qed.
Print Assumptions C66_copy_refuted.

(** "Errors are reported" is false: an exception of the library ends a program whose frames cannot be unwound; if they
    can, the object made for the answer is lost: no variable has changed. *)
Theorem C66_throw_refuted : forall W (api : xcall -> W -> outcome W xres) place v q c w e,
  api q (c_w c) = Throw w e ->
  c_obtain api place false v q c = Abort /\
  exists c', c_obtain api place true v q c = Throw c' e /\ length (c_objs c') = S (length (c_objs c)) /\ c_vars c' = c_vars c.
Proof.
  intros W api place v q c w e H. destruct (obtain_throw api place v q c w e H) as [H1 H2].
  exact (conj H2 (ex_intro _ _ (conj H1 (conj eq_refl eq_refl)))).
Qed.
Print Assumptions C66_throw_refuted.
Example C66_throw_case : toy (XByName "NONE") (c_w (c_start (7, 9))) = Throw (7, 9) RuntimeError.
Proof. reflexivity. Qed.

(** "Deleting or using a copy of a deleted handle is harmless" is false: undefined, or, the address being used again,
    it is another allocator. *)
Theorem C66_copies_refuted :
  c_run toy (fun _ _ => 4096) false false
    [SGet 0 (ByName "HOST"); SAssign 1 0; SDelete 0; SDelete 1] (c_start (7, 9)) = UB /\
  match c_run toy (fun _ _ => 4096) false false
          [SGet 0 (ByName "HOST"); SAssign 1 0; SAct 1 Name; SDelete 0; SGet 2 (ByName "POOL"); SAct 1 Name] (c_start (7, 9)) with
  | Ok _ rs => rs = [RUnit; RUnit; RStr "HOST"; RUnit; RUnit; RStr "POOL"]
  | _ => False
  end.
Proof. vm_compute. auto. Qed.
Print Assumptions C66_copies_refuted.

(** "A handle given a new value frees the old" is false. *)
Theorem C66_overwrite_refuted :
  match c_run toy (fun _ _ => 4096) false true
          [SGet 0 (ByName "HOST"); SGet 0 (ByName "POOL"); SDelete 0] (c_start (7, 9)) with
  | Ok c _ => length (c_objs c) = 1%nat /\ forall v, cp_addr (c_vars c v) = 0
  | _ => False
  end.
Proof. vm_compute. split; [reflexivity|]. intros [|v]; reflexivity. Qed.
Print Assumptions C66_overwrite_refuted.

(** "Equal means the same allocator" is false of [==] in Fortran: two handles of one allocator differ, and a deleted one
    differs from itself. *)
Theorem C66_equal_refuted :
  match c_run toy (fun _ _ => 4096) false true
          [SGet 0 (ByName "HOST"); SGet 1 (ByName "HOST"); SAct 0 Id; SAct 1 Id; SAct 0 Name; SAct 1 Name] (c_start (7, 9)) with
  | Ok c rs => rs = [RUnit; RUnit; RNum 0; RNum 0; RStr "HOST"; RStr "HOST"] /\ f_eq 0 1 c = false /\
               match c_run toy (fun _ _ => 4096) false true [SDelete 0] c with
               | Ok c' _ => f_eq 0 0 c' = false
               | _ => False
               end
  | _ => False
  end.
Proof. vm_compute. auto. Qed.
Print Assumptions C66_equal_refuted.

(** "Every allocator can be found by its name" is false in Fortran of names that end in blanks, and in C of names with a
    NUL. *)
Theorem C66_names_refuted :
  (forall s, name_in true s <> "pool "%string) /\ name_in true "pool " = "pool"%string /\
  (forall s, name_in false s <> String "a" (String zero "b")).
Proof.
  split; [intros s H; exact (f_trim_no_end_blank s "pool"%string H)|]. split; [reflexivity|].
  intros s H; exact (c_str_no_nul s "a"%string "b"%string H).
Qed.
Print Assumptions C66_names_refuted.

(** ** C67 *)

(** As long as the size in bytes is less than 2^64, an array asks for the bytes of its elements; they lie in the memory
    asked for. *)
Theorem C67_inside : forall W (api : xcall -> W -> outcome W xres) unwinds v elt rank dims c c' a,
  0 < elt -> Forall (fun d => 0 <= d) dims -> elt * volume dims < 2 ^ 64 ->
  f_allocate_array api unwinds true v elt rank dims c = Ok c' a ->
  exists s n, at_addr (cp_addr (c_vars c v)) c = Some s /\ api (XAllocate s n) (c_w c) = Ok (c_w c') (RNum (fa_base a)) /\
    n = elt * volume dims /\ fa_dims a = dims /\ length dims = rank /\
    forall idx b, in_extents (fa_dims a) idx -> elem_byte a elt idx b -> fa_base a <= b < fa_base a + n.
Proof. intros W. exact (@array_inside W). Qed.
Print Assumptions C67_inside.

(** Different elements share no byte. *)
Theorem C67_apart : forall a elt idx idx' b, 0 < elt -> in_extents (fa_dims a) idx -> in_extents (fa_dims a) idx' ->
  elem_byte a elt idx b -> elem_byte a elt idx' b -> idx = idx'.
Proof. exact array_apart. Qed.
Print Assumptions C67_apart.

(** And every byte asked for is of an element: nothing is asked for in vain. *)
Theorem C67_filled : forall a elt b, 0 < elt -> Forall (fun d => 0 <= d) (fa_dims a) ->
  fa_base a <= b < fa_base a + elt * volume (fa_dims a) -> exists idx, in_extents (fa_dims a) idx /\ elem_byte a elt idx b.
Proof. exact array_filled. Qed.
Print Assumptions C67_filled.

(** [deallocate] of the array, through a handle of the same object, gives the library the pointer it had returned. *)
Theorem C67_round_trip : forall W (api : xcall -> W -> outcome W xres) unwinds v elt rank dims c c' a w r,
  f_allocate_array api unwinds true v elt rank dims c = Ok c' a ->
  forall s p, at_addr (cp_addr (c_vars c v)) c = Some s ->
  api (XAllocate s (f_bytes elt dims)) (c_w c) = Ok (c_w c') (RNum p) ->
  api (XDeallocate s p) (c_w c') = Ok w r -> f_deallocate_array api unwinds true v a c' = Ok (set_w w c') r.
Proof. intros W. exact (@array_round_trip W). Qed.
Print Assumptions C67_round_trip.

Example C67_case :
  match c_run toy (fun _ _ => 4096) false true [SGet 0 (ByName "HOST")] (c_start (7, 9)) with
  | Ok c _ => match f_allocate_array toy false true 0 8 3 [4; 5; 6] c with
              | Ok c' a => fa_base a = 4096 /\ fa_dims a = [4; 5; 6]
              | _ => False
              end
  | _ => False
  end /\
  f_bytes 8 [4; 5; 6] = 960 /\ in_extents [4; 5; 6] [2; 3; 4] /\ element [4; 5; 6] [2; 3; 4] = 69 /\
  elem_byte (mkFa 4096 [4; 5; 6]) 8 [2; 3; 4] 4648.
Proof. split; [vm_compute; auto|]. split; [reflexivity|]. split; [repeat constructor; lia|]. split; [reflexivity|]. unfold elem_byte. cbn. lia. Qed.

(** "The memory holds the array" is false when the size wraps: 65536^4 integers in no byte at all. *)
Theorem C67_wrap_refuted :
  f_bytes 4 [65536; 65536; 65536; 65536] = 0 /\ in_extents [65536; 65536; 65536; 65536] [1; 1; 1; 1].
Proof. split; [vm_compute; reflexivity|repeat constructor; lia]. Qed.
Print Assumptions C67_wrap_refuted.

(** "An array without elements asks for nothing" is false of negative extents, which Fortran takes for zero. *)
Theorem C67_negative_refuted :
  f_bytes 4 [-2; -3] = 24 /\ f_bytes 4 [-1] = 2 ^ 64 - 4 /\ forall i, ~ in_extents [-1] i.
Proof.
  split; [vm_compute; reflexivity|]. split; [vm_compute; reflexivity|].
  intros i H. inversion H as [|? ? ? ? H1]. lia.
Qed.
Print Assumptions C67_negative_refuted.

(** "Wrong extents are refused" is false: two extents for an array of rank one are undefined, the memory being
    allocated. *)
Theorem C67_rank_refuted :
  match c_run toy (fun _ _ => 4096) true true [SGet 0 (ByName "HOST")] (c_start (7, 9)) with
  | Ok c _ => f_allocate_array toy true true 0 4 1 [2; 3] c = UB
  | _ => False
  end.
Proof. vm_compute. reflexivity. Qed.
Print Assumptions C67_rank_refuted.
