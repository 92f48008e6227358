(** C76: backtraces and the text of errors. *)
From Coq Require Import String Ascii.
From Verif Require Import Base NamingModel BtModel BtSpec BtFacts.

Local Notation "a ^^ b" := (String.append a b) (at level 60, right associativity).

(** C76: a translation unit records and prints backtraces exactly if UMPIRE_BACKTRACE held "on" somewhere, in upper or lower case,
    when the unit first looked; what becomes of the variable later does not matter. *)
Theorem C76_switch :
  forall l i j u env env', nth_error l i = Some (u, env) -> (forall k e, (k < i)%nat -> nth_error l k = Some (u, e) -> False) ->
    (i <= j)%nat -> nth_error l j = Some (u, env') -> exists b, nth_error (asks l fempty) j = Some b /\ (b = true <-> on env).
Proof. exact asks_first. Qed.
Print Assumptions C76_switch.

(** C76: the backtrace of an allocation: nothing if it is switched off, or else the innermost 128 return addresses. *)
Theorem C76_recorded :
  forall u env stack L L' frames, L u = None -> get_backtrace u env stack L = (L', frames) ->
    (on env -> frames = firstn 128 stack /\ L' u = Some true) /\ (~ on env -> frames = [] /\ L' u = Some false).
Proof.
  intros u env stack L L' frames E G. unfold get_backtrace in G. pose proof (enabled_first u env L E) as Q. pose proof (enabled_latched u env L) as Q'.
  destruct (backtrace_enabled u env L) as [L1 b]. cbn in Q, Q'. injection G as <- <-. destruct b; split; intros H; auto; intuition discriminate.
Qed.
Print Assumptions C76_recorded.

(** C76: without symbols, a backtrace prints as the number of frames and a line for each with its number, address and text. *)
Theorem C76_plain :
  forall dladdr demangle frames symbols, frames <> [] -> length symbols = length frames ->
    stringify false dladdr demangle frames (Some symbols) = Ok tt (sheet (map (fun q => (fst q, text_of false dladdr demangle (fst q) (snd q))) (combine frames symbols))).
Proof. intros dladdr demangle frames symbols Hf Hl. apply stringify_ok; auto. discriminate. Qed.
Print Assumptions C76_plain.

(** C76: with symbols this holds of at most ten frames whose offsets are less than 2^32.  (Without, it is false: [C76_numbers_refuted],
    [C76_offset_refuted].) *)
Theorem C76_symbols_partial :
  forall dladdr demangle frames symbols, frames <> [] -> (length frames <= 10)%nat -> length symbols = length frames ->
    (forall p name addr, In p frames -> dladdr p = Some (name, addr) -> 0 <= p - addr < M32) ->
    stringify true dladdr demangle frames (Some symbols) = Ok tt (sheet (map (fun q => (fst q, text_of true dladdr demangle (fst q) (snd q))) (combine frames symbols))).
Proof. intros dladdr demangle frames symbols Hf H10 Hl Hn. apply stringify_ok; auto. intros _ p Hp name addr. now apply Hn. Qed.
Print Assumptions C76_symbols_partial.

(** C76: the text of an error gives file, line, message and, without symbols, the backtrace. *)
Theorem C76_what :
  forall dladdr demangle msg file line stack symbols, stack <> [] -> length symbols = Nat.min 128 (length stack) ->
    what false dladdr demangle msg file line stack (Some symbols) =
      Ok tt ("! Umpire runtime_error [" ^^ file ^^ ":" ^^ dec line ^^ "]: " ^^ msg ^^ nl ^^
             sheet (map (fun q => (fst q, text_of false dladdr demangle (fst q) (snd q))) (combine (firstn 128 stack) symbols)) ^^ nl)%string.
Proof. intros dladdr demangle msg file line stack symbols Hs Hl. apply what_ok; auto. discriminate. Qed.
Print Assumptions C76_what.

(** Two units, one of which looks before the variable is set and one after. *)
Example C76_switch_ex :
  asks [(1, None); (2, Some "On"); (1, Some "On"); (2, None); (3, Some "off"); (3, Some "on")]%string fempty = [false; true; false; true; false; false].
Proof. reflexivity. Qed.

Definition libc : Z -> option (string * Z) := fun p => if p =? 4660 then Some ("_Zf"%string, 4096) else None.
Definition dem : string -> option string := fun s => if String.eqb s "_Zf" then Some "f()"%string else None.
Example C76_symbols_ex :
  stringify true libc dem [4660; 15] (Some ["x"; "y"]%string) =
    Ok tt ("    Backtrace: 2 frames" ^^ nl ^^ "    0 0x1234 f()+0x234" ^^ nl ^^ "    1 0xf No dladdr: y" ^^ nl)%string.
Proof. reflexivity. Qed.

Example C76_what_ex :
  what false libc dem "boo" "a.cpp" 12 [4660] (Some ["x"]%string) =
    Ok tt ("! Umpire runtime_error [a.cpp:12]: boo" ^^ nl ^^ "    Backtrace: 1 frames" ^^ nl ^^ "    0 0x1234 No dladdr: x" ^^ nl ^^ nl)%string.
Proof. reflexivity. Qed.

(** The claim "backtraces are recorded only if the variable is set to on" is false: "none" holds "on". *)
Theorem C76_none_refuted : exists L, snd (backtrace_enabled 1 (Some "none"%string) L) = true /\ L 1 = None.
Proof. exists fempty. split; reflexivity. Qed.
Print Assumptions C76_none_refuted.

(** The claim "frames are numbered in decimal" is false: after the first offset, printed in hexadecimal, so are the numbers: frame 10
    is called a, and frame 16 is called 10. *)
Theorem C76_numbers_refuted :
  exists frames symbols t, length frames = 17%nat /\ length symbols = 17%nat /\ (forall p, In p frames -> near libc p) /\
    stringify true libc dem frames (Some symbols) = Ok tt t /\
    t <> sheet (map (fun q => (fst q, text_of true libc dem (fst q) (snd q))) (combine frames symbols)) /\
    (exists a b, t = (a ^^ "    a 0x1 No dladdr: y" ^^ b)%string) /\ exists a, t = (a ^^ "    10 0x1 No dladdr: y" ^^ nl)%string.
Proof.
  exists (4660 :: repeat 1 16), (repeat "y"%string 17). eexists. split; [reflexivity|]. split; [reflexivity|].
  split.
  { intros p Hp name addr. unfold libc. destruct (Z.eqb_spec p 4660) as [->|]; [|discriminate]. intros [= <- <-]. vm_compute. split; [discriminate|reflexivity]. }
  split; [vm_compute; reflexivity|]. split; [vm_compute; discriminate|]. split.
  - exists (String.substring 0 255 (match stringify true libc dem (4660 :: repeat 1 16) (Some (repeat "y"%string 17)) with Ok _ t => t | _ => EmptyString end)).
    exists (String.substring 277 1000 (match stringify true libc dem (4660 :: repeat 1 16) (Some (repeat "y"%string 17)) with Ok _ t => t | _ => EmptyString end)).
    vm_compute. reflexivity.
  - exists (String.substring 0 393 (match stringify true libc dem (4660 :: repeat 1 16) (Some (repeat "y"%string 17)) with Ok _ t => t | _ => EmptyString end)).
    vm_compute. reflexivity.
Qed.
Print Assumptions C76_numbers_refuted.

(** The claim "the offset into the function is shown" is false: it is cut to 32 bits. *)
Theorem C76_offset_refuted :
  exists dladdr p, dladdr p = Some ("f"%string, 4096) /\ p - 4096 = 2 ^ 32 + 5 /\
    stringify true dladdr dem [p] (Some ["x"]%string) = Ok tt ("    Backtrace: 1 frames" ^^ nl ^^ "    0 0x100001005 f+0x5" ^^ nl)%string.
Proof. exists (fun _ => Some ("f"%string, 4096)), (2 ^ 32 + 4096 + 5). repeat split; reflexivity. Qed.
Print Assumptions C76_offset_refuted.

(** The claim "an error can always be reported" is false: [backtrace_symbols] gives null when memory has run out, and null is read;
    so it is for every error then. *)
Theorem C76_nomem_refuted :
  forall dladdr demangle msg file line stack, what false dladdr demangle msg file line stack None = UB.
Proof.
  intros. unfold what, stringify. destruct (build_backtrace stack) as [|p l] eqn:E; [reflexivity|]. rewrite lines_null; [reflexivity|].
  exists p. split; [now left|now left].
Qed.
Print Assumptions C76_nomem_refuted.

(** The claim "what was recorded can be printed" is false: unit 1 records while the variable is not set, unit 2 prints after it was. *)
Theorem C76_units_refuted :
  exists L L' frames, get_backtrace 1 None [4660] fempty = (L, frames) /\ print false libc dem 2 (Some "On"%string) frames (Some []) L = (L', UB).
Proof. do 3 eexists. split; reflexivity. Qed.
Print Assumptions C76_units_refuted.
