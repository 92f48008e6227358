(** Backtraces and the text of errors: src/umpire/util/backtrace.inl, src/umpire/util/error.hpp. *)
From Coq Require Import String Ascii HexString.
From Verif Require Import Base NamingModel.

Local Notation "a ^^ b" := (String.append a b) (at level 60, right associativity).
Definition nl : string := String (Ascii.ascii_of_nat 10) EmptyString.

(** 47: [toupper] in the "C" locale. *)
Definition upper (c : ascii) : ascii :=
  let n := Ascii.nat_of_ascii c in if Nat.leb 97 n && Nat.leb n 122 then Ascii.ascii_of_nat (n - 32) else c.
Fixpoint uppers (s : string) : string := match s with EmptyString => EmptyString | String c s => String (upper c) (uppers s) end.

(** 37-57.  The function is in an unnamed namespace of a header: each translation unit [u] has its own static variables, of which
    [L u] is [Some] when [initialized].  [env]: the value of UMPIRE_BACKTRACE at the time of the call. *)
Definition latch : Type := fmap bool.
Definition backtrace_enabled (u : Z) (env : option string) (L : latch) : latch * bool :=
  match L u with
  | Some b => (L, b)
  | None =>
      let b := match env with
               | None => false
               | Some e => match String.index 0 "ON" (uppers e) with Some _ => true | None => false end
               end in
      (fset L u b, b)
  end.

(** 59-70.  [stack]: the return addresses, innermost first; [backtrace] stores at most 128 of them. *)
Definition build_backtrace (stack : list Z) : list Z := firstn 128 stack.

(** Output of numbers: an [int] in decimal or hexadecimal, a pointer (as libstdc++ prints it). *)
Definition hex (z : Z) : string := match z with Zpos p => HexString.Raw.of_pos p EmptyString | _ => "0"%string end.
Definition int_text (hexed : bool) (i : Z) : string := if hexed then hex (w32 i) else dec i.
Definition ptr_text (p : Z) : string := if p =? 0 then "0"%string else ("0x" ^^ hex p)%string.

Section Stringify.
  (** UMPIRE_ENABLE_BACKTRACE_SYMBOLS; [dladdr] with a name: the name and the address of the symbol; [__cxa_demangle] when it succeeds. *)
  Context (with_symbols : bool) (dladdr : Z -> option (string * Z)) (demangle : string -> option string).

  (** 89-95. *)
  Definition shown (name : string) : string :=
    match name with
    | String "_" _ => match demangle name with Some d => d | None => name end
    | _ => name
    end.

  (** 82-107.  [std::hex] stays set for what follows.  [symbols]: the array, [None] for null; reading beyond it is undefined. *)
  Fixpoint lines (frames : list Z) (i : nat) (hexed : bool) (symbols : option (list string)) : outcome unit string :=
    match frames with
    | [] => Ok tt EmptyString
    | it :: rest =>
        let head := ("    " ^^ int_text hexed (Z.of_nat i) ^^ " " ^^ ptr_text it ^^ " ")%string in
        match (if with_symbols then dladdr it else None) with
        | Some (name, addr) =>
            let* (_, t) := lines rest (S i) true symbols in
            Ok tt (head ^^ shown name ^^ "+0x" ^^ hex (w32 (it - addr)) ^^ nl ^^ t)%string
        | None =>
            match symbols with
            | Some l => match nth_error l i with
                        | Some s => let* (_, t) := lines rest (S i) hexed symbols in Ok tt (head ^^ "No dladdr: " ^^ s ^^ nl ^^ t)%string
                        | None => UB
                        end
            | None => UB
            end
        end
    end.

  (** 72-114.  [&frames[0]] of an empty vector is undefined. *)
  Definition stringify (frames : list Z) (symbols : option (list string)) : outcome unit string :=
    match frames with
    | [] => UB
    | _ => let* (_, t) := lines frames 0 false symbols in
           Ok tt ("    Backtrace: " ^^ dec (Z.of_nat (List.length frames)) ^^ " frames" ^^ nl ^^ t)%string
    end.

  (** 119-132: what is stored with an allocation made with the stack [stack], and what is printed for it. *)
  Definition get_backtrace (u : Z) (env : option string) (stack : list Z) (L : latch) : latch * list Z :=
    let (L, b) := backtrace_enabled u env L in (L, if b then build_backtrace stack else []).
  Definition print (u : Z) (env : option string) (frames : list Z) (symbols : option (list string)) (L : latch) : latch * outcome unit string :=
    let (L, b) := backtrace_enabled u env L in (L, if b then stringify frames symbols else Ok tt "[UMPIRE_BACKTRACE=Off]"%string).

  (** error.hpp:22-39 and 137-146 of backtrace.inl. *)
  Definition what (msg file : string) (line : Z) (stack : list Z) (symbols : option (list string)) : outcome unit string :=
    let* (_, t) := stringify (build_backtrace stack) symbols in
    Ok tt ("! Umpire runtime_error [" ^^ file ^^ ":" ^^ dec line ^^ "]: " ^^ msg ^^ nl ^^ t ^^ nl)%string.
End Stringify.
