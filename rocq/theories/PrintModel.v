(** What is printed of the live allocations: AllocationMap::print and printAll (src/umpire/util/AllocationMap.cpp:284-319),
    print_allocator_records (src/umpire/Umpire.cpp:36-48).

    Simplified: streams take whatever they are given; the text that UMPIRE_ENABLE_BACKTRACE adds to a record is an oracle
    (what it is: C76). *)
From Coq Require Import String Ascii HexString.
From Verif Require Import Base NamingModel MapModel.

Local Notation "a ^^ b" := (String.append a b) (at level 60, right associativity).
Definition endl : string := String (ascii_of_nat 10) EmptyString.

(** [operator<<] of libstdc++ for a pointer. *)
Definition out_ptr (p : Z) : string := if p =? 0 then "0"%string else HexString.of_N (Z.to_N p).

Section Print.
  Context (J : Judy (list arec)) (names : Z -> string) (backtrace : option (arec -> string)).

  (** 293-303. *)
  Definition out_record (r : arec) : string :=
    ("  size: " ^^ dec (r_size r) ^^ ", range: " ^^ out_ptr (r_ptr r) ^^ " -- " ^^ out_ptr (w64 (r_ptr r + r_size r)) ^^
     ", name: " ^^ names (r_name r) ^^ ", " ^^
     match backtrace with Some bt => "backtrace: " ^^ bt r | None => EmptyString end ^^ endl)%string.

  (** 292-305: the records that match, and whether there are any. *)
  Fixpoint out_list (pred : arec -> bool) (l : list arec) : string * bool :=
    match l with
    | [] => (EmptyString, false)
    | r :: l => let (t, any) := out_list pred l in if pred r then ((out_record r ^^ t)%string, true) else (t, any)
    end.

  (** 286-311, over the pairs of the map. *)
  Fixpoint out_pairs (pred : arec -> bool) (l : list (Z * option (list arec))) : outcome unit string :=
    match l with
    | [] => Ok tt EmptyString
    | (k, Some rs) :: l =>
        let (t, any) := out_list pred rs in
        let* (_, u) := out_pairs pred l in
        Ok tt (if any then (out_ptr k ^^ " {" ^^ endl ^^ t ^^ "}" ^^ endl ^^ u)%string else u)
    | (_, None) :: _ => UB
    end.

  (** 284-312.  The iterator of the loop lives at [addr]. *)
  Definition am_print (fuel : nat) (addr : Z) (pred : arec -> bool) (a : amap J) : outcome (amap J) string :=
    let '(m, it) := mi_begin J addr (am_map J a) in
    match mi_walk J fuel it m with
    | None => NoFuel
    | Some (m, l) => match out_pairs pred l with
                     | Ok _ t => Ok (mkAM J m (am_size J a)) t
                     | _ => UB
                     end
    end.

  (** 314-319; the first character is a magnifying glass. *)
  Definition magnifier : string :=
    String (ascii_of_nat 240) (String (ascii_of_nat 159) (String (ascii_of_nat 148) (String (ascii_of_nat 141) EmptyString))).
  Definition am_print_all (fuel : nat) (addr : Z) (a : amap J) : outcome (amap J) string :=
    let* (a, t) := am_print fuel addr (fun _ => true) a in
    Ok a (magnifier ^^ " Printing allocation map contents..." ^^ endl ^^ t ^^ "done." ^^ endl)%string.

  (** Umpire.cpp:36-48, for strategy [s] of the name [name]. *)
  Definition print_records (fuel : nat) (addr : Z) (name : string) (s : Z) (a : amap J) : outcome (amap J) string :=
    let* (a, t) := am_print fuel addr (fun r => r_strat r =? s) a in
    Ok a (if String.eqb t EmptyString then EmptyString
          else ("Allocations for " ^^ name ^^ " allocator:" ^^ endl ^^ t ^^ endl)%string).
End Print.
