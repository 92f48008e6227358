(** The script that draws a listing of allocations: tools/analysis/plot_allocations (86 lines of Python); and how
    tools/analysis/plot_allocator_traces begins.

    The text of a file is a list of characters.  Simplified: characters beyond ASCII are neither spaces nor digits nor letters,
    and are always decoded; quotients of differences of addresses are exact (they are below 2^53); colours and transparency
    are left out; errors of Python (ValueError, IndexError) are [RuntimeError]. *)
From Coq Require Import String Ascii.
From Verif Require JsonModel.
From Verif Require Import Base.

(** ** The pattern (6) *)

Definition code (c : ascii) : Z := Z.of_nat (nat_of_ascii c).
Definition is_space (c : ascii) : bool := (9 <=? code c) && (code c <=? 13) || (28 <=? code c) && (code c <=? 32).
Definition is_digit (c : ascii) : bool := (48 <=? code c) && (code c <=? 57).
Definition is_word (c : ascii) : bool :=
  is_digit c || (65 <=? code c) && (code c <=? 90) || (97 <=? code c) && (code c <=? 122) || (code c =? 95).

(** The longest beginning of characters with [p], and the rest. *)
Fixpoint span (p : ascii -> bool) (s : string) : string * string :=
  match s with
  | EmptyString => (EmptyString, EmptyString)
  | String c t => if p c then let (a, r) := span p t in (String c a, r) else (EmptyString, s)
  end.
(** [x+] *)
Definition many1 (p : ascii -> bool) (s : string) : option (string * string) :=
  match span p s with (EmptyString, _) => None | (a, r) => Some (a, r) end.
(** What follows [t]. *)
Fixpoint strip (t s : string) : option string :=
  match t, s with
  | EmptyString, _ => Some s
  | String c t, String d s => if Ascii.eqb c d then strip t s else None
  | _, _ => None
  end.

Local Notation "'do' x <- o ; k" := (match o with Some x => k | None => None end) (at level 200, x pattern, right associativity).

(** [\s*size:\s(?P<bytes>\d+),\s+range:\s+(?P<start>\w+)\s+--\s+(?P<end>\w+),.+] at the start of a line; the texts of [start]
    and [end]. *)
Definition match_line (l : string) : option (string * string) :=
  do s <- strip "size:" (snd (span is_space l));
  do s <- match s with String c s => if is_space c then Some s else None | EmptyString => None end;
  do (_, s) <- many1 is_digit s;
  do s <- strip "," s;
  do (_, s) <- many1 is_space s;
  do s <- strip "range:" s;
  do (_, s) <- many1 is_space s;
  do (a, s) <- many1 is_word s;
  do (_, s) <- many1 is_space s;
  do s <- strip "--" s;
  do (_, s) <- many1 is_space s;
  do (b, s) <- many1 is_word s;
  do s <- strip "," s;
  match s with EmptyString => None | _ => Some (a, b) end.

(** ** int(x, 16) of Python, for letters, digits and underscores *)

Definition hex_value (c : ascii) : option Z :=
  if is_digit c then Some (code c - 48)
  else if (97 <=? code c) && (code c <=? 102) then Some (code c - 87)
  else if (65 <=? code c) && (code c <=? 70) then Some (code c - 55)
  else None.
(** [after]: a digit has just been read; underscores stand between digits. *)
Fixpoint hex_digits (s : string) (n : Z) (after : bool) : option Z :=
  match s with
  | EmptyString => if after then Some n else None
  | String c t =>
      if Ascii.eqb c "_" then if after then hex_digits t n false else None
      else match hex_value c with Some v => hex_digits t (16 * n + v) true | None => None end
  end.
Definition int16 (s : string) : option Z :=
  match s with
  | String z (String x t) =>
      if Ascii.eqb z "0" && (Ascii.eqb x "x" || Ascii.eqb x "X") then
        match t with
        | String u t' => if Ascii.eqb u "_" then hex_digits t' 0 false else hex_digits t 0 false
        | EmptyString => None
        end
      else hex_digits s 0 false
  | _ => hex_digits s 0 false
  end.

(** ** The script *)

(** The lines of a file in text mode.  (Python takes a carriage return and a line feed for one end of a line; here an empty
    line is between them, which nothing is made of.) *)
Definition is_break (c : ascii) : bool := (code c =? 10) || (code c =? 13).
Fixpoint lines (s : string) : list string :=
  match s with
  | EmptyString => [EmptyString]
  | String c t =>
      if is_break c then EmptyString :: lines t
      else match lines t with l :: ls => String c l :: ls | [] => [String c EmptyString] end
  end.

(** 8-11. *)
Fixpoint import_lines (ls : list string) : outcome unit (list (Z * Z)) :=
  match ls with
  | [] => Ok tt []
  | l :: ls =>
      match match_line l with
      | None => import_lines ls
      | Some (a, b) =>
          match int16 a, int16 b with
          | Some x, Some y => let* (_, t) := import_lines ls in Ok tt ((x, y) :: t)
          | _, _ => Throw tt RuntimeError
          end
      end
  end.
Definition import_from_file (text : string) : outcome unit (list (Z * Z)) := import_lines (lines text).

(** 13-20: [last] is [smaller[-1]]. *)
Fixpoint coalesce_from (last : Z * Z) (l : list (Z * Z)) : list (Z * Z) :=
  match l with
  | [] => [last]
  | s :: l => if fst s =? snd last + 1 then coalesce_from (fst last, snd s) l else last :: coalesce_from s l
  end.
Definition coalesce_records (l : list (Z * Z)) : outcome unit (list (Z * Z)) :=
  match l with [] => Throw tt RuntimeError | s :: l => Ok tt (coalesce_from s l) end.

(** 22-33: the first scale that makes the numbers small enough; [scales[expo]] throws when there is none. *)
Fixpoint find_scale (scales : list string) (denom extent : Z) : outcome unit (Z * string) :=
  match scales with
  | [] => Throw tt RuntimeError
  | s :: scales => if extent <=? 10000 * denom then Ok tt (denom, s) else find_scale scales (denom * 1024) extent
  end.

(** What is drawn: the rectangles of each file, the number the places are divided by, and the unit of the axis. *)
Record picture : Type := mkPicture { pic_rects : list (list (Z * Z)); pic_denom : Z; pic_unit : string }.

Definition first_start (l : list (Z * Z)) : Z := match l with [] => 0 | s :: _ => fst s end.
Definition last_end (l : list (Z * Z)) : Z := snd (List.last l (0, 0)).
Definition least (l : list Z) : Z := match l with [] => 0 | x :: l => fold_left Z.min l x end.
Definition greatest (l : list Z) : Z := match l with [] => 0 | x :: l => fold_left Z.max l x end.

(** 35-59. *)
Definition plot_ranges (sets : list (list (Z * Z))) : outcome unit picture :=
  let* (_, r) := find_scale ["Bytes"; "kB"; "MB"; "GB"]%string 1
                   (greatest (List.map last_end sets) - least (List.map first_start sets)) in
  Ok tt (mkPicture sets (fst r) (snd r)).

(** 69-75, for one file. *)
Definition ranges_of (text : string) : outcome unit (list (Z * Z)) :=
  let* (_, allocs) := import_from_file text in
  match allocs with
  | [] => Throw tt RuntimeError
  | a :: _ => coalesce_records (List.map (fun x => (fst x - fst a, snd x - fst a)) allocs)
  end.
Fixpoint ranges_of_all (files : list string) : outcome unit (list (list (Z * Z))) :=
  match files with
  | [] => Ok tt []
  | f :: files => let* (_, r) := ranges_of f in let* (_, rs) := ranges_of_all files in Ok tt (r :: rs)
  end.

(** 61-86. *)
Definition plot_allocations (files : list string) : outcome unit picture :=
  let* (_, sets) := ranges_of_all files in
  match sets with [] => Throw tt RuntimeError | _ => plot_ranges sets end.

(** ** tools/analysis/plot_allocator_traces

    Lines 6-12 and 64-68: the first thing looked for in a line of a log is its [event].  Simplified: what comes then is left
    out. *)
Definition traces_begin (data : list JsonModel.json) : outcome unit unit :=
  match data with
  | [] => Ok tt tt
  | JsonModel.JObj m :: _ => match JsonModel.mfind (JsonModel.bs "event") m with Some _ => Ok tt tt | None => Throw tt RuntimeError end
  | _ :: _ => Throw tt RuntimeError
  end.
