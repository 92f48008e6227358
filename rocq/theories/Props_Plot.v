(** Property C84: the scripts that draw allocations.  [harmless], [paints], [in_use], [lone_gap]: PlotSpec.v. *)
From Coq Require Import String Ascii.
From Verif Require JsonModel JsonSpec.
From Verif Require Import Base MapModel MapSpec JudyModel AllocMapThms MapRun MapMain PrintModel PrintSpec PlotModel PlotSpec PlotFacts.

Local Notation "a ^^ b" := (String.append a b) (at level 60, right associativity).

(** C84: the lines that the script takes for records. *)
Theorem C84_pattern : forall l a b, match_line l = Some (a, b) <-> record_line l a b.
Proof. exact match_line_is. Qed.
Print Assumptions C84_pattern.

(** C84: what the script takes for a number: hexadecimal digits, small or capital, after an optional mark, with single underscores. *)
Theorem C84_number : forall s n, int16 s = Some n <-> number s n.
Proof. exact number_is. Qed.
Print Assumptions C84_number.

Example C84_number_case : int16 "0xFf_0a" = Some 65290 /\ number "0xFf_0a" 65290 /\ int16 "f__0" = None /\ int16 "_f" = None /\ int16 "f_" = None.
Proof. split; [reflexivity|]. split; [apply number_is; reflexivity|repeat split; reflexivity]. Qed.

(** C84: from any text the script reads the lines that are records; it ends with an exception if one of them has a word that is no
    number, and so without any file. *)
Theorem C84_import : forall t l, import_from_file t = Ok tt l <-> reads (lines t) l.
Proof. intros t. exact (import_is (lines t)). Qed.
Print Assumptions C84_import.

Theorem C84_import_throws : forall t, import_from_file t = Throw tt RuntimeError <->
  exists x a b, In x (lines t) /\ record_line x a b /\ ((forall n, ~ number a n) \/ (forall n, ~ number b n)).
Proof. intros t. exact (import_bad (lines t)). Qed.
Print Assumptions C84_import_throws.

Example C84_import_case :
  import_from_file "size: 1, range: 0x1F -- 20, name" = Ok tt [(31, 32)] /\
  import_from_file "size: 1, range: 0x1g -- 20, name" = Throw tt RuntimeError /\ plot_allocations [] = Throw tt RuntimeError.
Proof. repeat split; vm_compute; reflexivity. Qed.

(** C84: from what print_allocator_records writes the script reads the allocations of this allocator, by address. *)
Theorem C84_read :
  forall names trace g a fuel addr name s,
    ahist JR any_keys (g, a) -> blocks g -> ~ registered g 0 -> (length g < fuel)%nat -> addr <> 0 -> keyed g ->
    (forall k r, In (k, r) g -> r_strat r = s -> harmless (after_range names trace r)) -> harmless (name ^^ " allocator:")%string ->
    (exists k r, In (k, r) g /\ r_strat r = s) ->
    exists a' t ks, print_records JR names trace fuel addr name s a = Ok a' t /\ addresses g ks /\
      import_from_file t = Ok tt (map (fun r => (r_ptr r, r_ptr r + r_size r)) (listed s g ks)).
Proof.
  intros names trace g a fuel addr name s Hh Hb H0 Hf Ha Hk Hq Hn Hs.
  destruct (reads_ok names trace g a fuel addr name s Hh Hb H0 Hf Ha Hk Hq Hn Hs) as (a' & t & ks & _ & _ & H1 & H2 & _ & H3 & _). eauto 6.
Qed.
Print Assumptions C84_read.

(** C84: the picture of an allocator: all its bytes are painted, relative to the lowest, and besides only single bytes between
    two allocations that follow each other; the numbers on the axis have at most five digits in the smallest unit possible. *)
Theorem C84_picture_partial :
  forall names trace g a fuel addr name s,
    ahist JR any_keys (g, a) -> blocks g -> ~ registered g 0 -> (length g < fuel)%nat -> addr <> 0 -> keyed g ->
    (forall k r, In (k, r) g -> r_strat r = s -> harmless (after_range names trace r)) -> harmless (name ^^ " allocator:")%string ->
    (exists k r, In (k, r) g /\ r_strat r = s) -> within s g (10000 * 2 ^ 30) ->
    exists a' t ks first rects denom unit z l, print_records JR names trace fuel addr name s a = Ok a' t /\ addresses g ks /\ lowest s g first /\
      plot_allocations [t] = Ok tt (mkPicture [rects] denom unit) /\
      (forall y, paints rects (y - first) <-> in_use s g y \/ lone_gap (listed s g ks) y) /\
      listed s g ks = (l ++ [z])%list /\ well_scaled (r_ptr z + r_size z - first) denom unit.
Proof. exact picture_ok. Qed.
Print Assumptions C84_picture_partial.

(** C84: files that can be drawn alone can be drawn together: with the rectangles each has alone, and the unit of that which
    needs the largest. *)
Theorem C84_together :
  forall files rss, files <> [] ->
    Forall2 (fun t rs => exists d u, plot_allocations [t] = Ok tt (mkPicture [rs] d u)) files rss ->
    exists t rs d u, In t files /\ plot_allocations [t] = Ok tt (mkPicture [rs] d u) /\
      plot_allocations files = Ok tt (mkPicture rss d u) /\
      forall t' rs' d' u', In t' files -> plot_allocations [t'] = Ok tt (mkPicture [rs'] d' u') -> d' <= d.
Proof. exact several. Qed.
Print Assumptions C84_together.

(** The text that the library writes and the picture of it. *)
Definition drawn (calls : list acall) (ss : list (string * Z)) : option (outcome unit picture) :=
  aobs (fun _ => true) calls (fun _ a =>
    let texts := map (fun ns => match print_records JR (fun n => if n =? 7 then ("a" ^^ String "010" "size: 1, range: 9 -- 8, ")%string else EmptyString) None 6 77 (fst ns) (snd ns) a with
                                | Ok _ t => t | _ => "?"%string end) ss in
    Some (plot_allocations texts)).

(** Two blocks with a hole of two bytes, and one of another allocator. *)
Example C84_case :
  drawn [AInsert 4096 (mkRec 4096 64 1 0); AInsert 4162 (mkRec 4162 20000 1 0); AInsert 65536 (mkRec 65536 8 2 0)] [("POOL"%string, 1)]
  = Some (Ok tt (mkPicture [[(0, 64); (66, 20066)]] 1024 "kB")).
Proof. vm_compute. reflexivity. Qed.

Example C84_together_case :
  drawn [AInsert 4096 (mkRec 4096 64 1 0); AInsert 65536 (mkRec 65536 20000 2 0)] [("POOL"%string, 1); ("HOST"%string, 2)]
  = Some (Ok tt (mkPicture [[(0, 64)]; [(0, 20000)]] 1024 "kB")).
Proof. vm_compute. reflexivity. Qed.

Example C84_case_hyps : exists g a, ahist JR any_keys (g, a) /\ blocks g /\ ~ registered g 0 /\ length g = 3%nat /\ keyed g /\
  (exists k r, In (k, r) g /\ r_strat r = 1) /\ within 1 g (10000 * 2 ^ 30) /\
  forall k r, In (k, r) g -> r_strat r = 1 -> harmless (after_range (fun _ => "x"%string) None r).
Proof.
  destruct (aobs_hist (fun _ => true) any_keys) with
    (l := [AInsert 4096 (mkRec 4096 64 1 0); AInsert 4162 (mkRec 4162 20000 1 0); AInsert 65536 (mkRec 65536 8 2 0)])
    (f := fun (g : registry) (_ : amap JR) => Some g)
    (x := [(65536, mkRec 65536 8 2 0); (4162, mkRec 4162 20000 1 0); (4096, mkRec 4096 64 1 0)]) as (g & a & Hh & Hg).
  - intros P _. exact I.
  - vm_compute. reflexivity.
  - exists g, a. injection Hg as Hg. split; [exact Hh|]. rewrite Hg. clear Hh Hg.
    assert (F : forall k r, In (k, r) [(65536, mkRec 65536 8 2 0); (4162, mkRec 4162 20000 1 0); (4096, mkRec 4096 64 1 0)] ->
      (k, r) = (65536, mkRec 65536 8 2 0) \/ (k, r) = (4162, mkRec 4162 20000 1 0) \/ (k, r) = (4096, mkRec 4096 64 1 0)).
    { intros k r Hi. cbn [In] in Hi. intuition. }
    split; [intros k r Hi; apply F in Hi as [[= -> ->]|[[= -> ->]|[= -> ->]]]; vm_compute; repeat split; discriminate|].
    split; [unfold registered; simpl; lia|]. split; [reflexivity|].
    split; [intros k r Hi; apply F in Hi as [[= -> ->]|[[= -> ->]|[= -> ->]]]; reflexivity|].
    split; [exists 4096, (mkRec 4096 64 1 0); split; [cbn; auto|reflexivity]|].
    split.
    + intros k r k' r' Hi Hi' _ _. apply F in Hi as [[= -> ->]|[[= -> ->]|[= -> ->]]]; apply F in Hi' as [[= -> ->]|[[= -> ->]|[= -> ->]]]; cbn [r_ptr r_size]; lia.
    + intros k r _ _ l b c Hi. destruct Hi.
Qed.

(** Refuted: only bytes of allocations are painted.  The script takes the end of a range for its last byte, while the listing
    gives the byte after it: the byte 4127 is nobody's. *)
Theorem C84_hole_refuted :
  drawn [AInsert 4096 (mkRec 4096 31 1 0); AInsert 4128 (mkRec 4128 8 1 0)] [("POOL"%string, 1)] = Some (Ok tt (mkPicture [[(0, 40)]] 1 "Bytes")) /\
  paints [(0, 40)] (4127 - 4096).
Proof. split; [vm_compute; reflexivity|]. exists 0, 40. split; [now left|lia]. Qed.
Print Assumptions C84_hole_refuted.

(** Refuted: allocations next to each other are drawn as one rectangle (coalesce_records). *)
Theorem C84_coalesce_refuted :
  drawn [AInsert 4096 (mkRec 4096 32 1 0); AInsert 4128 (mkRec 4128 32 1 0)] [("POOL"%string, 1)] =
    Some (Ok tt (mkPicture [[(0, 32); (32, 64)]] 1 "Bytes")).
Proof. vm_compute. reflexivity. Qed.
Print Assumptions C84_coalesce_refuted.

(** Refuted: several allocators can be compared in one picture.  Each is drawn relative to its own lowest address: byte 4160
    of HOST's block is at 64, the same byte of the pool inside at 0. *)
Theorem C84_overlay_refuted :
  drawn [AInsert 4096 (mkRec 4096 128 1 0); AInsert 4160 (mkRec 4160 32 2 0)] [("HOST"%string, 1); ("POOL"%string, 2)] =
    Some (Ok tt (mkPicture [[(0, 128)]; [(0, 32)]] 1 "Bytes")).
Proof. vm_compute. reflexivity. Qed.
Print Assumptions C84_overlay_refuted.

(** Refuted: every allocator can be drawn.  Not if two of its allocations are more than 10000 GB apart, as those are that
    malloc takes from the heap and from mmap on 64-bit Linux. *)
Theorem C84_far_refuted :
  forall names trace g a fuel addr name s,
    ahist JR any_keys (g, a) -> blocks g -> ~ registered g 0 -> (length g < fuel)%nat -> addr <> 0 -> keyed g ->
    (forall k r, In (k, r) g -> r_strat r = s -> harmless (after_range names trace r)) -> harmless (name ^^ " allocator:")%string ->
    (exists k r k' r', In (k, r) g /\ In (k', r') g /\ r_strat r = s /\ r_strat r' = s /\ 10000 * 2 ^ 30 < r_ptr r' - r_ptr r) ->
    exists a' t, print_records JR names trace fuel addr name s a = Ok a' t /\ plot_allocations [t] = Throw tt RuntimeError.
Proof. exact picture_far. Qed.
Print Assumptions C84_far_refuted.

Example C84_far_case :
  drawn [AInsert 0x555555559000 (mkRec 0x555555559000 64 1 0); AInsert 0x7ffff7a00000 (mkRec 0x7ffff7a00000 1048576 1 0)] [("HOST"%string, 1)] =
    Some (Throw tt RuntimeError).
Proof. vm_compute. reflexivity. Qed.

(** Refuted: an allocator without allocations can be drawn. *)
Theorem C84_empty_refuted : plot_allocations [EmptyString] = Throw tt RuntimeError.
Proof. reflexivity. Qed.
Print Assumptions C84_empty_refuted.

(** Refuted: the name of an allocation does not matter.  Here it has a line that looks like a record. *)
Theorem C84_name_refuted :
  drawn [AInsert 4096 (mkRec 4096 32 1 7)] [("HOST"%string, 1)] =
    Some (Ok tt (mkPicture [[(0, 32); (9 - 4096, 8 - 4096)]] 1 "Bytes")).
Proof. vm_compute. reflexivity. Qed.
Print Assumptions C84_name_refuted.

(** Refuted: plot_allocator_traces draws the log of a program.  Whatever the first event is, its line has no [event]. *)
Theorem C84_traces_refuted :
  forall strtod e, JsonSpec.fits e -> JsonSpec.utf8_ev e ->
    exists t j, JsonModel.dump (JsonModel.to_json e) = JsonModel.DOk t /\ JsonModel.parse strtod t = JsonModel.POk j /\
      JsonModel.from_json j = JsonModel.COk e /\ forall l, traces_begin (j :: l) = Throw tt RuntimeError.
Proof. exact traces_none. Qed.
Print Assumptions C84_traces_refuted.

Example C84_traces_case :
  let e := {| JsonModel.v_name := JsonModel.bs "allocate"; JsonModel.v_cat := JsonModel.Operation; JsonModel.v_str := []; JsonModel.v_num := [];
              JsonModel.v_tag := []; JsonModel.v_time := 5 |} in
  JsonSpec.fits e /\ JsonSpec.utf8_ev e /\ traces_begin [JsonModel.JObj [(JsonModel.bs "event", JsonModel.JNull)]] = Ok tt tt /\
  traces_begin [JsonModel.to_json e] = Throw tt RuntimeError.
Proof.
  split; [unfold JsonSpec.fits; cbn; repeat split; try constructor; try lia|].
  split; [|split; vm_compute; reflexivity]. unfold JsonSpec.utf8_ev. cbn. split; [|repeat split; constructor].
  vm_compute. repeat (apply JsonSpec.u_1; [lia|]). constructor.
Qed.
