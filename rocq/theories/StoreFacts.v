(** Facts about the store of events. *)
From Coq Require Import String Ascii HexString Sorted.
From Verif Require Import Base ReplayModel JsonModel StoreModel JsonSpec Utf8Facts JsonFacts ParseFacts.

(** ** Events as values *)
Lemma to_json_eq e : to_json e =
  JObj [(bs "category", JStr (cat_text (v_cat e))); (bs "name", JStr (v_name e)); (bs "numeric_args", jnums (v_num e));
        (bs "string_args", jstrs (v_str e)); (bs "tags", jstrs (v_tag e)); (bs "timestamp", JInt (v_time e))].
Proof. reflexivity. Qed.

Lemma ascii_utf8 s : Forall (fun b => 0 <= b <= 127) s -> utf8 s.
Proof. induction 1; constructor; assumption. Qed.
Lemma ascii_b s : forallb (fun b => (0 <=? b) && (b <=? 127)) s = true -> utf8 s.
Proof.
  intros H. apply ascii_utf8, Forall_forall. intros x Hx. rewrite forallb_forall in H. specialize (H x Hx). lia.
Qed.

Lemma cat_utf8 c : utf8 (cat_text c).
Proof. apply ascii_b. destruct c; reflexivity. Qed.

Lemma sorted_map {A B} (f : A -> B) m : sorted m -> sorted (map (fun kv => (fst kv, f (snd kv))) m).
Proof.
  unfold sorted. induction 1 as [|a m S IH H]; cbn [map]; constructor; [exact IH|].
  apply Forall_map. eapply Forall_impl; [|exact H]. intros b Hb. exact Hb.
Qed.

Lemma jstrs_good m : sorted m -> Forall (fun kv => utf8 (fst kv) /\ utf8 (snd kv)) m -> good_json (jstrs m).
Proof.
  intros S U. unfold jstrs. constructor.
  - apply Forall_map. eapply Forall_impl; [|exact U]. intros a (H & _). exact H.
  - apply Forall_map. eapply Forall_impl; [|exact U]. intros a (_ & H). constructor. exact H.
  - apply (sorted_map JStr). exact S.
Qed.
Lemma jnums_good m : sorted m -> Forall (fun kv => utf8 (fst kv)) m -> Forall (fun kv => 0 <= snd kv < 2 ^ 64) m ->
  good_json (jnums m).
Proof.
  intros S U N. unfold jnums. constructor.
  - apply Forall_map. eapply Forall_impl; [|exact U]. intros a H. exact H.
  - apply Forall_map. eapply Forall_impl; [|exact N]. intros a H. constructor. exact H.
  - apply (sorted_map JUns). exact S.
Qed.

Lemma to_json_good e : fits e -> utf8_ev e -> good_json (to_json e).
Proof.
  intros (S1 & S2 & S3 & N & T) (U1 & U2 & U3 & U4). rewrite to_json_eq. constructor.
  - repeat (constructor; [apply ascii_b; reflexivity|]). constructor.
  - repeat apply Forall_cons; try apply Forall_nil; cbn [snd];
      first [ apply jstrs_good; assumption | apply jnums_good; assumption | constructor; first [assumption | apply cat_utf8] ].
  - unfold sorted. repeat constructor.
Qed.

Lemma canon_jstrs m : sorted m -> canon (jstrs m) = jstrs m.
Proof.
  intros S. unfold jstrs. rewrite canon_sorted by (apply (sorted_map JStr); exact S). f_equal.
  rewrite map_map. reflexivity.
Qed.
Lemma canon_jnums m : sorted m -> Forall (fun kv => 0 <= snd kv < 2 ^ 64) m -> canon (jnums m) = jnums m.
Proof.
  intros S N. unfold jnums. rewrite canon_sorted by (apply (sorted_map JUns); exact S). f_equal.
  rewrite map_map. apply map_ext_in. intros (k, z) H. rewrite Forall_forall in N. specialize (N _ H). cbn [fst snd canon] in *.
  replace (z <? 0) with false by lia. reflexivity.
Qed.

Lemma get_jstrs m : get_map get_str (jstrs m) = COk m.
Proof.
  unfold jstrs. cbn [get_map]. induction m as [|(k, v) m IH]; [reflexivity|]. cbn [map get_members fst snd get_str cbind].
  rewrite IH. reflexivity.
Qed.
Lemma get_jnums m : get_map get_u64 (jnums m) = COk m.
Proof.
  unfold jnums. cbn [get_map]. induction m as [|(k, v) m IH]; [reflexivity|]. cbn [map get_members fst snd get_u64 cbind].
  rewrite IH. reflexivity.
Qed.
Lemma text_cat_text c : text_cat (JStr (cat_text c)) = c.
Proof. destruct c; reflexivity. Qed.

Lemma s64_small t : 0 <= t < 2 ^ 63 -> s64 t = t.
Proof. intros H. unfold s64, w64, M64. rewrite Z.mod_small by lia. replace (t <? 2 ^ 63) with true by lia. reflexivity. Qed.

Lemma get_i64_canon t : - 2 ^ 63 <= t < 2 ^ 63 -> get_i64 (canon (JInt t)) = COk t.
Proof.
  intros H. cbn [canon]. destruct (Z.ltb_spec t 0); cbn [get_i64]; [reflexivity|]. rewrite s64_small by lia. reflexivity.
Qed.

Lemma s64_range n : - 2 ^ 63 <= s64 n < 2 ^ 63.
Proof.
  unfold s64, w64, M64. pose proof (Z.mod_pos_bound n (2 ^ 64) ltac:(lia)). destruct (Z.ltb_spec (n mod 2 ^ 64) (2 ^ 63)); lia.
Qed.

Lemma get_u64_canon n : 0 <= n < 2 ^ 64 -> get_u64 (canon (JInt (s64 n))) = COk n.
Proof.
  intros H. cbn [canon]. unfold s64, w64, M64. rewrite (Z.mod_small n) by lia.
  destruct (Z.ltb_spec n (2 ^ 63)).
  - replace (n <? 0) with false by lia. reflexivity.
  - replace (n - 2 ^ 64 <? 0) with true by lia. cbn [get_u64]. unfold w64, M64. f_equal.
    symmetry. apply Z.mod_unique with (-1); lia.
Qed.

(** The members of an event, by key. *)
Lemma from_json_eq c n num str tag t :
  from_json (JObj [(bs "category", c); (bs "name", n); (bs "numeric_args", num); (bs "string_args", str);
                   (bs "tags", tag); (bs "timestamp", t)]) =
  cbind (get_str n) (fun name => cbind (get_map get_str str) (fun strs => cbind (get_map get_u64 num) (fun nums =>
  cbind (get_map get_str tag) (fun tags => cbind (get_i64 t) (fun t =>
  COk {| v_name := name; v_cat := text_cat c; v_str := strs; v_num := nums; v_tag := tags; v_time := t |}))))).
Proof. reflexivity. Qed.

Lemma canon_members6 c n num str tag t :
  canon (JObj [(bs "category", c); (bs "name", n); (bs "numeric_args", num); (bs "string_args", str);
               (bs "tags", tag); (bs "timestamp", t)]) =
  JObj [(bs "category", canon c); (bs "name", canon n); (bs "numeric_args", canon num); (bs "string_args", canon str);
        (bs "tags", canon tag); (bs "timestamp", canon t)].
Proof. rewrite canon_obj. reflexivity. Qed.

Lemma from_to e : fits e -> from_json (canon (to_json e)) = COk e.
Proof.
  intros (S1 & S2 & S3 & N & T). rewrite to_json_eq, canon_members6, from_json_eq.
  rewrite !canon_jstrs, canon_jnums, !get_jstrs, get_jnums, get_i64_canon by assumption.
  cbn [canon get_str cbind]. rewrite text_cat_text. destruct e; reflexivity.
Qed.

(** ** Addresses as text *)
Definition plainb (s : bytes) : bool := forallb (fun b => (32 <=? b) && (b <=? 127) && negb (b =? 34) && negb (b =? 92)) s.
Lemma plainb_plain s : plainb s = true -> plain s.
Proof.
  unfold plainb. intros H. rewrite forallb_forall in H. split.
  - apply ascii_utf8, Forall_forall. intros x Hx. specialize (H x Hx). lia.
  - apply Forall_forall. intros x Hx. specialize (H x Hx). lia.
Qed.

Lemma of_pos_plain : forall p rest, plainb (bs rest) = true -> plainb (bs (HexString.Raw.of_pos p rest)) = true.
Proof.
  fix IH 1. intros p rest H.
  destruct p as [[[[p|p|]|[p|p|]|]|[[p|p|]|[p|p|]|]|]|[[[p|p|]|[p|p|]|]|[[p|p|]|[p|p|]|]|]|];
    cbn [HexString.Raw.of_pos]; try apply IH; exact H.
Qed.

Lemma show_p_plain p : plain (bs (show_p p)).
Proof.
  apply plainb_plain. unfold show_p. destruct (p =? 0); [reflexivity|].
  destruct p as [|p|p]; [reflexivity | |]; cbn [HexString.of_Z]; apply of_pos_plain; reflexivity.
Qed.

(** ** Lines *)
Lemma cstr_printable t : printable t -> cstr t = t.
Proof. induction 1 as [|c t H Ht IH]; [reflexivity|]. cbn [cstr]. replace (c =? 0) with false by lia. rewrite IH. reflexivity. Qed.
Lemma cstr_app t r : printable t -> cstr (t ++ r) = t ++ cstr r.
Proof.
  induction 1 as [|c t H Ht IH]; [reflexivity|]. cbn [app cstr]. replace (c =? 0) with false by lia. rewrite IH. reflexivity.
Qed.
Lemma getline_printable t r : printable t -> getline (t ++ 10 :: r) = Some (t ++ [10], r).
Proof.
  induction 1 as [|c t H Ht IH]; [reflexivity|]. cbn [app getline]. replace (c =? 10) with false by lia.
  rewrite IH. reflexivity.
Qed.

(** The value whose text a typed event is. *)
Definition typed (name : string) (num : list (bytes * json)) (str : list (bytes * json)) (t : Z) : json :=
  JObj ([(bs "category", JStr (bs "operation")); (bs "name", JStr (bs name))] ++ num ++
        [(bs "string_args", JObj str); (bs "tags", JObj [(bs "replay", JStr (bs "true"))]); (bs "timestamp", JInt t)]).
Definition raw (r : rec) : json :=
  match r with
  | RGeneric e => to_json e
  | RAllocate n ref p t =>
      typed "allocate" [(bs "numeric_args", JObj [(bs "size", JInt (s64 n))])]
        [(bs "allocator_ref", JStr (bs (show_p ref))); (bs "pointer", JStr (bs (show_p p)))] t
  | RNamed n ref p s t =>
      typed "named_allocate" [(bs "numeric_args", JObj [(bs "size", JInt (s64 n))])]
        [(bs "allocator_ref", JStr (bs (show_p ref))); (bs "pointer", JStr (bs (show_p p))); (bs "allocation_name", JStr s)] t
  | RDeallocate ref p t =>
      typed "deallocate" [] [(bs "allocator_ref", JStr (bs (show_p ref))); (bs "pointer", JStr (bs (show_p p)))] t
  end.

Lemma dump_plain s : plain s -> dump_str s = DOk (34 :: s ++ [34]).
Proof. intros H. rewrite dump_str_ok by apply H. rewrite esc_plain by exact H. reflexivity. Qed.

Lemma plain_printable s : plain s -> printable s.
Proof. intros (_ & H). eapply Forall_impl; [|exact H]. intros b Hb. cbn in Hb. lia. Qed.

Ltac closed_strs := repeat match goal with
  | |- context [dump_str (bs ?s)] => let v := eval vm_compute in (dump_str (bs s)) in change (dump_str (bs s)) with v
  end.

Ltac raws := repeat match goal with
  | |- Forall _ (_ :: _) => apply Forall_cons
  | |- Forall _ [] => apply Forall_nil
  | |- raw_ok (snd _) => cbn [snd]
  | |- utf8 (fst _) => cbn [fst]
  | |- raw_ok (JObj _) => apply r_obj
  | |- raw_ok (JStr _) => apply r_str
  | |- raw_ok (JInt _) => apply r_int
  | |- utf8 (bs (show_p _)) => apply show_p_plain
  | |- utf8 _ => first [assumption | apply ascii_b; reflexivity]
  | |- _ /\ _ => assumption
  end.

Lemma raw_good r : writable r -> raw_ok (raw r).
Proof.
  destruct r as [e|n ref p t|n ref p s t|ref p t]; cbn [writable raw].
  - intros (F & U). apply good_raw, to_json_good; assumption.
  - intros (Hn & Hr & Hp & Ht). pose proof (s64_range n). unfold typed; cbn [app]. raws.
  - intros (Hn & Hr & Hp & (Hs & _) & Ht). pose proof (s64_range n). unfold typed; cbn [app]. raws.
  - intros (Hr & Hp & Ht). unfold typed; cbn [app]. raws.
Qed.

(** The text of a typed event is the text of that value. *)
Ltac texts := repeat match goal with
  | |- context [bs (String ?a ?s)] => let v := eval vm_compute in (bs (String a s)) in change (bs (String a s)) with v
  end.

Ltac dumps := unfold typed; cbn [app]; repeat (rewrite dump_obj; cbn [dmembers]); cbn [dump];
  rewrite ?(dump_plain (bs (show_p _))) by apply show_p_plain; try match goal with H : plain ?s |- _ => rewrite (dump_plain s H) end; closed_strs;
  rewrite ?dump_integer_show by lia; cbn [dbind dapp].

Lemma raw_text r t : writable r -> dump (raw r) = DOk t -> text r = DOk (t ++ [10]).
Proof.
  intros W D. assert (printable t) as P.
  { destruct (dump_lexes _ (raw_good _ W)) as (t' & D' & P & _). congruence. }
  destruct r as [e|n ref p time|n ref p s time|ref p time]; cbn [raw text writable] in *.
  - rewrite D. cbn [dbind]. rewrite cstr_printable by exact P. reflexivity.
  - destruct W as (Hn & Hr & Hp & Ht). unfold long in Ht. pose proof (s64_range n). revert D. dumps. intros D. injection D as <-. f_equal. texts.
    repeat (rewrite <- ?app_assoc; cbn [app]). reflexivity.
  - destruct W as (Hn & Hr & Hp & Hs & Ht). unfold long in Ht. pose proof (s64_range n). revert D. dumps. intros D. injection D as <-. f_equal. texts.
    rewrite (cstr_printable s) by (apply plain_printable; exact Hs).
    repeat (rewrite <- ?app_assoc; cbn [app]). reflexivity.
  - destruct W as (Hr & Hp & Ht). unfold long in Ht. revert D. dumps. intros D. injection D as <-. f_equal. texts.
    repeat (rewrite <- ?app_assoc; cbn [app]). reflexivity.
Qed.

Lemma raw_meant r : writable r -> from_json (canon (raw r)) = COk (meant r).
Proof.
  destruct r as [e|n ref p t|n ref p s t|ref p t]; cbn [raw writable meant].
  - intros (F & _). apply from_to. exact F.
  - intros (Hn & _ & _ & Ht). unfold typed. cbn [app]. rewrite canon_members6, from_json_eq, get_i64_canon by exact Ht.
    rewrite !canon_obj. cbn [cmembers mset bcmp]. cbn [get_map get_members]. rewrite get_u64_canon by exact Hn. reflexivity.
  - intros (Hn & _ & _ & Hs & Ht). unfold typed. cbn [app]. rewrite canon_members6, from_json_eq, get_i64_canon by exact Ht.
    rewrite !canon_obj. cbn [cmembers mset bcmp]. cbn [get_map get_members]. rewrite get_u64_canon by exact Hn. reflexivity.
  - intros (_ & _ & Ht). unfold typed. cbn [app]. rewrite canon_obj. cbn [cmembers].
    pose proof (get_i64_canon t Ht) as E. set (j := canon (JInt t)) in *. clearbody j.
    transitivity (cbind (get_i64 j) (fun t => COk (op "deallocate" []
      [(bs "allocator_ref", bs (show_p ref)); (bs "pointer", bs (show_p p))] t))); [reflexivity|].
    rewrite E. reflexivity.
Qed.

(** ** Reading *)
Lemma text_ok r : writable r -> exists t, dump (raw r) = DOk t /\ text r = DOk (t ++ [10]) /\ printable t.
Proof.
  intros W. destruct (dump_lexes _ (raw_good _ W)) as (t & D & P & _). exists t. auto using raw_text.
Qed.

(** The lines of records. *)
Definition line (r : rec) : bytes := match text r with DOk t => t | _ => [] end.
Definition lines (l : list rec) : bytes := concat (map line l).

Section Read.
  Variable strtod : bytes -> option Z.

  Lemma read_line r : writable r ->
    exists t, line r = t ++ [10] /\ printable t /\ exists j, parse strtod (t ++ [10]) = POk j /\ from_json j = COk (meant r).
  Proof.
    intros W. destruct (text_ok r W) as (t & D & T & P). exists t. unfold line. rewrite T. split; [reflexivity|].
    split; [exact P|]. exists (canon (raw r)). split; [apply parse_line; [apply raw_good; exact W | exact D] | apply raw_meant; exact W].
  Qed.

  Lemma read_more l : Forall writable l -> forall fuel rest, (length (lines l) <= fuel)%nat ->
    exists k, (k + length (lines l) >= fuel)%nat /\ read_events strtod fuel (lines l ++ rest) =
    match read_events strtod k rest with
    | GOk t => GOk (map meant l ++ t)
    | GThrow n => GThrow (length (lines l) + n)
    | GUB => GUB
    end.
  Proof.
    induction 1 as [|r l W Wl IH]; intros fuel rest F.
    - exists fuel. split; [cbn; lia|]. cbn [lines map concat app length]. destruct (read_events strtod fuel rest); reflexivity.
    - destruct (read_line r W) as (t & E & P & j & Pj & Fj). unfold lines in *. cbn [map concat] in *. rewrite E in *.
      rewrite !app_length in *. cbn [length] in *. destruct fuel as [|fuel]; [lia|].
      destruct (IH fuel rest ltac:(lia)) as (k & Hk & R). exists k. split; [lia|].
      cbn [read_events]. rewrite <- !app_assoc. cbn [app]. rewrite getline_printable by exact P.
      rewrite (cstr_app t [10] P). change (cstr [10]) with [10]. rewrite Pj, Fj, R.
      destruct (read_events strtod k rest); try reflexivity. f_equal. rewrite app_length. cbn [length]. lia.
  Qed.

  Lemma read_lines l fuel : Forall writable l -> (length (lines l) < fuel)%nat -> read_events strtod fuel (lines l) = GOk (map meant l).
  Proof.
    intros W F. destruct (read_more l W fuel [] ltac:(lia)) as (k & Hk & R). rewrite app_nil_r in R. rewrite R.
    destruct k as [|k]; [lia|]. cbn [read_events getline]. rewrite app_nil_r. reflexivity.
  Qed.

  (** A reader that opens the file. *)
  Lemma get_lines l w : Forall writable l -> s_ro w = true -> s_open w = false -> s_disk w = Some (lines l) ->
    exists w', get_events strtod w = SOk w' (map meant l) /\ s_disk w' = s_disk w.
  Proof.
    intros W R O D. unfold get_events, open_store. rewrite O, R, D. cbn [sbind s_ro s_eof s_disk s_pos negb orb skipn].
    rewrite read_lines by (assumption || lia). eexists. split; reflexivity.
  Qed.

  (** ** Recording *)
  Definition recording (t : bytes) (w : store) : Prop :=
    s_open w = true /\ s_ro w = false /\ exists d, s_disk w = Some d /\ d ++ s_pend w = t.

  Lemma insert_ok r w t : writable r -> recording t w -> exists w', insert r w = SOk w' tt /\ recording (t ++ line r) w'.
  Proof.
    intros W (O & R & d & D & E). unfold insert.
    assert ((if generic r then open_store w else SOk w tt) = SOk w tt) as ->.
    { destruct (generic r); [|reflexivity]. unfold open_store. rewrite O. reflexivity. }
    cbn [sbind]. destruct (text_ok r W) as (x & _ & T & _). unfold line. rewrite T. unfold put. rewrite O, R.
    eexists. split; [reflexivity|]. split; [reflexivity|]. split; [reflexivity|]. exists d. split; [exact D|].
    cbn [s_pend]. rewrite <- E, app_assoc. reflexivity.
  Qed.

  Lemma record_more l : Forall writable l -> forall w t, recording t w ->
    exists w', record_all l w = SOk w' tt /\ recording (t ++ lines l) w'.
  Proof.
    induction 1 as [|r l W Wl IH]; intros w t R.
    - exists w. split; [reflexivity|]. unfold lines. cbn [map concat]. rewrite app_nil_r. exact R.
    - destruct (insert_ok r w t W R) as (w1 & E & R1). cbn [record_all]. rewrite E.
      destruct (IH w1 _ R1) as (w2 & E2 & R2). exists w2. split; [exact E2|].
      unfold lines in *. cbn [map concat]. rewrite app_assoc. exact R2.
  Qed.

  Lemma record_file e l disk : Forall writable (RGeneric e :: l) ->
    exists w', record_all (RGeneric e :: l) (mk_store disk true false) = SOk w' tt /\ recording (lines (RGeneric e :: l)) w'.
  Proof.
    intros W. inversion W as [|? ? W1 W2]; subst.
    set (w0 := {| s_disk := Some []; s_writable := true; s_ro := false; s_open := true; s_pend := []; s_pos := O; s_eof := false |}).
    assert (record_all (RGeneric e :: l) (mk_store disk true false) = record_all (RGeneric e :: l) w0) as ->.
    { reflexivity. }
    destruct (record_more _ W w0 []) as (w' & E & R).
    { split; [reflexivity|]. split; [reflexivity|]. exists []. split; reflexivity. }
    exists w'. split; [exact E | exact R].
  Qed.

  Lemma recording_flush t w n : recording t w -> recording t (flush n w).
  Proof.
    intros (O & R & d & D & E). split; [exact O|]. split; [exact R|]. cbn [flush s_disk s_pend]. rewrite D.
    exists (d ++ firstn n (s_pend w)). split; [reflexivity|]. rewrite <- app_assoc, firstn_skipn. exact E.
  Qed.
  Lemma recording_finished t w : recording t w -> finished w = Some t.
  Proof.
    intros (O & R & d & D & E). unfold finished. cbn [flush s_disk]. rewrite D, firstn_all, E. reflexivity.
  Qed.
End Read.

Lemma writer_get strtod w : s_open w = true -> s_ro w = false -> get_events strtod w = SOk w [].
Proof. intros O R. unfold get_events, open_store. rewrite O. cbn [sbind]. rewrite R. reflexivity. Qed.
