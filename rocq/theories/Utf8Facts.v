(** Facts about strings in JSON: the serializer and the scanner of strings. *)
From Coq Require Import String Sorted.
From Verif Require Import Base ReplayModel JsonModel StoreModel JsonSpec.

Definition zrange (n : nat) : list Z := map Z.of_nat (seq 0 n).
Lemma zrange_in n b : 0 <= b < Z.of_nat n -> In b (zrange n).
Proof.
  intros H. unfold zrange. apply in_map_iff. exists (Z.to_nat b). rewrite in_seq. lia.
Qed.

(** ** The decoder *)
Definition cls (b : Z) : Z := nth (Z.to_nat b) utf8d 0.
Definition cls_spec (b : Z) : Z :=
  if b <=? 127 then 0 else if b <=? 143 then 1 else if b <=? 159 then 9 else if b <=? 191 then 7
  else if b <=? 193 then 8 else if b <=? 223 then 2 else if b =? 224 then 10 else if b =? 237 then 4
  else if b <=? 239 then 3 else if b =? 240 then 11 else if b <=? 243 then 6 else if b =? 244 then 5 else 8.
Lemma cls_ok b : 0 <= b <= 255 -> cls b = cls_spec b.
Proof.
  intros H.
  assert (A : forallb (fun b => cls b =? cls_spec b) (zrange 256) = true) by (vm_compute; reflexivity).
  rewrite forallb_forall in A. specialize (A b (zrange_in 256 b ltac:(lia))). lia.
Qed.

Definition tr (st ty : Z) : Z := nth (Z.to_nat (256 + st * 16 + ty)) utf8d 0.

Lemma decode_eq st cp b :
  decode st cp b = (tr st (cls b), w32 (if st =? 0 then Z.land (Z.shiftr 255 (cls b)) b
                                        else Z.lor (Z.land b 63) (Z.shiftl cp 6))).
Proof. reflexivity. Qed.

Lemma lor_add b cp : 0 <= cp -> Z.lor (Z.land b 63) (Z.shiftl cp 6) = b mod 64 + cp * 64.
Proof.
  intros Hc.
  assert (E : Z.land (Z.land b 63) (Z.shiftl cp 6) = 0).
  { apply Z.bits_inj'. intros n Hn. rewrite !Z.land_spec, Z.bits_0.
    destruct (Z.ltb_spec n 6) as [H | H].
    + rewrite (Z.shiftl_spec_low cp 6 n H), andb_false_r. reflexivity.
    + change 63 with (Z.ones 6). rewrite Z.ones_spec_high by lia. rewrite andb_false_r. reflexivity. }
  rewrite <- (Z.lxor_lor _ _ E), <- (Z.add_nocarry_lxor _ _ E).
  change 63 with (Z.ones 6). rewrite Z.land_ones, Z.shiftl_mul_pow2 by lia. reflexivity.
Qed.

(** What may come in a state of the decoder, and the code point then. *)
Definition resid (st : Z) (s : bytes) : Prop :=
  match st with
  | 0 => utf8 s
  | 2 => match s with b :: s => tail 128 191 b /\ utf8 s | _ => False end
  | 3 => match s with b :: c :: s => tail 128 191 b /\ tail 128 191 c /\ utf8 s | _ => False end
  | 4 => match s with b :: c :: s => tail 160 191 b /\ tail 128 191 c /\ utf8 s | _ => False end
  | 5 => match s with b :: c :: s => tail 128 159 b /\ tail 128 191 c /\ utf8 s | _ => False end
  | 6 => match s with b :: c :: d :: s => tail 144 191 b /\ tail 128 191 c /\ tail 128 191 d /\ utf8 s | _ => False end
  | 7 => match s with b :: c :: d :: s => tail 128 191 b /\ tail 128 191 c /\ tail 128 191 d /\ utf8 s | _ => False end
  | 8 => match s with b :: c :: d :: s => tail 128 143 b /\ tail 128 191 c /\ tail 128 191 d /\ utf8 s | _ => False end
  | _ => False
  end.
Definition cpok (st cp : Z) : Prop :=
  match st with
  | 0 => True
  | 2 => 2 <= cp < 65536
  | 3 => 1 <= cp < 1024
  | 4 => 0 <= cp < 1024
  | 5 => 1 <= cp < 1024
  | 6 => 0 <= cp < 16
  | 7 => 1 <= cp < 16
  | 8 => 1 <= cp < 16
  | _ => False
  end.
(** How many bytes of a character were copied. *)
Definition depth (st : Z) : Z :=
  match st with 0 => 0 | 2 => 3 | 3 | 4 | 5 => 2 | _ => 1 end.

Definition esc1 (b : Z) : bytes := if b <? 128 then escape b b else [b].
Definition esc (s : bytes) : bytes := flat_map esc1 s.

Lemma escape_len c b : (length (escape c b) <= 6)%nat.
Proof. unfold escape, u4. repeat destruct (_ =? _); try destruct (_ <=? _); cbn [length]; lia. Qed.
Lemma escape_roomy c b : escape_room c (escape c b) <= 7.
Proof. unfold escape, u4, escape_room. repeat destruct (_ =? _); try destruct (_ <=? _); cbn [length]; lia. Qed.
Lemma escape_high c b : 128 <= c -> escape c b = [b].
Proof.
  intros H. unfold escape.
  repeat match goal with |- context [?a =? ?b] => replace (a =? b) with false by lia end.
  replace (c <=? 31) with false by lia. reflexivity.
Qed.

Lemma utf8_inv b s : utf8 (b :: s) ->
  (0 <= b <= 127 /\ utf8 s) \/ (194 <= b <= 223 /\ resid 2 s) \/ (b = 224 /\ resid 4 s) \/
  ((225 <= b <= 236 \/ 238 <= b <= 239) /\ resid 3 s) \/ (b = 237 /\ resid 5 s) \/ (b = 240 /\ resid 6 s) \/
  (241 <= b <= 243 /\ resid 7 s) \/ (b = 244 /\ resid 8 s).
Proof. intros H. inversion H; subst; cbn [resid]; unfold tail in *; intuition. Qed.

Lemma utf8_mk b s :
  (0 <= b <= 127 /\ utf8 s) \/ (194 <= b <= 223 /\ resid 2 s) \/ (b = 224 /\ resid 4 s) \/
  ((225 <= b <= 236 \/ 238 <= b <= 239) /\ resid 3 s) \/ (b = 237 /\ resid 5 s) \/ (b = 240 /\ resid 6 s) \/
  (241 <= b <= 243 /\ resid 7 s) \/ (b = 244 /\ resid 8 s) -> utf8 (b :: s).
Proof.
  cbn [resid].
  intros [(H & U) | [(H & U) | [(H & U) | [(H & U) | [(H & U) | [(H & U) | [(H & U) | (H & U)]]]]]]]; subst.
  - constructor; assumption.
  - destruct s as [|b1 s]; [contradiction|]. destruct U as (U1 & U). apply u_2; assumption.
  - destruct s as [|b1 [|b2 s]]; try contradiction. destruct U as (U1 & U2 & U). apply u_3a; assumption.
  - destruct s as [|b1 [|b2 s]]; try contradiction. destruct U as (U1 & U2 & U). apply u_3b; assumption.
  - destruct s as [|b1 [|b2 s]]; try contradiction. destruct U as (U1 & U2 & U). apply u_3c; assumption.
  - destruct s as [|b1 [|b2 [|b3 s]]]; try contradiction. destruct U as (U1 & U2 & U3 & U). apply u_4a; assumption.
  - destruct s as [|b1 [|b2 [|b3 s]]]; try contradiction. destruct U as (U1 & U2 & U3 & U). apply u_4b; assumption.
  - destruct s as [|b1 [|b2 [|b3 s]]]; try contradiction. destruct U as (U1 & U2 & U3 & U). apply u_4c; assumption.
Qed.

Lemma cpmod b cp : 0 <= cp < 65536 -> w32 (Z.lor (Z.land b 63) (Z.shiftl cp 6)) = b mod 64 + cp * 64.
Proof.
  intros H. rewrite lor_add by lia. unfold w32, M32. pose proof (Z.mod_pos_bound b 64 ltac:(lia)).
  rewrite Z.mod_small; lia.
Qed.

(** The state a byte leads to; [1]: it is refused. *)
Definition next (st b : Z) : Z :=
  match st with
  | 0 => if b <=? 127 then 0 else if b <=? 193 then 1 else if b <=? 223 then 2 else if b =? 224 then 4
         else if b =? 237 then 5 else if b <=? 239 then 3 else if b =? 240 then 6 else if b <=? 243 then 7
         else if b =? 244 then 8 else 1
  | 2 => if (128 <=? b) && (b <=? 191) then 0 else 1
  | 3 => if (128 <=? b) && (b <=? 191) then 2 else 1
  | 4 => if (160 <=? b) && (b <=? 191) then 2 else 1
  | 5 => if (128 <=? b) && (b <=? 159) then 2 else 1
  | 6 => if (144 <=? b) && (b <=? 191) then 3 else 1
  | 7 => if (128 <=? b) && (b <=? 191) then 3 else 1
  | _ => if (128 <=? b) && (b <=? 143) then 3 else 1
  end.

Lemma tr_next st b : In st [0; 2; 3; 4; 5; 6; 7; 8] -> 0 <= b <= 255 -> tr st (cls b) = next st b.
Proof.
  intros Hs H.
  assert (A : forallb (fun st => forallb (fun b => tr st (cls b) =? next st b) (zrange 256)) [0; 2; 3; 4; 5; 6; 7; 8] = true)
    by (vm_compute; reflexivity).
  rewrite forallb_forall in A. specialize (A st Hs). rewrite forallb_forall in A.
  specialize (A b (zrange_in 256 b ltac:(lia))). lia.
Qed.

Lemma cp0 b : 0 <= b <= 255 ->
  let cp := w32 (Z.land (Z.shiftr 255 (cls b)) b) in
  (b <= 127 -> cp = b) /\ (next 0 b <> 0 -> next 0 b <> 1 -> cpok (next 0 b) cp).
Proof.
  intros H.
  assert (A : forallb (fun b => let cp := w32 (Z.land (Z.shiftr 255 (cls b)) b) in
             (if b <=? 127 then cp =? b else true) &&
             match next 0 b with
             | 2 => (2 <=? cp) && (cp <? 65536)
             | 4 => (0 <=? cp) && (cp <? 1024)
             | 3 | 5 => (1 <=? cp) && (cp <? 1024)
             | 6 => (0 <=? cp) && (cp <? 16)
             | 7 | 8 => (1 <=? cp) && (cp <? 16)
             | _ => true
             end) (zrange 256) = true) by (vm_compute; reflexivity).
  rewrite forallb_forall in A. specialize (A b (zrange_in 256 b ltac:(lia))). cbv zeta in A |- *.
  set (cp := w32 _) in *. clearbody cp. apply andb_prop in A. destruct A as (A1 & A2).
  split.
  - intros L. replace (b <=? 127) with true in A1 by lia. lia.
  - intros N0 N1. revert A2 N0 N1. unfold next.
    repeat match goal with |- context [if ?c then _ else _] => destruct c end; cbn [cpok]; lia.
Qed.

Lemma cpstep st b cp : In st [2; 3; 4; 5; 6; 7; 8] -> 0 <= b <= 255 -> cpok st cp ->
  next st b <> 1 ->
  let cp' := w32 (Z.lor (Z.land b 63) (Z.shiftl cp 6)) in
  cpok (next st b) cp' /\ (next st b = 0 -> 128 <= cp').
Proof.
  intros Hs H Hc Hn. cbv zeta.
  assert (Hc' : 0 <= cp < 65536) by (cbn [In] in Hs; intuition subst; cbn [cpok] in Hc; lia).
  rewrite cpmod by exact Hc'.
  pose proof (Z.mod_pos_bound b 64 ltac:(lia)) as Hm.
  cbn [In] in Hs. repeat destruct Hs as [<- | Hs]; try contradiction; cbn [cpok next] in *;
    destruct (_ && _) eqn:E; try congruence; cbn [cpok]; split; intros; try lia.
Qed.

Lemma next_in st b : In (next st b) [0; 1; 2; 3; 4; 5; 6; 7; 8].
Proof.
  unfold next. cbn [In].
  repeat match goal with |- context [match ?x with _ => _ end] => destruct x end; tauto.
Qed.

Lemma resid_step st b s : In st [0; 2; 3; 4; 5; 6; 7; 8] -> 0 <= b <= 255 ->
  (resid st (b :: s) <-> resid (next st b) s).
Proof.
  intros Hs H. cbn [In] in Hs. repeat destruct Hs as [<- | Hs]; try contradiction.
  - change (utf8 (b :: s) <-> resid (next 0 b) s). split.
    + intros U. apply utf8_inv in U. unfold next.
      repeat (destruct U as [U | U]); destruct U as (U & U');
        repeat match goal with |- context [if ?c then _ else _] => destruct c eqn:? end; try lia; exact U'.
    + intros R. apply utf8_mk. revert R. unfold next.
      repeat match goal with |- context [if ?c then _ else _] => destruct c eqn:? end; intros R;
        first [contradiction | cbn [resid] in R |- *; intuition lia].
  - cbn [resid next]. unfold tail. destruct (_ && _) eqn:E; cbn [resid]; intuition lia.
  - cbn [resid next]. unfold tail. destruct (_ && _) eqn:E; cbn [resid]; unfold tail; destruct s; intuition lia.
  - cbn [resid next]. unfold tail. destruct (_ && _) eqn:E; cbn [resid]; unfold tail; destruct s; intuition lia.
  - cbn [resid next]. unfold tail. destruct (_ && _) eqn:E; cbn [resid]; unfold tail; destruct s; intuition lia.
  - cbn [resid next]. unfold tail. destruct (_ && _) eqn:E; cbn [resid]; unfold tail; destruct s as [|? [|? s]]; intuition lia.
  - cbn [resid next]. unfold tail. destruct (_ && _) eqn:E; cbn [resid]; unfold tail; destruct s as [|? [|? s]]; intuition lia.
  - cbn [resid next]. unfold tail. destruct (_ && _) eqn:E; cbn [resid]; unfold tail; destruct s as [|? [|? s]]; intuition lia.
Qed.

Lemma depth_step st b : In st [0; 2; 3; 4; 5; 6; 7; 8] -> next st b <> 0 -> next st b <> 1 ->
  depth st + 1 <= depth (next st b) /\ depth (next st b) <= 3.
Proof.
  intros Hs. cbn [In] in Hs. unfold next. repeat destruct Hs as [<- | Hs]; try contradiction;
    repeat match goal with |- context [if ?c then _ else _] => destruct c eqn:? end; cbn [depth]; lia.
Qed.

Lemma next0_dec st b : next st b = 0 -> (st = 0 /\ b <= 127) \/ 128 <= b.
Proof.
  unfold next. destruct st as [|p|p].
  - repeat match goal with |- context [if ?c then _ else _] => destruct c eqn:? end; lia.
  - repeat match goal with |- context [match ?x with _ => _ end] => destruct x eqn:? end; lia.
  - repeat match goal with |- context [if ?c then _ else _] => destruct c eqn:? end; lia.
Qed.

(** The serializer of strings, from any state. *)
Lemma dump_esc_ok s : forall st cp n, is_bytes s -> In st [0; 2; 3; 4; 5; 6; 7; 8] -> cpok st cp ->
  0 <= n <= 499 + depth st ->
  (resid st s /\ dump_esc st cp n s = DOk (esc s)) \/ (~ resid st s /\ dump_esc st cp n s = DThrow).
Proof.
  induction s as [|b s IH]; intros st cp n Hb Hs Hc Hn.
  - cbn [dump_esc]. unfold UTF8_ACCEPT. destruct (Z.eqb_spec st 0) as [-> | N].
    + left. split; [constructor | reflexivity].
    + right. split; [|reflexivity]. cbn [In] in Hs. intuition subst; cbn [resid] in *; auto; congruence.
  - inversion Hb as [|? ? Hb1 Hb2]; subst. cbn [dump_esc]. rewrite decode_eq, tr_next by assumption.
    rewrite (resid_step st b s Hs Hb1). set (cp' := w32 _). unfold UTF8_ACCEPT, UTF8_REJECT.
    assert (Hcp : next st b <> 1 -> cpok (next st b) cp' /\
                  (next st b = 0 -> (128 <= b -> 128 <= cp') /\ (b <= 127 -> cp' = b))).
    { intros N1. destruct (Z.eqb_spec st 0) as [-> | N].
      - subst cp'. cbn [Z.eqb]. destruct (cp0 b Hb1) as (A & B). cbv zeta in *. split.
        + destruct (Z.eq_dec (next 0 b) 0) as [E | E]; [rewrite E; exact I | exact (B E N1)].
        + intros E. split; [|exact A]. intros L. exfalso. unfold next in E.
          repeat match type of E with context [if ?c then _ else _] => destruct c eqn:? end; lia.
      - subst cp'. destruct (Z.eqb_spec st 0) as [? | _]; [lia|].
        destruct (cpstep st b cp) as (A & B); auto; [cbn [In] in *; intuition congruence|].
        split; [exact A|]. intros E. split; [auto|]. intros L. destruct (next0_dec _ _ E); lia. }
    clearbody cp'.
    destruct (Z.eqb_spec (next st b) 0) as [E0 | E0].
    + destruct (Hcp ltac:(lia)) as (_ & Hcp0). destruct (Hcp0 E0) as (Hhi & Hlo).
      assert (Ee : escape cp' b = esc1 b).
      { unfold esc1. destruct (Z.ltb_spec b 128).
        - rewrite Hlo by lia. reflexivity.
        - apply escape_high. lia. }
      pose proof (escape_roomy cp' b). pose proof (escape_len cp' b).
      assert (depth st <= 3) by (cbn [In] in Hs; intuition subst; cbn [depth]; lia).
      replace (n + escape_room cp' (escape cp' b) <=? 512) with true by lia.
      rewrite E0. rewrite Ee in *.
      assert (Hn' : 0 <= (if 512 - (n + Z.of_nat (length (esc1 b))) <? 13 then 0 else n + Z.of_nat (length (esc1 b))) <= 499 + depth 0)
        by (cbn [depth]; destruct (_ <? _) eqn:?; lia).
      change (esc (b :: s)) with (esc1 b ++ esc s).
      destruct (IH 0 cp' _ Hb2 ltac:(cbn [In]; auto) I Hn') as [(R & D) | (R & D)]; rewrite D; [left | right]; auto.
    + destruct (Z.eqb_spec (next st b) 1) as [E1 | E1].
      * right. rewrite E1. split; [cbn [resid]; auto | reflexivity].
      * destruct (depth_step st b Hs E0 E1) as (D1 & D2). destruct (Hcp E1) as (Hcp1 & _).
        replace (n + 1 <=? 512) with true by lia.
        assert (Hin : In (next st b) [0; 2; 3; 4; 5; 6; 7; 8]) by (pose proof (next_in st b) as Q; cbn [In] in *; intuition congruence).
        assert (Hb128 : 128 <= b).
        { destruct (Z.ltb_spec b 128); [exfalso | lia]. unfold next in E0, E1.
          repeat match type of E0 with context [match ?x with _ => _ end] => destruct x eqn:? end; lia. }
        change (esc (b :: s)) with (esc1 b ++ esc s). unfold esc1. replace (b <? 128) with false by lia.
        destruct (IH (next st b) cp' (n + 1) Hb2 Hin Hcp1 ltac:(lia)) as [(R & D) | (R & D)]; rewrite D; [left | right]; auto.
Qed.

Lemma dump_escaped_ok s : is_bytes s ->
  (utf8 s /\ dump_escaped s = DOk (esc s)) \/ (~ utf8 s /\ dump_escaped s = DThrow).
Proof.
  intros H. apply (dump_esc_ok s 0 0 0 H); [cbn [In]; auto | exact I | cbn [depth]; lia].
Qed.

Lemma utf8_bytes s : utf8 s -> is_bytes s.
Proof. unfold is_bytes. induction 1; unfold tail in *; repeat constructor; try lia; assumption. Qed.

Lemma dump_escaped_utf8 s : utf8 s -> dump_escaped s = DOk (esc s).
Proof. intros H. destruct (dump_escaped_ok s (utf8_bytes s H)) as [(_ & D) | (N & _)]; [exact D | contradiction]. Qed.

(** ** The scanner *)
Lemma scan_esc1 c t : 0 <= c <= 127 -> scan_char (esc1 c ++ t) = SAdd [c] t.
Proof.
  intros H. pose proof (zrange_in 128 c ltac:(lia)) as I. revert I.
  change (zrange 128) with (map Z.of_nat (seq 0 128)). cbn [seq map Z.of_nat].
  intros I. cbn [In] in I. repeat (destruct I as [<- | I]; [vm_compute; reflexivity|]). contradiction.
Qed.

Ltac ifs := repeat match goal with |- context [if ?c then _ else _] => destruct c eqn:?; try lia end.

Lemma esc1_high b : 128 <= b -> esc1 b = [b].
Proof. intros H. unfold esc1. destruct (Z.ltb_spec b 128); [lia | reflexivity]. Qed.

Lemma esc_high b s : 128 <= b -> esc (b :: s) = b :: esc s.
Proof. intros H. cbn [esc flat_map]. rewrite esc1_high by assumption. reflexivity. Qed.

Lemma scan_string_esc s : utf8 s -> forall fuel acc r, (length (esc s) < fuel)%nat ->
  scan_string fuel acc (esc s ++ 34 :: r) = (TStr (acc ++ s), r).
Proof.
  induction 1; intros fuel acc r Hf; (destruct fuel as [|fuel]; [lia|]); unfold tail in *; cbn [scan_string].
  - rewrite app_nil_r. reflexivity.
  - change (esc (a :: s)) with (esc1 a ++ esc s) in *. rewrite <- app_assoc, scan_esc1 by assumption.
    rewrite app_length in Hf.
    assert (1 <= length (esc1 a))%nat by (unfold esc1, escape, u4; ifs; cbn [length]; lia).
    rewrite IHutf8 by lia. rewrite <- app_assoc. reflexivity.
  - rewrite !esc_high in * by lia. cbn [length] in Hf. cbn [app scan_char]. ifs. cbn [in_range app]. ifs.
    rewrite IHutf8 by lia. rewrite <- app_assoc. reflexivity.
  - rewrite !esc_high in * by lia. cbn [length] in Hf. cbn [app scan_char]. ifs. cbn [in_range app]. ifs.
    rewrite IHutf8 by lia. rewrite <- app_assoc. reflexivity.
  - rewrite !esc_high in * by lia. cbn [length] in Hf. cbn [app scan_char]. ifs. cbn [in_range app]. ifs.
    rewrite IHutf8 by lia. rewrite <- app_assoc. reflexivity.
  - rewrite !esc_high in * by lia. cbn [length] in Hf. cbn [app scan_char]. ifs. cbn [in_range app]. ifs.
    rewrite IHutf8 by lia. rewrite <- app_assoc. reflexivity.
  - rewrite !esc_high in * by lia. cbn [length] in Hf. cbn [app scan_char]. ifs. cbn [in_range app]. ifs.
    rewrite IHutf8 by lia. rewrite <- app_assoc. reflexivity.
  - rewrite !esc_high in * by lia. cbn [length] in Hf. cbn [app scan_char]. ifs. cbn [in_range app]. ifs.
    rewrite IHutf8 by lia. rewrite <- app_assoc. reflexivity.
  - rewrite !esc_high in * by lia. cbn [length] in Hf. cbn [app scan_char]. ifs. cbn [in_range app]. ifs.
    rewrite IHutf8 by lia. rewrite <- app_assoc. reflexivity.
Qed.

(** The text of a string holds no control character. *)
Lemma esc_printable s : utf8 s -> Forall (fun b => 32 <= b) (esc s).
Proof.
  intros H. apply utf8_bytes in H. induction H as [|b s Hb Hs IH]; [constructor|].
  change (esc (b :: s)) with (esc1 b ++ esc s). apply Forall_app. split; [|exact IH].
  unfold esc1. destruct (Z.ltb_spec b 128); [|repeat constructor; lia].
  pose proof (zrange_in 128 b ltac:(lia)) as I.
  assert (A : forallb (fun c => forallb (fun x => 32 <=? x) (escape c c)) (zrange 128) = true) by (vm_compute; reflexivity).
  rewrite forallb_forall in A. specialize (A b I). rewrite forallb_forall in A.
  apply Forall_forall. intros x Hx. specialize (A x Hx). lia.
Qed.

(** Plain names are written as they are. *)
Lemma esc_plain s : plain s -> esc s = s.
Proof.
  intros (_ & H). induction H as [|b s (H1 & H2 & H3) Hs IH]; [reflexivity|].
  change (esc (b :: s)) with (esc1 b ++ esc s). rewrite IH. unfold esc1, escape. ifs; reflexivity.
Qed.
