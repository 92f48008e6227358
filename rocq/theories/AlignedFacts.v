(** Arithmetic of the [AlignedAllocation] mixin. *)
From Verif Require Import Base BaseFacts AlignedModel.

(** A legal alignment: a power of two representable in [size_t]. *)
Definition pow2_align (A : Z) : Prop := exists k, 0 <= k < 62 /\ A = 2 ^ k.

Lemma pow2_align_pos A : pow2_align A -> 0 < A < 2 ^ 62.
Proof.
  intros (k & Hk & ->). split.
  - apply Z.pow_pos_nonneg; lia.
  - apply Z.pow_lt_mono_r; lia.
Qed.

Lemma w64_land y : w64 y = Z.land y (Z.ones 64).
Proof. unfold w64, M64. rewrite Z.land_ones by lia. reflexivity. Qed.

Lemma align_mask_land k x :
  0 <= k < 64 -> 0 <= x < M64 ->
  Z.land x (align_mask (2 ^ k)) = x - x mod 2 ^ k.
Proof.
  intros Hk Hx. unfold align_mask.
  assert (E : 2 ^ k - 1 = Z.ones k) by (rewrite Z.ones_equiv; lia).
  rewrite E, w64_land.
  rewrite (Z.land_comm (Z.lnot _)), Z.land_assoc.
  rewrite <- (w64_land x), w64_small by exact Hx.
  rewrite <- Z.ldiff_land, Z.ldiff_ones_r by lia.
  rewrite Z.shiftr_div_pow2, Z.shiftl_mul_pow2 by lia.
  pose proof (Z.pow_pos_nonneg 2 k ltac:(lia) ltac:(lia)) as Hp.
  pose proof (Z.div_mod x (2 ^ k) ltac:(lia)). lia.
Qed.

(** The aligned pointer is the least multiple of [A] not below [ptr]. *)
Lemma align_up_spec A ptr :
  pow2_align A -> 0 <= ptr -> ptr + A <= M64 ->
  let r := align_up A ptr in
  ptr <= r < ptr + A /\ r mod A = 0.
Proof.
  intros HA Hp Hb. pose proof (pow2_align_pos A HA) as HAp.
  destruct HA as (k & Hk & ->). cbv zeta. unfold align_up.
  rewrite w64_small by lia. rewrite align_mask_land by lia.
  pose proof (Z.mod_pos_bound (ptr + (2 ^ k - 1)) (2 ^ k) ltac:(lia)) as Hm.
  split; [lia|].
  rewrite Zminus_mod, Zmod_mod, <- Zminus_mod, Z.sub_diag. apply Z.mod_0_l; lia.
Qed.

(** When nothing wraps, the rounded size is the least multiple of [A] not
    below [n]. *)
Lemma aligned_round_up_spec A n :
  0 < A -> 0 < n -> n + A <= M64 ->
  let r := aligned_round_up A n in
  n <= r < n + A /\ r mod A = 0.
Proof.
  intros HA Hn Hb. cbv zeta. unfold aligned_round_up.
  rewrite (w64_small (n + (A - 1))) by lia.
  rewrite (w64_small (n - 1)) by lia.
  pose proof (Z.mod_pos_bound (n - 1) A ltac:(lia)) as Hm.
  pose proof (Z.div_mod (n - 1) A ltac:(lia)) as Hd.
  rewrite w64_small by lia.
  split; [lia|].
  replace (n + (A - 1) - (n - 1) mod A) with (((n - 1) / A + 1) * A) by lia.
  apply Z.mod_mul; lia.
Qed.

Lemma mod0_add A a b : 0 < A -> a mod A = 0 -> b mod A = 0 -> (a + b) mod A = 0.
Proof.
  intros HA Ha Hb. rewrite Z.add_mod, Ha, Hb by lia. apply Z.mod_0_l; lia.
Qed.

Lemma mod0_sub A a b : 0 < A -> a mod A = 0 -> b mod A = 0 -> (a - b) mod A = 0.
Proof.
  intros HA Ha Hb. rewrite Zminus_mod, Ha, Hb. apply Z.mod_0_l; lia.
Qed.
