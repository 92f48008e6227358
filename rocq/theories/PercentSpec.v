(** What the percentage of a coalescing heuristic means. *)
From Coq Require Import Floats.SpecFloat.
From Verif Require Import Base QuickPoolModel DynPoolModel PercentModel.

(** At least, or less than, [p] percent of the memory of a pool is releasable, with the tolerance that single precision allows:
    one part in 2^22, and a byte. *)
Definition clearly_enough (p : Z) (v : qview) : Prop := p * (2 ^ 22 + 1) * v_actual v <= 100 * 2 ^ 22 * v_releasable v.
Definition clearly_less (p : Z) (v : qview) : Prop := 100 * 2 ^ 22 * (v_releasable v + 1) <= p * (2 ^ 22 - 1) * v_actual v.
Definition sizes_ok (v : qview) : Prop := 0 <= v_actual v < M64 /\ 0 <= v_releasable v.

(** [x] is [n / d] but for a relative error of [2^-24]. *)
Definition within (n d : Z) (x : float) : Prop := Z.abs (f_num x * d - n * f_den x) * 2 ^ 24 <= n * f_den x.

(** The same computation with the floating-point numbers of Coq's library. *)
Definition sf_of (n : Z) : spec_float := binary_normalize 24 128 n 0 false.
Definition sf_trunc (x : spec_float) : Z :=
  match x with S754_finite false m e => if e <? 0 then Zpos m / 2 ^ (- e) else Zpos m * 2 ^ e | _ => 0 end.
Definition sf_threshold (p actual : Z) : Z :=
  sf_trunc (SFmul 24 128 (SFdiv 24 128 (sf_of p) (sf_of 100)) (sf_of actual)).
