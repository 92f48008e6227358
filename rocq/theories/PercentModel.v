(** The percentages of the coalescing heuristics: percent_releasable and percent_releasable_hwm of QuickPool
    (src/umpire/strategy/QuickPool.cpp:361-403) and DynamicPoolList (DynamicPoolList.cpp:153-195), with the arithmetic in [float]
    (IEEE 754 binary32, round to nearest even, no wider intermediate results). *)
From Verif Require Import Base QuickPoolModel DynPoolModel.

(** A number [f_man * 2 ^ f_exp] that is not negative.  No number here is too small or too large for the format. *)
Record float : Type := mkF { f_man : Z; f_exp : Z }.

(** [a / b] to the nearest integer, halves to the even one. *)
Definition nearest_even (a b : Z) : Z :=
  let q := a / b in
  let r := a mod b in
  if 2 * r <? b then q else if b <? 2 * r then q + 1 else if Z.even q then q else q + 1.

(** The exponent [e] with [2^23 <= n / d / 2^e < 2^24]. *)
Definition exponent (n d : Z) : Z :=
  let k := Z.log2 n - Z.log2 d in
  (if n * 2 ^ (Z.max 0 (- k)) <? d * 2 ^ (Z.max 0 k) then k - 1 else k) - 23.

(** The float nearest to [n / d], [0 <= n], [0 < d]. *)
Definition round_quot (n d : Z) : float :=
  if n =? 0 then mkF 0 0
  else let e := exponent n d in mkF (nearest_even (n * 2 ^ (Z.max 0 (- e))) (d * 2 ^ (Z.max 0 e))) e.

Definition f_num (x : float) : Z := f_man x * 2 ^ (Z.max 0 (f_exp x)).
Definition f_den (x : float) : Z := 2 ^ (Z.max 0 (- f_exp x)).

(** Conversion from an integer, quotient, product, conversion to size_t. *)
Definition f_of (n : Z) : float := round_quot n 1.
Definition f_div (x y : float) : float := round_quot (f_num x * f_den y) (f_den x * f_num y).
Definition f_mul (x y : float) : float := round_quot (f_num x * f_num y) (f_den x * f_den y).
Definition f_trunc (x : float) : Z := f_num x / f_den x.

(** QuickPool.cpp:374-377 (396-399, DynamicPoolList.cpp:165-168, 188-191) *)
Definition fraction (p : Z) : float := f_div (f_of p) (f_of 100).
Definition threshold (p actual : Z) : Z := f_trunc (f_mul (fraction p) (f_of actual)).

(** QuickPool.cpp:361-381; [None]: throws. *)
Definition percent_releasable (p : Z) : option (qview -> Z) :=
  if (p <? 0) || (100 <? p) then None
  else Some (if p =? 0 then h_percent_0 else if p =? 100 then h_percent_100 else h_percent (threshold p)).
(** 383-403 *)
Definition percent_releasable_hwm (p : Z) : option (qview -> Z) :=
  if (p <? 0) || (100 <? p) then None
  else Some (if p =? 0 then h_percent_0 else if p =? 100 then h_percent_100_hwm else h_percent_hwm (threshold p)).

(** DynamicPoolList.cpp:153-172 *)
Definition d_percent_releasable (p : Z) : option (Z -> qview -> Z) :=
  if (p <? 0) || (100 <? p) then None
  else Some (if p =? 0 then dh_percent_0 else if p =? 100 then dh_percent_100 else dh_percent (threshold p)).
(** 174-195 *)
Definition d_percent_releasable_hwm (p : Z) : option (Z -> qview -> Z) :=
  if (p <? 0) || (100 <? p) then None
  else Some (if p =? 0 then dh_percent_0 else if p =? 100 then dh_percent_100_hwm else dh_percent_hwm (threshold p)).
