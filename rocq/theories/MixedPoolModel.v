(** Model of strategy::MixedPool (src/umpire/strategy/MixedPool.cpp).  The statistics of the inner pools
    ([allocate_internal]/[deallocate_internal] on them) are not modelled; nothing reads them. *)
From Verif Require Import Base StratModel QuickPoolModel QuickPoolStrat FixedPoolModel.

(** Constructor arguments (MixedPool.hpp:48-57). *)
Record mcfg : Type := mkMcfg {
  mc_small : Z;
  mc_large : Z;
  mc_max_initial : Z;
  mc_mult : Z;
  mc_quick : qcfg
}.

(** One entry of [m_fixed_pool_map] and [m_fixed_pool]. *)
Record mclass : Type := mkClass {
  cl_size : Z;
  cl_per : nat;
  cl_pool : fixedp
}.

(** MixedPool.hpp:70-75; in [mp_map] -1 stands for the quick pool. *)
Record mixedp : Type := mkMixed {
  mp_fixed : list mclass;
  mp_quick : qpool;
  mp_map : fmap Z
}.

Section MixedPool.
  Context (cfg : mcfg)
          (cfuel : nat)   (** bound on the constructor's loop *)
          (fuel : nat).   (** bound on recursion in the inner pools *)

  (** MixedPool.cpp:38-50.  64 * sizeof(int) * 8 = 2048.  A division by zero is undefined. *)
  Fixpoint mx_build (f : nat) (obj : Z) (acc : list mclass) {W : Type} (P : Parent W) (w : W)
    : outcome W (list mclass) :=
    match f with
    | O => NoFuel
    | S f' =>
        if obj <=? mc_large cfg then
          if obj =? 0 then UB
          else let per := Z.min 2048 (mc_max_initial cfg / obj) in
               if 1 <? per then
                 let* (w', s) := fx_init obj (Z.to_nat per) W P w in
                 mx_build f' (w64 (obj * mc_mult cfg)) (acc ++ [mkClass obj (Z.to_nat per) s]) P w'
               else Ok w acc
        else Ok w acc
    end.

  (** MixedPool.cpp:21-55, [noexcept]. *)
  Definition mx_init (W : Type) (P : Parent W) (w : W) : outcome W mixedp :=
    match mx_build cfuel (mc_small cfg) [] P w with
    | Ok w' l => Ok w' (mkMixed l q_init fempty)
    | Throw _ _ => Abort
    | UB => UB | Abort => Abort | NoFuel => NoFuel
    end.

  (** MixedPool.cpp:60-67: the number of size classes too small for the request. *)
  Fixpoint mx_index (bytes : Z) (l : list mclass) : nat :=
    match l with
    | [] => 0
    | c :: t => if cl_size c <? bytes then S (mx_index bytes t) else 0
    end.

  (** MixedPool.cpp:57-81. *)
  Definition mx_allocate (W : Type) (P : Parent W) (bytes : Z) (sw : mixedp * W) : outcome (mixedp * W) Z :=
    let '(s, w) := sw in
    let index := mx_index bytes (mp_fixed s) in
    match nth_error (mp_fixed s) index with
    | Some c =>
        let put fs := upd (fun c => mkClass (cl_size c) (cl_per c) fs) index (mp_fixed s) in
        match fx_allocate (cl_size c) (cl_per c) fuel W P (cl_size c) (cl_pool c, w) with
        | Ok (fs, w') mem => Ok (mkMixed (put fs) (mp_quick s) (fset (mp_map s) mem (Z.of_nat index)), w') mem
        | Throw (fs, w') e => Throw (mkMixed (put fs) (mp_quick s) (mp_map s), w') e
        | UB => UB | Abort => Abort | NoFuel => NoFuel
        end
    | None =>
        match q_allocate P (mc_quick cfg) bytes (mp_quick s, w) with
        | Ok (q, w') mem => Ok (mkMixed (mp_fixed s) q (fset (mp_map s) mem (-1)), w') mem
        | Throw (q, w') e => Throw (mkMixed (mp_fixed s) q (mp_map s), w') e
        | UB => UB | Abort => Abort | NoFuel => NoFuel
        end
    end.

  (** MixedPool.cpp:83-94. *)
  Definition mx_deallocate (W : Type) (P : Parent W) (_ : Z) (ptr size : Z) (sw : mixedp * W)
    : outcome (mixedp * W) unit :=
    let '(s, w) := sw in
    match mp_map s ptr with
    | None => Ok sw tt
    | Some index =>
        if index <? 0
        then omap (fun qw => (mkMixed (mp_fixed s) (fst qw) (mp_map s), snd qw)) (fun u => u)
                  (q_deallocate P (mc_quick cfg) fuel ptr (mp_quick s, w))
        else
          let i := Z.to_nat index in
          match nth_error (mp_fixed s) i with
          | None => UB
          | Some c =>
              omap (fun fw => (mkMixed (upd (fun c => mkClass (cl_size c) (cl_per c) (fst fw)) i (mp_fixed s))
                                       (mp_quick s) (mp_map s), snd fw)) (fun u => u)
                   (fx_deallocate (cl_size c) (cl_per c) W P 0 ptr size (cl_pool c, w))
          end
    end.

  (** MixedPool.cpp:101-108. *)
  Definition mx_actual_size (s : mixedp) : Z :=
    w64 (fold_right (fun c a => fx_actual_size (cl_pool c) + a) (q_actual (mp_quick s)) (mp_fixed s)).

  (** MixedPool.cpp:96-99: [release] does nothing; [coalesce] is not available
      (Umpire.cpp:289-307). *)
  Definition MixedPool : Strat := mkStrat mixedp mx_init mx_allocate mx_deallocate no_release no_coalesce.
End MixedPool.
