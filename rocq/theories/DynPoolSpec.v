(** Histories of calls on one DynamicPoolList.  The arithmetic vocabulary ([pool_obs], [gap], [idle] ...) is the one
    of QuickPoolSpec.v. *)
From Verif Require Import Base AlignedModel QuickPoolModel QuickPoolSpec DynPoolModel.

Section History.
  Context {W : Type} (P : Parent W) (cfg : dcfg) (lim : Z) (Inv : W -> list region -> Prop).

  (** One call of a client; [U]: the allocations the client holds.  [cur] is whatever [getCurrentSize()] returns.
      A [deallocate] that throws has given the memory back all the same (its client must not use it any more). *)
  Inductive dstep : list region * dw -> list region * dw -> Prop :=
  | ds_alloc U sw n sw' p :
      0 < n <= lim -> d_allocate P cfg n sw = Ok sw' p -> dstep (U, sw) ((p, n) :: U, sw')
  | ds_alloc_fail U sw n sw' e :
      0 < n <= lim -> d_allocate P cfg n sw = Throw sw' e -> dstep (U, sw) (U, sw')
  | ds_free U U' sw cur p n sw' :
      Permutation U ((p, n) :: U') -> d_deallocate P cfg cur p sw = Ok sw' tt -> dstep (U, sw) (U', sw')
  | ds_free_throw U U' sw cur p n sw' e :
      Permutation U ((p, n) :: U') -> d_deallocate P cfg cur p sw = Throw sw' e -> dstep (U, sw) (U', sw')
  | ds_release U sw sw' :
      d_release P sw = Ok sw' tt -> dstep (U, sw) (U, sw')
  | ds_coalesce U sw cur sw' :
      d_coalesce P cfg cur sw = Ok sw' tt -> dstep (U, sw) (U, sw')
  | ds_env U s w w' :
      (forall L, Inv w L -> Inv w' L) -> dstep (U, (s, w)) (U, (s, w')).

  Inductive dhist : list region -> dw -> list dpool -> Prop :=
  | dhist_init w : Inv w [] -> dhist [] (d_init, w) [d_init]
  | dhist_step U sw H U' sw' :
      dhist U sw H -> dstep (U, sw) (U', sw') -> dhist U' sw' (fst sw' :: H).

  Definition dreach (U : list region) (sw : dw) : Prop := exists H, dhist U sw H.
End History.
