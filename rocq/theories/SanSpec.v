(** Vocabulary for the sanitizer properties: which bytes belong to whom, what a parent may do to the shadow of memory it
    has handed out, and histories of calls on a pool in a sanitized build. *)
From Verif Require Import Base HeapModel AlignedModel QuickPoolModel DynPoolModel SanModel.

Definition within (r : region) (a : Z) : Prop := fst r <= a < fst r + snd r.

(** No byte of the regions changes state. *)
Definition sh_keeps (L : list region) (sh sh' : shadow) : Prop :=
  forall l a, In l L -> within l a -> poisoned sh' a = poisoned sh a.

(** A parent that meets the client contract and leaves alone the shadow of the memory its client holds. *)
Record SanParent {W : Type} (P : Parent (W * shadow)) (lim : Z) (Inv : W -> list region -> Prop) : Prop := mkSanParent {
  sp_spec : ParentSpec P lim (fun ws L => Inv (fst ws) L);
  sp_alloc : forall w sh L n, Inv w L -> 0 < n <= lim ->
    post (p_alloc P n (w, sh)) (fun ws _ => sh_keeps L sh (snd ws)) (fun ws _ => sh_keeps L sh (snd ws));
  sp_dealloc : forall w sh L p n, Inv w ((p, n) :: L) ->
    post (p_dealloc P p n (w, sh)) (fun ws _ => sh_keeps L sh (snd ws)) (fun _ _ => True)
}.

(** [a] is in memory the pool has from its parent (not in the last, incomplete, group of eight bytes of the region,
    which AddressSanitizer cannot describe when something follows in the same group). *)
Definition described (l : region) (a : Z) : Prop := fst l <= a /\ 8 * (a / 8) + 8 <= fst l + snd l.

(** Every byte that no client holds is poisoned. *)
Definition guarded (sh : shadow) (U L : list region) : Prop :=
  forall l a, In l L -> described l a -> (forall u, In u U -> ~ within u a) -> poisoned sh a = true.

(** Live bytes after a call: none is newly poisoned; with [A] a multiple of eight no state changes at all. *)
Definition undisturbed (A : Z) (U : list region) (sh sh' : shadow) : Prop :=
  forall u a, In u U -> within u a ->
    (poisoned sh' a = true -> poisoned sh a = true) /\ (A mod 8 = 0 -> poisoned sh' a = poisoned sh a).

Section Quick.
  Context {W : Type} (P : Parent (W * shadow)) (cfg : qcfg) (fuel : nat) (lim : Z) (Inv : W -> list region -> Prop).

  (** One step; [touch] says whether the clients change the shadow of their own memory (a pool on top of this one
      does).  [zs_env]: others act on the parent and on memory that is not the pool's. *)
  Inductive zstep (touch : bool) : list region * zq (W := W) -> list region * zq (W := W) -> Prop :=
  | zs_alloc U sw n sw' p :
      0 < n <= lim -> z_allocate P true cfg n sw = Ok sw' p -> zstep touch (U, sw) ((p, n) :: U, sw')
  | zs_alloc_fail U sw n sw' e :
      0 < n <= lim -> z_allocate P true cfg n sw = Throw sw' e -> zstep touch (U, sw) (U, sw')
  | zs_free U U' sw p n sw' :
      Permutation U ((p, n) :: U') -> z_deallocate P true cfg fuel p sw = Ok sw' tt -> zstep touch (U, sw) (U', sw')
  | zs_release U sw sw' :
      z_release P true sw = Ok sw' tt -> zstep touch (U, sw) (U, sw')
  | zs_coalesce U sw sw' :
      z_coalesce P true cfg fuel sw = Ok sw' tt -> zstep touch (U, sw) (U, sw')
  | zs_env U s w w' sh sh' :
      (forall L, Inv w L -> Inv w' L /\ sh_keeps L sh sh') -> zstep touch (U, (s, (w, sh))) (U, (s, (w', sh')))
  | zs_client U s w sh sh' :
      touch = true -> (forall a, (forall u, In u U -> ~ within u a) -> poisoned sh' a = poisoned sh a) ->
      zstep touch (U, (s, (w, sh))) (U, (s, (w, sh'))).

  Inductive zreach (touch : bool) : list region -> zq (W := W) -> Prop :=
  | zr_init w sh : Inv w [] -> zreach touch [] (q_init, (w, sh))
  | zr_step U sw U' sw' : zreach touch U sw -> zstep touch (U, sw) (U', sw') -> zreach touch U' sw'.
End Quick.

Section Dyn.
  Context {W : Type} (P : Parent (W * shadow)) (cfg : dcfg) (lim : Z) (Inv : W -> list region -> Prop).

  Inductive ystep (touch : bool) : list region * zd (W := W) -> list region * zd (W := W) -> Prop :=
  | ys_alloc U sw n sw' p :
      0 < n <= lim -> y_allocate P true cfg n sw = Ok sw' p -> ystep touch (U, sw) ((p, n) :: U, sw')
  | ys_alloc_fail U sw n sw' e :
      0 < n <= lim -> y_allocate P true cfg n sw = Throw sw' e -> ystep touch (U, sw) (U, sw')
  | ys_free U U' sw cur p n sw' :
      Permutation U ((p, n) :: U') -> y_deallocate P true cfg cur p sw = Ok sw' tt -> ystep touch (U, sw) (U', sw')
  | ys_free_throw U U' sw cur p n sw' e :
      Permutation U ((p, n) :: U') -> y_deallocate P true cfg cur p sw = Throw sw' e -> ystep touch (U, sw) (U', sw')
  | ys_release U sw sw' :
      y_release P true sw = Ok sw' tt -> ystep touch (U, sw) (U, sw')
  | ys_coalesce U sw cur sw' :
      y_coalesce P true cfg cur sw = Ok sw' tt -> ystep touch (U, sw) (U, sw')
  | ys_env U s w w' sh sh' :
      (forall L, Inv w L -> Inv w' L /\ sh_keeps L sh sh') -> ystep touch (U, (s, (w, sh))) (U, (s, (w', sh')))
  | ys_client U s w sh sh' :
      touch = true -> (forall a, (forall u, In u U -> ~ within u a) -> poisoned sh' a = poisoned sh a) ->
      ystep touch (U, (s, (w, sh))) (U, (s, (w, sh'))).

  Inductive yreach (touch : bool) : list region -> zd (W := W) -> Prop :=
  | yr_init w sh : Inv w [] -> yreach touch [] (d_init, (w, sh))
  | yr_step U sw U' sw' : yreach touch U sw -> ystep touch (U, sw) (U', sw') -> yreach touch U' sw'.
End Dyn.

(** [P] does to its own state what [P0] does, whatever the shadow is. *)
Definition blind {W : Type} (P : Parent (W * shadow)) (P0 : Parent W) : Prop :=
  (forall n w sh, omap fst (fun p => p) (p_alloc P n (w, sh)) = p_alloc P0 n w) /\
  (forall p n w sh, omap fst (fun u => u) (p_dealloc P p n (w, sh)) = p_dealloc P0 p n w).

(** The pool and what lies below it, the shadow forgotten. *)
Definition plain {S W : Type} (sw : S * (W * shadow)) : S * W := (fst sw, fst (snd sw)).

(** A parent that notes what its client holds. *)
Fixpoint forget (r : region) (l : list region) : list region :=
  match l with
  | [] => []
  | x :: t => if (fst x =? fst r) && (snd x =? snd r) then t else x :: forget r t
  end.
Definition noting {W : Type} (P : Parent (W * shadow)) : Parent ((W * list region) * shadow) :=
  mkParent
    (fun n x => match p_alloc P n (fst (fst x), snd x) with
                | Ok ws p => Ok ((fst ws, (p, n) :: snd (fst x)), snd ws) p
                | Throw ws e => Throw ((fst ws, snd (fst x)), snd ws) e
                | UB => UB | Abort => Abort | NoFuel => NoFuel
                end)
    (fun p n x => match p_dealloc P p n (fst (fst x), snd x) with
                  | Ok ws u => Ok ((fst ws, forget (p, n) (snd (fst x))), snd ws) u
                  | Throw ws e => Throw ((fst ws, snd (fst x)), snd ws) e
                  | UB => UB | Abort => Abort | NoFuel => NoFuel
                  end).
(** The note is right. *)
Definition noted {W : Type} (Inv : W -> list region -> Prop) (wl : W * list region) (L : list region) : Prop :=
  Inv (fst wl) L /\ Permutation (snd wl) L.

(** A parent that never looks at the shadow nor changes it. *)
Definition inert {W : Type} (P : Parent W) : Parent (W * shadow) :=
  mkParent (fun n ws => omap (fun w => (w, snd ws)) (fun p => p) (p_alloc P n (fst ws)))
           (fun p n ws => omap (fun w => (w, snd ws)) (fun u => u) (p_dealloc P p n (fst ws))).

(** malloc and free of a sanitized program: what malloc returns is addressable, what free gets is not.  (The size of
    the block is in its header; here the caller's is used, which under the client contract is the same.) *)
Definition asan_host : Parent (heap * shadow) :=
  mkParent (fun n ws => let* (w, p) := omap (fun w => (w, snd ws)) (fun p => p) (p_alloc host n (fst ws)) in
                        Ok (fst w, asan_unpoison p n (snd w)) p)
           (fun p n ws => let* (w, u) := omap (fun w => (w, snd ws)) (fun u => u) (p_dealloc host p n (fst ws)) in
                          Ok (fst w, asan_poison p n (snd w)) u).
