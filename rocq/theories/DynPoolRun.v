(** Running concrete call sequences on a DynamicPoolList over malloc, used for the worked examples. *)
From Verif Require Import Base BaseFacts AlignedModel AlignedFacts HeapModel HeapFacts QuickPoolModel QuickPoolSpec QuickPoolRun DynPoolModel
  DynPoolSpec DynPoolMain.

(** Live allocations, pool over malloc, earlier pool states, and how many deallocations threw. *)
Definition dstate : Type := (list region * (dpool * heap) * list dpool * nat)%type.

Section Run.
  Context (cfg : dcfg).
  Definition dcstep (c : call) (st : dstate) : option dstate :=
    let '(U, sw, H, k) := st in
    match c with
    | CAlloc n =>
        if (0 <? n) && (n <=? M64 - 1 - 2 * dc_align cfg) then
          match d_allocate host cfg n sw with
          | Ok sw' p => Some ((p, n) :: U, sw', fst sw' :: H, k)
          | Throw sw' _ => Some (U, sw', fst sw' :: H, k)
          | _ => None
          end
        else None
    | CFree p =>
        match take_block p U with
        | None => None
        | Some (_, U') =>
            match d_deallocate host cfg (sum_over snd U') p sw with
            | Ok sw' _ => Some (U', sw', fst sw' :: H, k)
            | Throw sw' _ => Some (U', sw', fst sw' :: H, S k)
            | _ => None
            end
        end
    | CRelease =>
        match d_release host sw with
        | Ok sw' _ => Some (U, sw', fst sw' :: H, k)
        | _ => None
        end
    | CCoalesce =>
        match d_coalesce host cfg (sum_over snd U) sw with
        | Ok sw' _ => Some (U, sw', fst sw' :: H, k)
        | _ => None
        end
    end.
  Fixpoint dcrun (l : list call) (st : dstate) : option dstate :=
    match l with
    | [] => Some st
    | c :: t => match dcstep c st with None => None | Some st' => dcrun t st' end
    end.
  Definition dcinit (orc : nat -> list region -> Z -> answer) : dstate := ([], (d_init, mkHeap orc 0 [] []), [d_init], O).

  Lemma dcstep_dstep (Inv : heap -> list region -> Prop) c U sw H k U' sw' H' k' :
    dcstep c (U, sw, H, k) = Some (U', sw', H', k') ->
    dstep host cfg (M64 - 1 - 2 * dc_align cfg) Inv (U, sw) (U', sw') /\ H' = fst sw' :: H.
  Proof.
    destruct c as [n|p| |]; cbn [dcstep].
    - destruct (Z.ltb_spec 0 n), (Z.leb_spec n (M64 - 1 - 2 * dc_align cfg)); cbn [andb]; try discriminate.
      destruct (d_allocate host cfg n sw) as [sw1 p|sw1 e| | |] eqn:E; try discriminate; intros X; injection X as <- <- <- <-; (split; [|reflexivity]).
      + eapply ds_alloc; [lia|exact E].
      + eapply ds_alloc_fail; [|exact E]; lia.
    - destruct (take_block p U) as [[n U1]|] eqn:Et; [|discriminate]. apply take_block_some in Et.
      destruct (d_deallocate host cfg _ p sw) as [sw1 []|sw1 e| | |] eqn:E; try discriminate; intros X; injection X as <- <- <- <-; (split; [|reflexivity]).
      + eapply ds_free; eauto.
      + eapply ds_free_throw; eauto.
    - destruct (d_release host sw) as [sw1 []|sw1 e| | |] eqn:E; try discriminate; intros X; injection X as <- <- <- <-; (split; [|reflexivity]).
      eapply ds_release; eauto.
    - destruct (d_coalesce host cfg _ sw) as [sw1 []|sw1 e| | |] eqn:E; try discriminate; intros X; injection X as <- <- <- <-; (split; [|reflexivity]).
      eapply ds_coalesce; eauto.
  Qed.

  Lemma dcrun_reaches (Inv : heap -> list region -> Prop) orc l U sw H k :
    Inv (mkHeap orc 0 [] []) [] -> dcrun l (dcinit orc) = Some (U, sw, H, k) ->
    dhist host cfg (M64 - 1 - 2 * dc_align cfg) Inv U sw H.
  Proof.
    intros Hi. assert (G : forall l U sw H k U' sw' H' k', dcrun l (U, sw, H, k) = Some (U', sw', H', k') ->
      dhist host cfg (M64 - 1 - 2 * dc_align cfg) Inv U sw H -> dhist host cfg (M64 - 1 - 2 * dc_align cfg) Inv U' sw' H').
    { clear. induction l as [|c l IH]; intros U sw H k U' sw' H' k' E Hh; cbn [dcrun] in E.
      - injection E as <- <- <- <-. exact Hh.
      - destruct (dcstep c (U, sw, H, k)) as [[[[U1 sw1] H1] k1]|] eqn:Es; [|discriminate].
        destruct (dcstep_dstep Inv _ _ _ _ _ _ _ _ _ Es) as [Hs ->]. eapply IH; [exact E|]. eapply dhist_step; eauto. }
    intros E. eapply G; [exact E|]. now apply dhist_init.
  Qed.
End Run.

Definition dobs (o : option dstate) :=
  match o with None => None | Some (U, sw, H, k) => Some (U, d_view (fst sw), h_live (snd sw), k) end.

Definition dex (a : Z) (h : Z -> qview -> Z) : dcfg := mkDcfg 64 64 a h.

Lemma dex_ok h : dheur_ok h -> dcfg_ok (dex 16 h) (M64 - 1).
Proof.
  intros Hh. constructor; cbn [dex dc_align dc_first dc_next dc_heur]; auto; try (unfold M64, ASP; lia).
  exists 4. split; [lia|reflexivity].
Qed.

Lemma dheur_ok_all : dheur_ok dh_percent_0 /\ dheur_ok dh_percent_100 /\ dheur_ok dh_percent_100_hwm /\
  (forall n, dheur_ok (dh_blocks_releasable n)) /\ (forall n, dheur_ok (dh_blocks_releasable_hwm n)) /\
  (forall t, dheur_ok (dh_percent t)) /\ (forall t, dheur_ok (dh_percent_hwm t)).
Proof.
  assert (0 < ASP) by (unfold ASP; lia).
  repeat (match goal with |- _ /\ _ => split end); intros; unfold dheur_ok, dh_percent_0, dh_percent_100, dh_percent_100_hwm,
    dh_blocks_releasable, dh_blocks_releasable_hwm, dh_percent, dh_percent_hwm; intros;
    try match goal with |- context [if ?b then _ else _] => destruct b end; lia.
Qed.
