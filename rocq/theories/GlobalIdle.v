(** Release and coalesce of allocators that are no pools. *)
From Verif Require Import Base BaseFacts HeapModel StratModel WrapModel QuickPoolModel QuickPoolStrat FixedPoolModel MixedPoolModel DynPoolModel GlobalModel GlobalSpec.

(** Which allocators keep memory that they can give back, and which can be coalesced. *)
Definition gives_back (k : option kind) : Prop :=
  match k with Some (KQuick _ _) | Some (KFixed _ _ _) | Some (KDynamic _) | Some (KDynamicKeep _ _ _) => True | _ => False end.
Definition coalesces (k : option kind) : Prop :=
  match k with Some (KQuick _ _) | Some (KDynamic _) | Some (KDynamicKeep _ _ _) => True | _ => False end.

Lemma kind_at_newest c C : kind_at (c :: C) (S (length C)) = Some (nc_kind c).
Proof. cbn [kind_at rev]. rewrite nth_error_app2; rewrite rev_length; [|lia]. rewrite Nat.sub_diag. reflexivity. Qed.
Lemma kind_at_older c C i : i <> S (length C) -> (i <= S (length C))%nat -> kind_at (c :: C) i = kind_at C i.
Proof. intros H1 H2. destruct i as [|i]; [reflexivity|]. cbn [kind_at rev]. rewrite nth_error_app1; [reflexivity|]. rewrite rev_length. lia. Qed.

Lemma release_idle C : forall i w, (i <= length C)%nat -> ~ gives_back (kind_at C i) -> grelease C i w = Ok w tt.
Proof.
  induction C as [|c C IH]; intros i w Hi H; [reflexivity|]. cbn [grelease length] in *. destruct w as [[s x] w].
  destruct (Nat.eqb_spec i (S (length C))) as [E|E].
  - subst i. rewrite kind_at_newest in H. destruct c as [k par]. cbn [nc_kind nc_parent] in *.
    destruct k; try (exfalso; apply H; exact I); reflexivity.
  - rewrite (kind_at_older c C i E Hi) in H. cbn [snd fst]. rewrite IH; [reflexivity|lia|exact H].
Qed.

Lemma coalesce_idle C : forall i w, (i <= length C)%nat -> ~ coalesces (kind_at C i) -> gcoalesce C i w = Throw w RuntimeError.
Proof.
  induction C as [|c C IH]; intros i w Hi H; [reflexivity|]. cbn [gcoalesce length] in *. destruct w as [[s x] w].
  destruct (Nat.eqb_spec i (S (length C))) as [E|E].
  - subst i. rewrite kind_at_newest in H. destruct c as [k par]. cbn [nc_kind nc_parent] in *.
    destruct k; try (exfalso; apply H; exact I); reflexivity.
  - rewrite (kind_at_older c C i E Hi) in H. cbn [snd fst]. rewrite IH; [reflexivity|lia|exact H].
Qed.
