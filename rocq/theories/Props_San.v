(** C65: the pools in a build with AddressSanitizer. *)
From Verif Require Import Base BaseFacts HeapModel HeapFacts StratFacts AlignedModel AlignedFacts FixedPoolModel QuickPoolModel QuickPoolMain
  DynPoolModel DynPoolMain SanModel SanSpec SanFacts SanQuick SanDyn SanErase SanInst.

(** After any history of calls on a QuickPool over any parent that leaves alone the shadow of memory it has handed out,
    whatever others do below, every byte of every live allocation may be accessed: no false report. *)
Theorem C65_quick_live : forall W (P : Parent (W * shadow)) limP Inv, SanParent P limP Inv ->
  forall cfg fuel lim, qcfg_ok cfg limP -> lim + 2 * cf_align cfg <= limP ->
  forall U s w sh, zreach P cfg fuel lim Inv false U (s, (w, sh)) ->
  forall u a, In u U -> within u a -> poisoned sh a = false.
Proof. intros W P limP Inv SP cfg fuel lim CFG Hlim U s w sh. exact (fin_live P limP Inv SP cfg CFG fuel lim Hlim U s w sh). Qed.
Print Assumptions C65_quick_live.

Theorem C65_dyn_live : forall W (P : Parent (W * shadow)) limP Inv, SanParent P limP Inv ->
  forall cfg lim, dcfg_ok cfg limP -> lim + 2 * dc_align cfg <= limP ->
  forall U s w sh, yreach P cfg lim Inv false U (s, (w, sh)) ->
  forall u a, In u U -> within u a -> poisoned sh a = false.
Proof. intros W P limP Inv SP cfg lim CFG Hlim U s w sh. exact (dfin_live P limP Inv SP cfg CFG lim Hlim U s w sh). Qed.
Print Assumptions C65_dyn_live.

(** With an alignment that is a multiple of eight, every byte the pool has from its parent and no client holds is
    poisoned: free memory, padding after the requested bytes and the slack spent on alignment.  [noting] writes down what
    the pool holds. *)
Theorem C65_quick_idle : forall W (P : Parent (W * shadow)) limP Inv, SanParent P limP Inv ->
  forall cfg fuel lim, qcfg_ok cfg limP -> lim + 2 * cf_align cfg <= limP -> cf_align cfg mod 8 = 0 ->
  forall touch U s w l sh, zreach (noting P) cfg fuel lim (noted Inv) touch U (s, ((w, l), sh)) ->
  covered U l /\ guarded sh U l.
Proof.
  intros W P limP Inv SP cfg fuel lim CFG Hlim H8 touch U s w l sh H.
  exact (note_guarded Inv w l sh U (fin_guarded (noting P) limP (noted Inv) (noting_ok P limP Inv SP) cfg CFG fuel lim Hlim touch U s (w, l) sh H8 H)).
Qed.
Print Assumptions C65_quick_idle.

Theorem C65_dyn_idle : forall W (P : Parent (W * shadow)) limP Inv, SanParent P limP Inv ->
  forall cfg lim, dcfg_ok cfg limP -> lim + 2 * dc_align cfg <= limP -> dc_align cfg mod 8 = 0 ->
  forall touch U s w l sh, yreach (noting P) cfg lim (noted Inv) touch U (s, ((w, l), sh)) ->
  covered U l /\ guarded sh U l.
Proof.
  intros W P limP Inv SP cfg lim CFG Hlim H8 touch U s w l sh H.
  exact (note_guarded Inv w l sh U (dfin_guarded (noting P) limP (noted Inv) (noting_ok P limP Inv SP) cfg CFG lim Hlim touch U s (w, l) sh H8 H)).
Qed.
Print Assumptions C65_dyn_idle.

(** Hence a use after [deallocate] is reported as long as the pool keeps the memory. *)
Theorem C65_quick_use_after_free : forall W (P : Parent (W * shadow)) limP Inv, SanParent P limP Inv ->
  forall cfg fuel lim, qcfg_ok cfg limP -> lim + 2 * cf_align cfg <= limP -> cf_align cfg mod 8 = 0 ->
  forall touch U U' s w p n s' w' l' sh', zreach (noting P) cfg fuel lim (noted Inv) touch U (s, w) ->
  Permutation U ((p, n) :: U') -> z_deallocate (noting P) true cfg fuel p (s, w) = Ok (s', ((w', l'), sh')) tt ->
  forall a, within (p, n) a -> (exists r, In r l' /\ described r a) -> poisoned sh' a = true.
Proof.
  intros W P limP Inv SP cfg fuel lim CFG Hlim H8 touch U U' s [wl sh] p n s' w' l' sh' H HP E a.
  refine (freed_flagged sh' U U' p n l' a (fin_good _ _ _ (noting_ok P limP Inv SP) cfg CFG fuel lim Hlim touch U s wl sh H) HP _).
  exact (proj2 (C65_quick_idle W P limP Inv SP cfg fuel lim CFG Hlim H8 touch U' s' w' l' sh'
                 (zr_step _ _ _ _ _ _ _ _ _ _ H (zs_free _ _ _ _ _ _ _ _ _ _ _ _ HP E)))).
Qed.
Print Assumptions C65_quick_use_after_free.

(** No call disturbs the live allocations of others: no byte of them becomes poisoned, and with an alignment that is a
    multiple of eight none changes state at all (a client may have poisoned parts of its own memory). *)
Theorem C65_quick_undisturbed : forall W (P : Parent (W * shadow)) limP Inv, SanParent P limP Inv ->
  forall cfg fuel lim, qcfg_ok cfg limP -> lim + 2 * cf_align cfg <= limP ->
  forall touch U s w sh s' w' sh', zreach P cfg fuel lim Inv touch U (s, (w, sh)) ->
  (forall n p, 0 < n <= lim -> z_allocate P true cfg n (s, (w, sh)) = Ok (s', (w', sh')) p ->
     undisturbed (cf_align cfg) U sh sh' /\ forall a, within (p, n) a -> poisoned sh' a = false) /\
  (forall n e, 0 < n <= lim -> z_allocate P true cfg n (s, (w, sh)) = Throw (s', (w', sh')) e -> undisturbed (cf_align cfg) U sh sh') /\
  (forall p n U', Permutation U ((p, n) :: U') -> z_deallocate P true cfg fuel p (s, (w, sh)) = Ok (s', (w', sh')) tt ->
     undisturbed (cf_align cfg) U' sh sh') /\
  (z_release P true (s, (w, sh)) = Ok (s', (w', sh')) tt -> undisturbed (cf_align cfg) U sh sh') /\
  (z_coalesce P true cfg fuel (s, (w, sh)) = Ok (s', (w', sh')) tt -> undisturbed (cf_align cfg) U sh sh').
Proof.
  intros W P limP Inv SP cfg fuel lim CFG Hlim touch U s w sh s' w' sh' H.
  pose proof (fin_other P limP Inv SP cfg CFG fuel lim Hlim touch U s w sh s' w' sh' H) as HO.
  split; [|split; [|split; [|split]]].
  - intros n p. exact (fin_alloc P limP Inv SP cfg CFG fuel lim Hlim touch U s w sh n s' w' sh' p H).
  - intros n e Hn E. apply HO. left. exists n, e. auto.
  - intros p n U'. exact (fin_free P limP Inv SP cfg CFG fuel lim Hlim touch U U' s w sh s' w' sh' p n H).
  - intros E. apply HO. auto.
  - intros E. apply HO. auto.
Qed.
Print Assumptions C65_quick_undisturbed.

Theorem C65_dyn_undisturbed : forall W (P : Parent (W * shadow)) limP Inv, SanParent P limP Inv ->
  forall cfg lim, dcfg_ok cfg limP -> lim + 2 * dc_align cfg <= limP ->
  forall touch U s w sh s' w' sh' cur, yreach P cfg lim Inv touch U (s, (w, sh)) ->
  (forall n p, 0 < n <= lim -> y_allocate P true cfg n (s, (w, sh)) = Ok (s', (w', sh')) p ->
     undisturbed (dc_align cfg) U sh sh' /\ forall a, within (p, n) a -> poisoned sh' a = false) /\
  (forall n e, 0 < n <= lim -> y_allocate P true cfg n (s, (w, sh)) = Throw (s', (w', sh')) e -> undisturbed (dc_align cfg) U sh sh') /\
  (forall p n U', Permutation U ((p, n) :: U') ->
     y_deallocate P true cfg cur p (s, (w, sh)) = Ok (s', (w', sh')) tt \/
     (exists e, y_deallocate P true cfg cur p (s, (w, sh)) = Throw (s', (w', sh')) e) ->
     undisturbed (dc_align cfg) U' sh sh') /\
  (y_release P true (s, (w, sh)) = Ok (s', (w', sh')) tt -> undisturbed (dc_align cfg) U sh sh') /\
  (y_coalesce P true cfg cur (s, (w, sh)) = Ok (s', (w', sh')) tt -> undisturbed (dc_align cfg) U sh sh').
Proof.
  intros W P limP Inv SP cfg lim CFG Hlim touch U s w sh s' w' sh' cur H.
  pose proof (dfin_other P limP Inv SP cfg CFG lim Hlim touch U s w sh s' w' sh' cur H) as HO.
  split; [|split; [|split; [|split]]].
  - intros n p. exact (dfin_alloc P limP Inv SP cfg CFG lim Hlim touch U s w sh n s' w' sh' p H).
  - intros n e Hn E. apply HO. left. exists n, e. auto.
  - intros p n U'. exact (dfin_free P limP Inv SP cfg CFG lim Hlim touch U U' s w sh s' w' sh' cur p n H).
  - intros E. apply HO. auto.
  - intros E. apply HO. auto.
Qed.
Print Assumptions C65_dyn_undisturbed.

(** Towers: a sanitized QuickPool over such a parent is itself such a parent. *)
Theorem C65_tower : forall W (P : Parent (W * shadow)) limP Inv, SanParent P limP Inv ->
  forall cfg fuel lim, qcfg_ok cfg limP -> lim + 2 * cf_align cfg <= limP -> cf_align cfg mod 8 = 0 ->
  exists Inv', SanParent (z_parent P true cfg fuel) lim Inv' /\ forall w, Inv w [] -> Inv' (q_init, w) [].
Proof.
  intros W P limP Inv SP cfg fuel lim CFG Hlim H8. eexists. split.
  - exact (fin_parent P limP Inv SP cfg CFG fuel lim Hlim H8).
  - exact (fin_parent_init Inv cfg).
Qed.
Print Assumptions C65_tower.

(** Poisoning is invisible: with the shadow forgotten, a sanitized pool does exactly what the pool of an ordinary build
    does, outcome for outcome, over a parent that does not look at the shadow. *)
Theorem C65_quick_transparent : forall W (P : Parent (W * shadow)) P0 host, blind P P0 ->
  forall cfg fuel sw,
  (forall n, omap plain (fun p => p) (z_allocate P host cfg n sw) = q_allocate P0 cfg n (plain sw)) /\
  (forall p, omap plain (fun u => u) (z_deallocate P host cfg fuel p sw) = q_deallocate P0 cfg fuel p (plain sw)) /\
  omap plain (fun u => u) (z_release P host sw) = q_release P0 (plain sw) /\
  omap plain (fun u => u) (z_coalesce P host cfg fuel sw) = q_coalesce P0 cfg fuel (plain sw).
Proof.
  intros W P P0 host HB cfg fuel sw. split; [|split; [|split]].
  - intros n. exact (z_allocate_erase P P0 host HB cfg n sw).
  - intros p. exact (z_deallocate_erase P P0 host HB cfg fuel p sw).
  - exact (z_release_erase P P0 host HB sw).
  - exact (z_coalesce_erase P P0 host HB cfg fuel sw).
Qed.
Print Assumptions C65_quick_transparent.

Theorem C65_dyn_transparent : forall W (P : Parent (W * shadow)) P0 host, blind P P0 ->
  forall cfg cur sw,
  (forall n, omap plain (fun p => p) (y_allocate P host cfg n sw) = d_allocate P0 cfg n (plain sw)) /\
  (forall p, omap plain (fun u => u) (y_deallocate P host cfg cur p sw) = d_deallocate P0 cfg cur p (plain sw)) /\
  omap plain (fun u => u) (y_release P host sw) = d_release P0 (plain sw) /\
  omap plain (fun u => u) (y_coalesce P host cfg cur sw) = d_coalesce P0 cfg cur (plain sw).
Proof.
  intros W P P0 host HB cfg cur sw. split; [|split; [|split]].
  - intros n. exact (y_allocate_erase P P0 host HB cfg n sw).
  - intros p. exact (y_deallocate_erase P P0 host HB cfg cur p sw).
  - exact (y_release_erase P P0 host HB sw).
  - exact (y_coalesce_erase P P0 host HB cfg cur sw).
Qed.
Print Assumptions C65_dyn_transparent.

(** A pool whose parent is not on the host makes no sanitizer call at all. *)
Theorem C65_device : forall W (P : Parent (W * shadow)),
  (forall cfg n sw, z_allocate P false cfg n sw = q_allocate P cfg n sw) /\
  (forall cfg fuel p sw, z_deallocate P false cfg fuel p sw = q_deallocate P cfg fuel p sw) /\
  (forall sw, z_release P false sw = q_release P sw) /\
  (forall cfg fuel sw, z_coalesce P false cfg fuel sw = q_coalesce P cfg fuel sw) /\
  (forall cfg n sw, y_allocate P false cfg n sw = d_allocate P cfg n sw) /\
  (forall cfg cur p sw, y_deallocate P false cfg cur p sw = d_deallocate P cfg cur p sw) /\
  (forall sw, y_release P false sw = d_release P sw) /\
  (forall cfg cur sw, y_coalesce P false cfg cur sw = d_coalesce P cfg cur sw).
Proof.
  intros W P. exact (conj (z_allocate_dev P) (conj (z_deallocate_dev P) (conj (q_release_dev P) (conj (z_coalesce_dev P)
    (conj (y_allocate_dev P) (conj (y_deallocate_dev P) (conj (d_release_dev P) (y_coalesce_dev P)))))))).
Qed.
Print Assumptions C65_device.

(** Parents that meet the hypothesis: malloc under AddressSanitizer, and any parent that makes no sanitizer calls. *)
Theorem C65_parents : SanParent asan_host (M64 - 1) heap_own /\ blind asan_host host /\
  (forall W (P : Parent W) lim Inv, ParentSpec P lim Inv -> SanParent (inert P) lim Inv /\ blind (inert P) P).
Proof.
  split; [exact asan_host_ok|]. split; [exact asan_host_blind|].
  intros W P lim Inv H. exact (conj (inert_ok P lim Inv H) (inert_blind P)).
Qed.
Print Assumptions C65_parents.

(** A malloc that answers with 4096, 8192, ... in turn; all memory poisoned at first. *)
Definition san_orc : nat -> list region -> Z -> answer := fun k _ _ => Addr (4096 * (Z.of_nat k + 1)).
Definition san_h0 : heap := mkHeap san_orc 0 [] [].
Definition san_dark : shadow := fun _ => MAGIC.
Definition san_q (a : Z) : qcfg := mkCfg 100 64 a (fun v => if v_rel_blocks v <? 2 then 0 else v_actual v).
Definition san_d (a : Z) : dcfg := mkDcfg 100 64 a (fun _ v => if v_rel_blocks v <? 2 then 0 else v_actual v).

Lemma san_q_ok a : a = 4 \/ a = 16 -> qcfg_ok (san_q a) (M64 - 1).
Proof.
  intros Ha. constructor; cbn [san_q cf_align cf_first cf_next cf_heur]; try (unfold ASP, M64; lia).
  - destruct Ha as [-> | ->]; [exists 2|exists 4]; split; [lia|reflexivity|lia|reflexivity].
  - intros v H1 _. destruct (v_rel_blocks v <? 2); unfold ASP in *; lia.
Qed.

(** 13 bytes of a 16 byte chunk in a block of 100 bytes at 4096 + 16: the thirteen may be accessed; the byte after them,
    the rest of the block, the slack before it and, after [deallocate], all of it may not. *)
Example C65_scenario :
  qcfg_ok (san_q 16) (M64 - 1) /\ heap_own san_h0 [] /\
  match z_allocate asan_host true (san_q 16) 13 (q_init, (san_h0, san_dark)) with
  | Ok sw1 p => p = 4096 /\ map (poisoned (snd (snd sw1))) [4095; 4096; 4108; 4109; 4111; 4112; 4196; 4207] =
                            [true; false; false; true; true; true; true; true] /\
      match z_deallocate asan_host true (san_q 16) 1 p sw1 with
      | Ok sw2 _ => map (poisoned (snd (snd sw2))) [4096; 4108; 4109] = [true; true; true]
      | _ => False
      end
  | _ => False
  end /\
  match y_allocate asan_host true (san_d 16) 13 (d_init, (san_h0, san_dark)) with
  | Ok sw1 p => map (poisoned (snd (snd sw1))) [4096; 4108; 4109; 4112] = [false; false; true; true] /\
      match y_deallocate asan_host true (san_d 16) 0 p sw1 with
      | Ok sw2 _ => map (poisoned (snd (snd sw2))) [4096; 4108] = [true; true]
      | _ => False
      end
  | _ => False
  end.
Proof.
  split; [apply san_q_ok; auto|]. split; [split; [constructor|apply good_nil]|].
  vm_compute. repeat split.
Qed.

(** States the theorems speak of: one allocation live, one given back. *)
Example C65_reached :
  (exists sw, zreach asan_host (san_q 16) 1 (M64 - 33) heap_own false [(4112, 20)] sw) /\
  (exists sw, yreach asan_host (san_d 16) (M64 - 33) heap_own false [(4112, 20)] sw).
Proof.
  assert (H0 : heap_own san_h0 []) by (split; [constructor|apply good_nil]). split.
  - destruct (z_allocate asan_host true (san_q 16) 13 (q_init, (san_h0, san_dark))) as [s1 p1|s1 e1| | |] eqn:E1; try (vm_compute in E1; discriminate).
    destruct (z_allocate asan_host true (san_q 16) 20 s1) as [s2 p2|s2 e2| | |] eqn:E2; try (vm_compute in E1; injection E1 as <- <-; vm_compute in E2; discriminate).
    destruct (z_deallocate asan_host true (san_q 16) 1 p1 s2) as [s3 []|s3 e3| | |] eqn:E3;
      try (vm_compute in E1; injection E1 as <- <-; vm_compute in E2; injection E2 as <- <-; vm_compute in E3; discriminate).
    exists s3. replace 4112 with p2 by (vm_compute in E1; injection E1 as <- <-; vm_compute in E2; injection E2 as <- <-; reflexivity).
    eapply zr_step; [eapply zr_step; [eapply zr_step; [apply (zr_init _ _ _ _ _ _ san_h0 san_dark H0)|]|]|].
    + apply (zs_alloc _ _ _ _ _ _ [] _ 13 _ _) with (2 := E1). unfold M64; lia.
    + apply (zs_alloc _ _ _ _ _ _ _ _ 20 _ _) with (2 := E2). unfold M64; lia.
    + apply (zs_free _ _ _ _ _ _ _ _ _ _ _ _ (perm_swap _ _ _) E3).
  - destruct (y_allocate asan_host true (san_d 16) 13 (d_init, (san_h0, san_dark))) as [s1 p1|s1 e1| | |] eqn:E1; try (vm_compute in E1; discriminate).
    destruct (y_allocate asan_host true (san_d 16) 20 s1) as [s2 p2|s2 e2| | |] eqn:E2; try (vm_compute in E1; injection E1 as <- <-; vm_compute in E2; discriminate).
    destruct (y_deallocate asan_host true (san_d 16) 0 p1 s2) as [s3 []|s3 e3| | |] eqn:E3;
      try (vm_compute in E1; injection E1 as <- <-; vm_compute in E2; injection E2 as <- <-; vm_compute in E3; discriminate).
    exists s3. replace 4112 with p2 by (vm_compute in E1; injection E1 as <- <-; vm_compute in E2; injection E2 as <- <-; reflexivity).
    eapply yr_step; [eapply yr_step; [eapply yr_step; [apply (yr_init _ _ _ _ _ san_h0 san_dark H0)|]|]|].
    + eapply ys_alloc; [|exact E1]. unfold M64; lia.
    + eapply ys_alloc; [|exact E2]. unfold M64; lia.
    + eapply ys_free; [apply perm_swap|exact E3].
Qed.

(** "A use after deallocate is reported" is false of an alignment below eight: the allocations of four bytes share a
    group, and AddressSanitizer cannot poison its first half only. *)
Theorem C65_small_alignment_refuted :
  qcfg_ok (san_q 4) (M64 - 1) /\ SanParent asan_host (M64 - 1) heap_own /\
  match (let* (sw1, p) := z_allocate asan_host true (san_q 4) 4 (q_init, (san_h0, san_dark)) in
         let* (sw2, q) := z_allocate asan_host true (san_q 4) 4 sw1 in
         let* (sw3, _u) := z_deallocate asan_host true (san_q 4) 1 p sw2 in Ok sw3 (p, q)) with
  | Ok sw (p, q) => p = 4096 /\ q = 4100 /\ map (poisoned (snd (snd sw))) [p; p + 1; p + 2; p + 3] = [false; false; false; false]
  | _ => False
  end.
Proof. split; [apply san_q_ok; auto|]. split; [exact asan_host_ok|]. vm_compute. auto. Qed.
Print Assumptions C65_small_alignment_refuted.

(** "Memory a strategy hands out may be accessed" is false of a FixedPool that a QuickPool has used: the QuickPool
    returns its block poisoned ([aligned_deallocate] makes no call), and the FixedPool, which makes none either, hands
    it to its next client as it is. *)
Definition san_fixed : Parent (fixedp * heap) :=
  mkParent (fx_allocate 128 4 4 heap host) (fun p n sw => fx_deallocate 128 4 heap host 0 p n sw).
Theorem C65_returned_poisoned_refuted :
  match fx_init 128 4 heap host san_h0 with
  | Ok h f =>
      match (let* (sw1, p) := z_allocate (inert san_fixed) true (san_q 16) 13 (q_init, ((f, h), fun _ => 0)) in
             let* (sw2, _u) := z_deallocate (inert san_fixed) true (san_q 16) 1 p sw1 in
             z_release (inert san_fixed) true sw2) with
      | Ok sw _ =>
          match p_alloc san_fixed 128 (fst (snd sw)) with
          | Ok _ q => q = 4096 /\ poisoned (snd (snd sw)) q = true
          | _ => False
          end
      | _ => False
      end
  | _ => False
  end.
Proof. vm_compute. auto. Qed.
Print Assumptions C65_returned_poisoned_refuted.
