(** C83: what the counters of an allocator say when other allocators are built on it.  Histories: [ghist]
    (GlobalSpec.v), any collection of allocators over HOST (number 0) and any calls, failing ones included.
    [m_current_size] and [m_allocation_count] are [st_cur] and [st_cnt]. *)
From Coq Require Import String.
From Verif Require Import Base BaseFacts HeapModel StratModel StratSpec NamingModel QuickPoolModel QuickPoolMain QuickPoolRun QuickPoolThms4 GlobalModel
  GlobalSpec GlobalRun TreeModel TreeSpec TreeFacts.

(** C83: there are blocks [B j] that strategy [j] holds from its parent, enclosing all that is out of [j],
    such that the counters of every allocator say what is out of it, to the program and to the strategies
    built on it, together with requests it refused to such strategies.  For HOST what is out is what
    [malloc] gave, and the refused requests are among those [malloc] turned down.
    Missing: that refused requests are not counted, which is false (below and C05_failed_creation_refuted). *)
Theorem C83_counts_partial :
  forall C w X, ghist C w X ->
  exists B,
    Permutation (h_live (gheap C w)) (out C X B 0) /\
    (forall i, (i <= length C)%nat -> good (out C X B i)) /\
    (forall i r, (1 <= i <= length C)%nat -> In r (out C X B i) -> exists b, In b (B i) /\ inside r b) /\
    (exists F G, Permutation (h_refused (gheap C w)) (F ++ G) /\ counts (gstats C 0 w) (out C X B 0) F) /\
    forall i, (1 <= i <= length C)%nat ->
      exists F, (forall n, In n F -> 0 < n) /\ counts (gstats C i w) (out C X B i) F.
Proof. exact tree_counts. Qed.
Print Assumptions C83_counts_partial.

(** C83: as long as [malloc] has refused nothing, HOST says exactly what was taken from it and not given
    back, by the program and by all strategies. *)
Theorem C83_host :
  forall C w X, ghist C w X -> h_refused (gheap C w) = [] ->
  st_cur (gstats C 0 w) = total (map snd (h_live (gheap C w))) /\
  st_cnt (gstats C 0 w) = Z.of_nat (length (h_live (gheap C w))).
Proof. exact tree_host. Qed.
Print Assumptions C83_host.

Definition tview (o : option gstate) : option (list (list region) * list (Z * Z) * list region * list Z) :=
  match o with
  | Some (existT _ C (w, X)) =>
      let ids := seq 0 (S (length C)) in
      Some (map X ids, map (fun i => (st_cur (gstats C i w), st_cnt (gstats C i w))) ids, h_live (gheap C w), h_refused (gheap C w))
  | None => None
  end.

Lemma tview_hist l orc v : (forall c, In (GCreate c) l -> kind_heur_ok (nc_kind c)) -> tview (grun l (gstart orc)) = Some v ->
  exists C w X, ghist C w X /\
    v = (map X (seq 0 (S (length C))), map (fun i => (st_cur (gstats C i w), st_cnt (gstats C i w))) (seq 0 (S (length C))), h_live (gheap C w), h_refused (gheap C w)).
Proof.
  intros Hh E. destruct (grun l (gstart orc)) as [[C [w X]]|] eqn:Eg; [|discriminate].
  pose proof (grun_hist l Hh _ _ Eg (gstart_hist orc)) as H. unfold gstate_hist in H. cbn [projT1 projT2 fst snd] in H.
  exists C, w, X. split; [exact H|]. cbn [tview] in E. now injection E as <-.
Qed.

(** A QuickPool (1) on HOST, an AlignedAllocator (2) on the pool and a SizeLimiter (3) on HOST. *)
Definition tree_calls : list gcall :=
  [GCreate (mkNode (KQuick (ex_cfg h_percent_0) 3) 0); GCreate (mkNode (KAligned 64) 1); GCreate (mkNode (KSizeLimiter 50) 0);
   GAlloc 0 24; GAlloc 1 100; GAlloc 2 10; GAlloc 3 40; GAlloc 3 20; GAlloc 1 8].

(** The hypotheses of C83_host hold: 24 + 128 + 112 + 40 + 80 bytes in five allocations.  (The SizeLimiter has
    refused 20 bytes.) *)
Example C83_case :
  tview (grun tree_calls (gstart bump)) =
    Some ([[(16, 24)]; [(368, 8); (48, 100)]; [(256, 10)]; [(320, 40)]],
          [(384, 5); (189, 3); (10, 1); (40, 1)],
          [(368, 80); (320, 40); (192, 112); (48, 128); (16, 24)], []) /\
  exists C w X, ghist C w X /\ h_refused (gheap C w) = [] /\ length (h_live (gheap C w)) = 5%nat.
Proof.
  split; [vm_compute; reflexivity|].
  destruct (tview_hist tree_calls bump
             ([[(16, 24)]; [(368, 8); (48, 100)]; [(256, 10)]; [(320, 40)]],
              [(384, 5); (189, 3); (10, 1); (40, 1)],
              [(368, 80); (320, 40); (192, 112); (48, 128); (16, 24)], [])) as (C & w & X & Hh & E).
  - intros c Hin. repeat (destruct Hin as [Hin|Hin]; [try discriminate Hin; injection Hin as <-; try exact I; apply heur_ok_all|]). destruct Hin.
  - vm_compute. reflexivity.
  - pose proof (f_equal snd E) as E2. pose proof (f_equal (fun v => snd (fst v)) E) as E1. cbn [fst snd] in E1, E2.
    exists C, w, X. split; [exact Hh|]. rewrite <- E1, <- E2. split; reflexivity.
Qed.

(** C83: a refused request stays counted although the pool that made it recovered and the program never
    saw a failure: a QuickPool asks HOST for a second block, is refused once, asks again and gets it
    (QuickPool.cpp:61-82).  Both requests of the program are served; two blocks are out of HOST, which
    counts three. *)
Theorem C83_recovered_refuted :
  exists C w X, ghist C w X /\ map snd (X 1%nat) = [100; 60] /\
    map snd (h_live (gheap C w)) = [128; 80] /\ st_cur (gstats C 0 w) = 336 /\ st_cnt (gstats C 0 w) = 3.
Proof.
  destruct (tview_hist [GCreate (mkNode (KQuick (ex_cfg h_percent_0) 3) 0); GAlloc 1 60; GAlloc 1 100] (bump_failing [1%nat])
             ([[]; [(112, 100); (16, 60)]], [(336, 3); (160, 2)], [(112, 128); (16, 80)], [128])) as (C & w & X & Hh & E).
  - intros c Hin. repeat (destruct Hin as [Hin|Hin]; [try discriminate Hin; injection Hin as <-; try exact I; apply heur_ok_all|]). destruct Hin.
  - vm_compute. reflexivity.
  - pose proof (f_equal (fun v => snd (fst v)) E) as E1. pose proof (f_equal (fun v => nth 0 (snd (fst (fst v))) (0, 0)) E) as E2.
    pose proof (f_equal (fun v => nth 1 (fst (fst (fst v))) []) E) as E3. pose proof (f_equal (fun v => length (fst (fst (fst v)))) E) as E4.
    cbn [fst snd nth length] in E1, E2, E3, E4. rewrite map_length, seq_length in E4. injection E4 as E4. rewrite <- E4 in E2, E3. cbn [seq map nth] in E2, E3.
    exists C, w, X. split; [exact Hh|]. rewrite <- E3, <- E1. injection E2 as E5 E6. split; [reflexivity|]. split; [reflexivity|]. split; symmetry; assumption.
Qed.
Print Assumptions C83_recovered_refuted.

(** C83: the parent of a NamingShim.  Its size only ever grows, by every request made through the shim,
    whether served or not and whether the memory has been given back or not; its count is right up to the
    refused requests.  (The shim does not pass on the size it is given, NamingShim.cpp:33-36.) *)
Theorem C83_shim :
  forall m_name W (f : string -> Z -> W -> outcome W Z) (g : Z -> Z -> W -> outcome W unit) asked gone s,
    shim_uses m_name f g asked gone s ->
    st_cur (fst (snd s)) = w64 (total asked) /\ st_cnt (fst (snd s)) = w64 (Z.of_nat (length asked) - Z.of_nat gone).
Proof. exact shim_counts. Qed.
Print Assumptions C83_shim.

(** C83: so after an allocation of any size has come and gone, HOST, with nothing taken from it, reports that
    many bytes in no allocation. *)
Theorem C83_shim_refuted :
  forall m_name n, 0 < n < ASP - 16 ->
  exists c st h, shim_uses m_name (fun _ => p_alloc host) (p_dealloc host) [n] 1 (c, (st, h)) /\
    h_live h = [] /\ h_refused h = [] /\ st_cur st = n /\ st_cnt st = 0.
Proof. exact shim_drift. Qed.
Print Assumptions C83_shim_refuted.

Example C83_shim_case :
  match shim_allocate "s" (fun _ => p_alloc host) 100 (0, (stats0, mkHeap bump 0 [] [])) with
  | Ok s p => p = 16 /\ match shim_deallocate (p_dealloc host) 16 100 s with
                        | Ok s' _ => fst (snd s') = mkStats 100 100 0 /\ h_live (snd (snd s')) = []
                        | _ => False
                        end
  | _ => False
  end.
Proof. vm_compute. auto. Qed.
