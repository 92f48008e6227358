(** Interleavings that end in a race.  The steps are those of the code for the calls named. *)
From Verif Require Import Base StratModel GlobalModel SystemModel RaceModel IsoSpec IsoFacts RaceSpec RaceFacts.

(** Two fixed pools over HOST (4, 5), each under a thread-safe allocator (6, 7). *)
Definition safes : list nodecfg := [mkNode KPassThrough 5; mkNode KPassThrough 4; mkNode (KFixed 64 1 2) 1; mkNode (KFixed 64 1 2) 1] ++ boot.
Definition safe67 (i : nat) : bool := Nat.eqb i 6 || Nat.eqb i 7.

Lemma grown_safes : grown safes.
Proof.
  intros i c E. apply node_le in E as L. cbn in L.
  do 8 (destruct i as [|i]; [vm_compute in E; first [discriminate|injection E as <-; vm_compute; lia]|]). lia.
Qed.
Lemma grown_boot : grown boot.
Proof.
  intros i c E. apply node_le in E as L. cbn in L.
  do 4 (destruct i as [|i]; [vm_compute in E; first [discriminate|injection E as <-; vm_compute; lia]|]). lia.
Qed.

Definition reg (a : Z) : list step := SLock MMap :: [wr LMap; wr (LRec a)] ++ [SUnlock MMap].
Lemma reg_change a : map_change a (reg a).
Proof. exists [wr LMap; wr (LRec a)]. split; [|reflexivity]. repeat constructor; do 2 eexists; cbn [In]; repeat split; auto; discriminate. Qed.

(** [allocate] on HOST; on a pool that has to grow; of zero bytes from the pool for them. *)
Definition alloc_host (a : Z) : list step := [] ++ count_up 1 true ++ reg a.
Lemma code_host a : code boot (fun _ => false) (DAlloc 1 a) (alloc_host a).
Proof. apply (cd_alloc boot (fun _ => false) 1 a (alloc_host a)). apply (al_ok boot 1 1 a [] true (reg a)); [constructor|apply reg_change]. Qed.

Definition pool_grows (p : nat) : list step := rd (LState p) :: (count_up 1 true ++ [] ++ [wr (LState p)]).
Lemma work_pool p : (p = 4 \/ p = 5)%nat -> work safes p (pool_grows p).
Proof.
  intros Hp. assert (N : node_at safes p = Some (mkNode (KFixed 64 1 2) 1)) by (destruct Hp as [-> | ->]; reflexivity).
  apply (wk_own _ _ _ _ _ N); [reflexivity|].
  apply (wk_take _ _ _ true [] [wr (LState p)] N); [discriminate|constructor|].
  apply (wk_own _ _ _ _ _ N); [reflexivity|constructor].
Qed.

Definition alloc_safe (i p : nat) (a : Z) : list step := locked safe67 i ((count_up p true ++ pool_grows p ++ []) ++ count_up i true ++ reg a).
Lemma code_safe6 a : code safes safe67 (DAlloc 6 a) (alloc_safe 6 4 a).
Proof.
  apply cd_alloc. apply al_ok; [|apply reg_change].
  apply (wk_take safes 6 (mkNode KPassThrough 4) true (pool_grows 4) []); [reflexivity|discriminate|apply work_pool; auto|constructor].
Qed.
Lemma code_safe7 a : code safes safe67 (DAlloc 7 a) (alloc_safe 7 5 a).
Proof.
  apply cd_alloc. apply al_ok; [|apply reg_change].
  apply (wk_take safes 7 (mkNode KPassThrough 5) true (pool_grows 5) []); [reflexivity|discriminate|apply work_pool; auto|constructor].
Qed.

Definition alloc_zero (i : nat) (a : Z) : list step := locked safe67 i ([rd (LState zero_id); wr (LState zero_id)] ++ count_up i false ++ reg a).
Lemma code_zero i a : code safes safe67 (DAllocZero i a) (alloc_zero i a).
Proof.
  apply cd_alloc_zero. apply al_ok; [|apply reg_change].
  apply (wk_own safes zero_id (mkNode (KFixed 1 2048 2) null_id)); [reflexivity|reflexivity|].
  apply (wk_own safes zero_id (mkNode (KFixed 1 2048 2) null_id)); [reflexivity|reflexivity|constructor].
Qed.

Definition free_safe (a : Z) : list step :=
  locked safe67 7 (reg a ++ count_down 7 ++ rd (LState zero_id) :: (count_down 5 ++ [rd (LState 5); wr (LState 5)] ++ [])).
Lemma code_free a : code safes safe67 (DFree 7 a) (free_safe a).
Proof.
  apply cd_free. apply fr_ok; [apply reg_change|].
  apply (wk_give safes 7 (mkNode KPassThrough 5) [rd (LState 5); wr (LState 5)] []); [reflexivity|discriminate| |constructor].
  apply (wk_own safes 5 (mkNode (KFixed 64 1 2) 1)); [reflexivity|reflexivity|].
  apply (wk_own safes 5 (mkNode (KFixed 64 1 2) 1)); [reflexivity|reflexivity|constructor].
Qed.

Lemma code_count i : code safes safe67 (DCount i) [rd (LStat i Cur)].
Proof. apply cd_count. repeat constructor. do 2 eexists. cbn [In]. auto. Qed.

(** FixedPool::release on a pool without an unused block: it only looks. *)
Lemma code_release : code safes safe67 (DRelease 4) [rd (LState 4); wr (LState 4)].
Proof.
  apply (cd_release safes safe67 4 (mkNode (KFixed 64 1 2) 1)); [reflexivity| |discriminate]. intros _.
  apply (wk_own safes 4 (mkNode (KFixed 64 1 2) 1)); [reflexivity|reflexivity|].
  apply (wk_own safes 4 (mkNode (KFixed 64 1 2) 1)); [reflexivity|reflexivity|constructor].
Qed.

Lemma code_look : code safes safe67 DLook [rd LNames].
Proof. apply cd_look. repeat constructor. do 2 eexists. cbn [In]. auto. Qed.
Lemma code_fetch : code safes safe67 DFetch [rd LNames; wr LNames].
Proof. apply cd_fetch. repeat constructor; do 2 eexists; cbn [In]; repeat split; auto; discriminate. Qed.
Lemma code_records : code safes safe67 DRecords [rd LMap].
Proof. apply cd_records. exists []. repeat constructor. do 2 eexists. cbn [In map]. auto. Qed.

(** getDefaultAllocator for the first time: no default yet; HOST is looked up, stored and read. *)
Definition default_first : list step := [rd LDefault] ++ [rd LNames] ++ [wr LDefault; rd LDefault].
Lemma code_default : code safes safe67 DDefault default_first.
Proof.
  apply cd_default_host; repeat constructor; do 2 eexists; cbn [In]; repeat split; auto; discriminate.
Qed.

(** A fixed pool made over the thread-safe allocator 6: its constructor allocates a block through 6, which goes to pool 4. *)
Definition make_pool : list step :=
  SLock MReg :: ([rd LNames] ++ (count_up 6 true ++ (count_up 4 true ++ pool_grows 4 ++ []) ++ []) ++ [wr LNames]) ++ [SUnlock MReg].
Lemma code_make : code safes safe67 (DMake 6) make_pool.
Proof.
  apply cd_make.
  - repeat constructor. do 2 eexists. cbn [In]. repeat split; auto.
  - constructor; [|constructor]. apply (wk_take safes 6 (mkNode KPassThrough 4) true (pool_grows 4) []); [reflexivity|discriminate|apply work_pool; auto|constructor].
  - repeat constructor. do 2 eexists. cbn [In]. repeat split; auto.
Qed.

(** The threads run [n] and [m] steps. *)
Lemma races C ts c c' b b' n m l : code C ts c b -> code C ts c' b' ->
  match rrun (repeat 1 n ++ repeat 2 m) (r_init (duet b b')) with
  | Some g => match r_rem g 1, r_rem g 2 with
              | SAcc w x :: _, SAcc w' x' :: _ => x = l /\ x' = l /\ w || w' = true
              | _, _ => False
              end
  | None => False
  end ->
  exists g, reaches C ts (two c c') g /\ race g l.
Proof.
  intros H H' K. destruct (rrun _ _) as [g|] eqn:E; [|contradiction]. exists g. split; [exact (two_reaches _ _ _ _ _ _ _ _ H H' E)|].
  destruct (r_rem g 1) as [|[|?|w x] k] eqn:E1; try contradiction. destruct (r_rem g 2) as [|[|?|w' x'] k'] eqn:E2; try contradiction.
  destruct K as (-> & -> & K). exists 1, 2, w, w', k, k'. rewrite E1, E2. repeat split; [lia|]. now apply orb_true_iff.
Qed.

Lemma races_host a b : exists g, reaches boot (fun _ => false) (two (DAlloc 1 a) (DAlloc 1 b)) g /\ race g (LStat 1 Cur).
Proof. eapply (races _ _ _ _ _ _ 1 1); [apply code_host|apply code_host|]. vm_compute. repeat split. Qed.

Lemma races_safe a b : exists g, reaches safes safe67 (two (DAlloc 6 a) (DAlloc 7 b)) g /\ race g (LStat 1 Cur).
Proof. eapply (races _ _ _ _ _ _ 11 11); [apply code_safe6|apply code_safe7|]. vm_compute. repeat split. Qed.

Lemma races_zero a b : exists g, reaches safes safe67 (two (DAllocZero 6 a) (DAllocZero 7 b)) g /\ race g (LState zero_id).
Proof. eapply (races _ _ _ _ _ _ 2 2); [apply code_zero|apply code_zero|]. vm_compute. repeat split. Qed.

Lemma races_zero_free a b : exists g, reaches safes safe67 (two (DAllocZero 6 a) (DFree 7 b)) g /\ race g (LState zero_id).
Proof. eapply (races _ _ _ _ _ _ 2 9); [apply code_zero|apply code_free|]. vm_compute. repeat split. Qed.

Lemma races_count a : exists g, reaches safes safe67 (two (DAlloc 6 a) (DCount 6)) g /\ race g (LStat 6 Cur).
Proof. eapply (races _ _ _ _ _ _ 20 0); [apply code_safe6|apply code_count|]. vm_compute. repeat split. Qed.

Lemma races_release a : exists g, reaches safes safe67 (two (DAlloc 6 a) (DRelease 4)) g /\ race g (LState 4).
Proof. eapply (races _ _ _ _ _ _ 9 1); [apply code_safe6|apply code_release|]. vm_compute. repeat split. Qed.

Lemma races_names : exists g, reaches safes safe67 (two (DMake 6) DLook) g /\ race g LNames.
Proof. eapply (races _ _ _ _ _ _ 28 0); [apply code_make|apply code_look|]. vm_compute. repeat split. Qed.

Lemma races_fetch : exists g, reaches safes safe67 (two DFetch DLook) g /\ race g LNames.
Proof. eapply (races _ _ _ _ _ _ 1 0); [apply code_fetch|apply code_look|]. vm_compute. repeat split. Qed.

Lemma races_default : exists g, reaches safes safe67 (two DDefault DDefault) g /\ race g LDefault.
Proof. eapply (races _ _ _ _ _ _ 2 0); [apply code_default|apply code_default|]. vm_compute. repeat split. Qed.

Lemma races_make a : exists g, reaches safes safe67 (two (DMake 6) (DAlloc 6 a)) g /\ race g (LStat 4 Cur).
Proof. eapply (races _ _ _ _ _ _ 11 1); [apply code_make|apply code_safe6|]. vm_compute. repeat split. Qed.

Lemma races_records a : exists g, reaches safes safe67 (two (DAlloc 6 a) DRecords) g /\ race g LMap.
Proof. eapply (races _ _ _ _ _ _ 28 0); [apply code_safe6|apply code_records|]. vm_compute. repeat split. Qed.
