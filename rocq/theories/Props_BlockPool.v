(** Property C49 (FixedSizePool, the pool of DynamicSizePool's block descriptors).  Histories: [bshist]
    (BlockPoolModel.v). *)
From Verif Require Import Base BaseFacts HeapModel HeapFacts FixedPoolModel BlockPoolModel BlockPoolFacts BlockPoolRun QuickPoolRun.

(** C49: what is held from malloc is, per pool, one block of objects and one descriptor; the objects
    handed out are objects of these blocks and no two overlap. *)
Theorem C49_block_pool_exclusive :
  forall obj np (W : Type) (P : Parent W) limP Inv fuel, ParentSpec P limP Inv ->
  0 < obj -> (0 < np)%nat -> Z.of_nat np < 2 ^ 26 ->
  Z.of_nat np * 32 * obj <= limP -> 32 + Z.of_nat np * 4 <= limP -> limP < M64 -> (2 <= fuel)%nat ->
  forall A s w, bshist obj np P Inv fuel A s w ->
    good (map (fun q => (q, obj)) A) /\
    exists L, Inv w L /\
      Permutation L (map (fun d => (d, Z.of_nat np * 32 * obj)) (map bp_data (bs_pools s)) ++
                     map (fun h => (h, 32 + Z.of_nat np * 4)) (map bp_head (bs_pools s))) /\
      forall q, In q A -> exists d i, In d (map bp_data (bs_pools s)) /\ 0 <= i < Z.of_nat np * 32 /\ q = d + i * obj.
Proof. exact @bp_exclusive. Qed.
Print Assumptions C49_block_pool_exclusive.

(** C49: while an object is free a request is served without malloc, with the first free object: all
    those before it, in its own and in earlier pools, are handed out. *)
Theorem C49_block_pool_first_fit :
  forall obj np (W : Type) (P : Parent W) limP Inv fuel, ParentSpec P limP Inv ->
  0 < obj -> (0 < np)%nat -> Z.of_nat np < 2 ^ 26 ->
  Z.of_nat np * 32 * obj <= limP -> 32 + Z.of_nat np * 4 <= limP -> limP < M64 -> (2 <= fuel)%nat ->
  forall A s w, bshist obj np P Inv fuel A s w -> Z.of_nat (length A) < Z.of_nat np * 32 * bs_num_pools s ->
    exists s' k d i, bs_allocate obj np P fuel (s, w) = Ok (s', w) (d + i * obj) /\ ~ In (d + i * obj) A /\
      nth_error (map bp_data (bs_pools s)) k = Some d /\ 0 <= i < Z.of_nat np * 32 /\
      (forall k' d' i', nth_error (map bp_data (bs_pools s)) k' = Some d' -> 0 <= i' < Z.of_nat np * 32 ->
         (k' < k)%nat \/ (k' = k /\ i' < i) -> In (d' + i' * obj) A) /\
      map bp_data (bs_pools s') = map bp_data (bs_pools s).
Proof. exact @bp_reuse. Qed.
Print Assumptions C49_block_pool_first_fit.

(** C49: when all are handed out (there are never more) one descriptor and one block are added. *)
Theorem C49_block_pool_grows :
  forall obj np (W : Type) (P : Parent W) limP Inv fuel, ParentSpec P limP Inv ->
  0 < obj -> (0 < np)%nat -> Z.of_nat np < 2 ^ 26 ->
  Z.of_nat np * 32 * obj <= limP -> 32 + Z.of_nat np * 4 <= limP -> limP < M64 -> (2 <= fuel)%nat ->
  forall A s w, bshist obj np P Inv fuel A s w -> Z.of_nat (length A) = Z.of_nat np * 32 * bs_num_pools s -> room obj np P w ->
    exists s' w1 w2 h d, p_alloc P (32 + Z.of_nat np * 4) w = Ok w1 h /\ p_alloc P (Z.of_nat np * 32 * obj) w1 = Ok w2 d /\
      bs_allocate obj np P fuel (s, w) = Ok (s', w2) d /\ ~ In d A /\
      map bp_data (bs_pools s') = map bp_data (bs_pools s) ++ [d].
Proof. exact @bp_grow. Qed.
Print Assumptions C49_block_pool_grows.

Theorem C49_block_pool_capacity :
  forall obj np (W : Type) (P : Parent W) limP Inv fuel, ParentSpec P limP Inv ->
  0 < obj -> (0 < np)%nat -> Z.of_nat np < 2 ^ 26 ->
  Z.of_nat np * 32 * obj <= limP -> 32 + Z.of_nat np * 4 <= limP -> limP < M64 -> (2 <= fuel)%nat ->
  forall A s w, bshist obj np P Inv fuel A s w -> Z.of_nat (length A) <= Z.of_nat np * 32 * bs_num_pools s.
Proof. exact @bp_count. Qed.
Print Assumptions C49_block_pool_capacity.

(** C49: what was handed out is accepted back. *)
Theorem C49_block_pool_accepts :
  forall obj np (W : Type) (P : Parent W) limP Inv fuel, ParentSpec P limP Inv ->
  0 < obj -> (0 < np)%nat -> Z.of_nat np < 2 ^ 26 ->
  Z.of_nat np * 32 * obj <= limP -> 32 + Z.of_nat np * 4 <= limP -> limP < M64 -> (2 <= fuel)%nat ->
  forall A s w q, bshist obj np P Inv fuel A s w -> In q A ->
    exists s', bs_deallocate obj np q (s, w) = Ok (s', w) tt /\ map bp_data (bs_pools s') = map bp_data (bs_pools s).
Proof. exact @bp_free. Qed.
Print Assumptions C49_block_pool_accepts.

(** C49: an address in none of the blocks is rejected and nothing changes.  Missing: addresses inside
    the blocks that are not handed out; see [C49_double_free_refuted]. *)
Theorem C49_block_pool_rejects_partial :
  forall obj np (W : Type) (P : Parent W) Inv fuel, (0 < np)%nat -> Z.of_nat np < 2 ^ 26 -> (2 <= fuel)%nat ->
  forall A s w q, bshist obj np P Inv fuel A s w ->
    (forall d, In d (map bp_data (bs_pools s)) -> ~ (d <= q < d + Z.of_nat np * 32 * obj)) ->
    bs_deallocate obj np q (s, w) = Throw (s, w) OutOfMemory.
Proof. exact @bp_unknown. Qed.
Print Assumptions C49_block_pool_rejects_partial.

(** C49: [getCurrentSize] counts the objects handed out, [getActualSize] is what is held from malloc. *)
Theorem C49_block_pool_sizes :
  forall obj np (W : Type) (P : Parent W) limP Inv fuel, ParentSpec P limP Inv ->
  0 < obj -> (0 < np)%nat -> Z.of_nat np < 2 ^ 26 ->
  Z.of_nat np * 32 * obj <= limP -> 32 + Z.of_nat np * 4 <= limP -> limP < M64 -> (2 <= fuel)%nat ->
  forall A s w, bshist obj np P Inv fuel A s w ->
    bs_current_size obj s = obj * Z.of_nat (length A) /\
    exists L, Inv w L /\ bs_actual_size obj np s = sumZ (map snd L).
Proof. exact @bp_sizes. Qed.
Print Assumptions C49_block_pool_sizes.

(** C49: the destructor gives everything back to malloc, each block once. *)
Theorem C49_block_pool_destroyed :
  forall obj np (W : Type) (P : Parent W) limP Inv fuel, ParentSpec P limP Inv ->
  0 < obj -> (0 < np)%nat -> Z.of_nat np < 2 ^ 26 ->
  Z.of_nat np * 32 * obj <= limP -> 32 + Z.of_nat np * 4 <= limP -> limP < M64 -> (2 <= fuel)%nat ->
  forall A s w, bshist obj np P Inv fuel A s w ->
    post (bs_destroy obj np P (bs_pools s) w) (fun w' _ => Inv w' []) (fun _ _ => False).
Proof. exact @bp_destroyed. Qed.
Print Assumptions C49_block_pool_destroyed.

(** One word of 32 objects per pool: the 33rd object is the first of a second block; objects returned
    to the first block are used again before the rest of the second, lowest address first. *)
Example C49_ex :
  match bfrom 24 1 bump (repeat BAlloc 33 ++ [BFree 136; BFree 64; BFree 88; BAlloc; BAlloc]) with
  | Some (A, (s, w)) => Some (firstn 3 A, length A, bs_current_size 24 s, bs_actual_size 24 1 s, h_live w,
                              match bs_destroy 24 1 host (bs_pools s) w with Ok w' _ => Some (h_live w') | _ => None end)
  | None => None
  end = Some ([88; 64; 896], 32%nat, 768, 1608, [(896, 768); (848, 36); (64, 768); (16, 36)], Some []).
Proof. vm_compute. reflexivity. Qed.

Example C49_ex_hyps :
  exists A s w, bshist 24 1 host heap_inv 2 A s w /\ length A = 32%nat /\ In 88 A /\ map bp_data (bs_pools s) = [64; 896].
Proof.
  destruct (bfrom 24 1 bump (repeat BAlloc 33 ++ [BFree 136; BFree 64; BFree 88; BAlloc; BAlloc])) as [[A [s w]]|] eqn:E; [|vm_compute in E; discriminate].
  pose proof (bfrom_hist _ _ _ _ _ _ E) as H. cbn [fst snd] in H. vm_compute in E. injection E as <- <- <-.
  eexists _, _, _. split; [exact H|]. split; [reflexivity|]. split; [now left|reflexivity].
Qed.


(** An object returned twice is accepted; the size reported is then 2^64 - 24, and the object is not
    handed out although it is the first that is free. *)
Theorem C49_double_free_refuted :
  exists s w s' s'', bshist 24 1 host heap_inv 2 [] s w /\
    bs_deallocate 24 1 64 (s, w) = Ok (s', w) tt /\ bs_current_size 24 s' = M64 - 24 /\
    bs_allocate 24 1 host 2 (s', w) = Ok (s'', w) 88.
Proof.
  destruct (bfrom 24 1 bump [BAlloc; BFree 64]) as [[A [s w]]|] eqn:E; [|vm_compute in E; discriminate].
  pose proof (bfrom_hist _ _ _ _ _ _ E) as H. cbn [fst snd] in H. vm_compute in E. injection E as <- <- <-.
  eexists _, _, _, _. split; [exact H|]. split; [vm_compute; reflexivity|]. split; vm_compute; reflexivity.
Qed.
Print Assumptions C49_double_free_refuted.

(** A failing malloc of the objects is not noticed: the pool then hands out 24, here an address inside
    the first pool's own descriptor. *)
Theorem C49_malloc_fails_refuted :
  exists A s w s' w', bshist 24 1 host heap_inv 2 A s w /\
    bs_allocate 24 1 host 3 (s, w) = Ok (s', w') 24 /\
    In (16, 36) (h_live w') /\ In 16 (map bp_head (bs_pools s')) /\ ~ disj (24, 24) (16, 36).
Proof.
  destruct (bfrom 24 1 (bump_failing [3%nat]) (repeat BAlloc 32)) as [[A [s w]]|] eqn:E; [|vm_compute in E; discriminate].
  pose proof (bfrom_hist _ _ _ _ _ _ E) as H. cbn [fst snd] in H. vm_compute in E. injection E as <- <- <-.
  eexists _, _, _, _, _. split; [exact H|]. split; [vm_compute; reflexivity|].
  split; [cbn; auto 10|]. split; [cbn; auto|]. unfold disj. cbn [fst snd]. lia.
Qed.
Print Assumptions C49_malloc_fails_refuted.
