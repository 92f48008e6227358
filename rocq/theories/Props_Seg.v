(** C38: the shared memory segment.  [seghist size st G]: [st] is reached from a new segment by allocations and
    deallocations of any processes, [G] lists the names in use (SegSpec.v). *)
From Coq Require Import String Ascii.
From Verif Require Import Base BaseFacts SegModel SegSpec SegOps SegMain SegRun.

(** A new name gets a block of its own of at least the size it needs (and less than one block header more), or is
    refused without any change because no gap between the blocks in use can hold it. *)
Theorem C38_new : forall size st G n req, seg_size_ok size -> seghist size st G -> ask_ok G n req -> (forall e, In e G -> l_name e <> n) ->
  allocate_named n req st = Throw st OutOfMemory /\
    (forall a, SEG_HDR <= a -> a + need n req <= size -> exists e, In e G /\ ~ disj (a, need n req) (l_ext e)) \/
  exists st' p, allocate_named n req st = Ok st' p /\ need n req <= sg_actual st' - sg_actual st < need n req + BLK_HDR.
Proof. intros size st G n req Hs. exact (seg_new size Hs st G n req). Qed.
Print Assumptions C38_new.

(** A name in use always gets the block it has. *)
Theorem C38_shared : forall size st G n req e, seg_size_ok size -> seghist size st G -> ask_ok G n req -> In e G -> l_name e = n ->
  exists st', allocate_named n req st = Ok st' (l_off e) /\ sg_actual st' = sg_actual st.
Proof. intros size st G n req e Hs. exact (seg_again size Hs st G n req e). Qed.
Print Assumptions C38_shared.

(** Looking up a name finds exactly the names in use. *)
Theorem C38_lookup : forall size st G n, seg_size_ok size -> seghist size st G -> c_name n ->
  exists p, find_pointer n st = Ok st p /\ (forall e, In e G -> l_name e = n -> p = l_off e) /\ ((forall e, In e G -> l_name e <> n) -> p = 0).
Proof. intros size st G n Hs. exact (seg_lookup size Hs st G n). Qed.
Print Assumptions C38_lookup.

(** Deallocation of a name in use succeeds, and gives the block back exactly at the last reference. *)
Theorem C38_free : forall size st G e, seg_size_ok size -> seghist size st G -> In e G ->
  exists st', seg_deallocate (l_off e) st = Ok st' tt /\ sg_actual st' = sg_actual st - (if l_refs e =? 1 then l_len e else 0).
Proof. intros size st G e Hs. exact (seg_free size Hs st G e). Qed.
Print Assumptions C38_free.

(** The blocks of the names in use are disjoint, inside the segment behind its header, hold the memory first asked for,
    which is aligned to 16 bytes; names in use are distinct. *)
Theorem C38_disjoint : forall size st G, seg_size_ok size -> seghist size st G ->
  pairwise disj (map l_ext G) /\ pairwise (fun e e' => l_name e <> l_name e') G /\
  forall e, In e G -> SEG_HDR <= fst (l_ext e) /\ fst (l_ext e) + snd (l_ext e) <= size /\ inside (l_mem e) (l_ext e) /\ l_off e mod 16 = 0 /\ 0 < l_refs e.
Proof. intros size st G Hs. exact (seg_layout size Hs st G). Qed.
Print Assumptions C38_disjoint.

(** The name and its NUL are stored in the block behind the memory. *)
Theorem C38_names_apart : forall size st G e, seg_size_ok size -> seghist size st G -> In e G ->
  exists b, sg_blk st (l_off e - 48) = Some b /\ b_name b = l_name e /\ inside (b_name_off b, Z.of_nat (String.length (l_name e)) + 1) (l_ext e) /\
    l_off e + l_req e <= b_name_off b.
Proof. intros size st G e Hs. exact (seg_names size Hs st G e). Qed.
Print Assumptions C38_names_apart.

(** The actual size is the header and the blocks in use. *)
Theorem C38_actual : forall size st G, seg_size_ok size -> seghist size st G -> sg_actual st = 80 + sumZ (map l_len G).
Proof. intros size st G Hs. exact (seg_actual size Hs st G). Qed.
Print Assumptions C38_actual.

(** Nothing is lost: with nothing in use every request that fits the segment succeeds. *)
Theorem C38_nothing_lost : forall size st n req, seg_size_ok size -> seghist size st [] -> ask_ok [] n req -> need n req <= size - SEG_HDR ->
  exists st' p, allocate_named n req st = Ok st' p.
Proof. intros size st n req Hs. exact (seg_empty size Hs st n req). Qed.
Print Assumptions C38_nothing_lost.

(** Three names, one of them taken twice, one given back and its hole used again; and a request that does not fit. *)
Example C38_example : exists st G, seghist 4096 st G /\ seg_size_ok 4096 /\
  map (fun e => (l_name e, l_off e, l_len e, l_req e, l_refs e)) G = [("c", 224, 112, 40, 1); ("a", 128, 96, 16, 2)]%string /\
  sg_actual st = 288 /\ find_pointer "a" st = Ok st 128 /\ find_pointer "b" st = Ok st 0 /\
  ask_ok G "d" 4000 /\ allocate_named "d" 4000 st = Throw st OutOfMemory /\ ask_ok G "e" 3600 /\ exists st', allocate_named "e" 3600 st = Ok st' 336.
Proof.
  set (s := ssteps [SAlloc "a" 16; SAlloc "b" 200; SAlloc "a" 8; SFree 224; SAlloc "c" 40]%string (seg_init 4096, [])).
  destruct s as [[st G]|] eqn:E; [|vm_compute in E; discriminate]. exists st, G.
  split; [exact (ssteps_hist 4096 _ _ _ _ _ (gh_start 4096) E)|]. split; [vm_compute; split; [discriminate|reflexivity]|].
  vm_compute in E. injection E as <- <-. split; [reflexivity|]. split; [reflexivity|]. split; [reflexivity|]. split; [reflexivity|].
  split; [apply ask_okb_ok; vm_compute; reflexivity|]. split; [vm_compute; reflexivity|]. split; [apply ask_okb_ok; vm_compute; reflexivity|]. eexists. vm_compute. reflexivity.
Qed.
(** A full turn: everything given back, and the whole segment can be had again. *)
Example C38_nothing_lost_example : exists st, seghist 4096 st [] /\ ask_ok [] "big" 3900 /\ need "big" 3900 <= 4096 - SEG_HDR.
Proof.
  set (s := ssteps [SAlloc "a" 16; SAlloc "b" 200; SAlloc "a" 8; SAlloc "c" 40; SFree 128; SFree 496; SFree 224; SFree 128]%string (seg_init 4096, [])).
  destruct s as [[st G]|] eqn:E; [|vm_compute in E; discriminate]. exists st. pose proof (ssteps_hist 4096 _ _ _ _ _ (gh_start 4096) E) as H.
  vm_compute in E. injection E as _ <-. split; [exact H|]. split; [apply ask_okb_ok; vm_compute; reflexivity|vm_compute; discriminate].
Qed.

(** The size asked for plays no role when the name is in use: the memory handed out reaches into another name's. *)
Theorem C38_larger_request_refuted : exists size st G n req st' p e,
  seg_size_ok size /\ seghist size st G /\ ask_ok G n req /\ allocate_named n req st = Ok st' p /\ In e G /\ l_name e <> n /\ ~ disj (p, req) (l_mem e).
Proof.
  destruct (ssteps [SAlloc "a" 16; SAlloc "b" 200]%string (seg_init 4096, [])) as [[st G]|] eqn:E; [|vm_compute in E; discriminate].
  exists 4096, st, G, "a"%string, 1000. pose proof (ssteps_hist 4096 _ _ _ _ _ (gh_start 4096) E) as H. vm_compute in E. injection E as <- <-.
  eexists. exists 128, (mkLive "b" 224 272 200 1).
  split; [vm_compute; split; [discriminate|reflexivity]|]. split; [exact H|]. split; [apply ask_okb_ok; vm_compute; reflexivity|]. split; [vm_compute; reflexivity|].
  split; [now left|]. split; [discriminate|]. unfold disj, l_mem. cbn. lia.
Qed.
Print Assumptions C38_larger_request_refuted.

(** A name with a NUL inside is stored up to it: another name is given its block, and the name itself is not found. *)
Theorem C38_nul_name_refuted : exists size n n' st p st', seg_size_ok size /\ n <> n' /\
  allocate_named n 16 (seg_init size) = Ok st p /\ allocate_named n' 16 st = Ok st' p /\ find_pointer n st = Ok st 0.
Proof.
  exists 4096, (String "a" (String zero (String "b" EmptyString))), "a"%string. eexists. exists 128. eexists.
  split; [vm_compute; split; [discriminate|reflexivity]|]. split; [discriminate|]. split; [vm_compute; reflexivity|]. split; vm_compute; reflexivity.
Qed.
Print Assumptions C38_nul_name_refuted.

(** The size of the request wraps: far more than the segment can hold is granted. *)
Theorem C38_huge_request_refuted : exists size n req st p, seg_size_ok size /\ size < req < M64 /\ c_name n /\ allocate_named n req (seg_init size) = Ok st p.
Proof.
  exists 4096, "a"%string, (M64 - 16). eexists. exists 128. split; [vm_compute; split; [discriminate|reflexivity]|]. split; [vm_compute; split; reflexivity|].
  split; [intros [H|[]]; discriminate|]. vm_compute. reflexivity.
Qed.
Print Assumptions C38_huge_request_refuted.

(** The size of the first block wraps in a segment smaller than its header: blocks outside the segment are granted. *)
Theorem C38_tiny_segment_refuted : exists size n req st p, 0 < size /\ c_name n /\ allocate_named n req (seg_init size) = Ok st p /\ size < p.
Proof.
  exists 64, "a"%string, 1000000. eexists. exists 128. split; [lia|]. split; [intros [H|[]]; discriminate|]. split; [vm_compute; reflexivity|lia].
Qed.
Print Assumptions C38_tiny_segment_refuted.
