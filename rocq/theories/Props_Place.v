(** Theorems about NUMA policies, advisors and prefetchers. *)
From Coq Require Import String Permutation.
From Verif Require Import Base RegistryModel OpTableModel OpTableSpec MapModel AsyncModel PlaceModel PlaceSpec PlaceFacts.

(** C63: as long as external allocators hand out memory on pages of its own and only base pointers are moved, all of
    every allocation is on the node of the policy it was allocated from or last moved to in place. *)
Theorem C63_placed :
  forall c page, 0 < page -> forall available usable binds plat place fails current props strat_of w h x y k,
    oc_numa c = true -> history strat_of c page available usable binds plat place fails current props w h ->
    In x h -> ho_node x = Some k -> ho_ptr x <= y < ho_ptr x + ho_size x -> get_location page y w = Ok w k.
Proof. exact place_placed. Qed.
Print Assumptions C63_placed.

(** C63: the allocations known by that account are exactly those of the registry. *)
Theorem C63_known :
  forall c page, 0 < page -> forall available usable binds plat place fails current props strat_of w h,
    oc_numa c = true -> history strat_of c page available usable binds plat place fails current props w h ->
    map (fun x => (ho_ptr x, ho_size x, ho_owner x)) h = map (fun r => (r_ptr r, r_size r, r_strat r)) (p_live w).
Proof. exact place_known. Qed.
Print Assumptions C63_known.

(** C63: blocks that begin on page boundaries and do not overlap, such as those of posix_memalign, are on pages of their
    own. *)
Theorem C63_memalign :
  forall page, 0 < page -> forall q n l, q mod page = 0 -> (forall p m, In (p, m) l -> p mod page = 0) ->
    disjoint_from q n l -> apart page q n l.
Proof. exact place_memalign. Qed.
Print Assumptions C63_memalign.

(** C63: an allocation of a policy is on its node when it is returned, wherever its memory comes from, and no page
    without a byte of it changes. *)
Theorem C63_allocate :
  forall page, 0 < page -> forall available usable binds place fails current props strat_of i n w w' q k,
    policy_node (strat_of i) = Some k ->
    p_allocate page available usable binds place fails current props strat_of i n w = Ok w' q ->
    p_live w' = mkRec q n i 0 :: p_live w /\ p_masks w' = p_masks w /\
    (forall x, q <= x < q + n -> get_location page x w' = Ok w' k) /\
    (forall y, (forall x, q <= x < q + n -> x / page <> y / page) -> p_node w' (y / page) = p_node w (y / page)).
Proof. exact place_allocate. Qed.
Print Assumptions C63_allocate.

(** C63: a move to the policy of another allocator returns the pointer it was given, changes no record, and puts the
    bytes from there on, as many as the allocation has, on the node; no page without one of these bytes changes. *)
Theorem C63_move :
  forall c page, 0 < page -> forall available usable binds plat place fails current props strat_of p i w w' q r k pf t,
    oc_numa c = true -> In r (p_live w) -> p_find p w = Ok w r -> r_strat r <> i -> 0 < r_size r ->
    strat_of i = NumaPolicy k pf t ->
    p_move c page available usable binds plat place fails current props strat_of p i w = Ok w' q ->
    q = p /\ p_live w' = p_live w /\ p_taken w' = p_taken w /\ p_masks w' = p_masks w /\
    (forall x, p <= x < p + r_size r -> get_location page x w' = Ok w' k) /\
    (forall y, (forall x, p <= x < p + r_size r -> x / page <> y / page) -> p_node w' (y / page) = p_node w (y / page)).
Proof. exact place_move. Qed.
Print Assumptions C63_move.

(** C63: calls that return have freed the bitmasks they made. *)
Theorem C63_masks :
  forall c page available usable binds plat place fails current props strat_of o w w' a,
    p_do c page available usable binds plat place fails current props strat_of o w = Ok w' a -> p_masks w' = p_masks w.
Proof. exact place_masks. Qed.
Print Assumptions C63_masks.

(** C63: the nodes with CPUs and those without are all the nodes, each once; both
    calls free the masks they made. *)
Theorem C63_nodes :
  forall available nodes cpus w w1 w2 hosts devices', (forall i n, cpus i = Some n -> 0 <= n) ->
    get_host_nodes available nodes cpus w = Ok w1 hosts -> get_device_nodes available nodes cpus w = Ok w2 devices' ->
    Permutation (hosts ++ devices') nodes /\ (forall i, In i hosts <-> In i nodes /\ exists n, cpus i = Some n /\ 0 < n) /\
    (forall i, In i devices' <-> In i nodes /\ cpus i = Some 0) /\ p_masks w1 = p_masks w /\ p_masks w2 = p_masks w.
Proof. exact place_nodes. Qed.
Print Assumptions C63_nodes.

(** C63: a policy is made for host allocators and nodes that are not negative only; it is of the host's platform exactly
    when the build has no devices or the node has CPUs. *)
Theorem C63_constructor :
  forall c available plat nodes cpus node t w w' s, new_numa c available nodes cpus plat node t w = Ok w' s ->
    0 <= node /\ platform_of plat t = PHost /\ p_masks w' = p_masks w /\
    exists pf, s = NumaPolicy node pf t /\
      (pf = PHost <-> (device_build c = false \/ In node nodes /\ exists n, cpus node = Some n /\ 0 < n)).
Proof. exact place_new_numa. Qed.
Print Assumptions C63_constructor.

(** C63: where the memory beneath does not begin on a page boundary the policy throws, and keeps the memory. *)
Theorem C63_unaligned :
  forall page available usable binds place fails current props k pf t n w w1 q,
    s_allocate page available usable binds place fails current props t n w = Ok w1 q -> q mod page <> 0 ->
    exists w', s_allocate page available usable binds place fails current props (NumaPolicy k pf t) n w = Throw w' RuntimeError /\
      p_live w' = p_live w /\ p_taken w' = (q, n) :: p_taken w.
Proof. exact place_unaligned. Qed.
Print Assumptions C63_unaligned.

(** A machine with nodes 0 and 1 (with CPUs) and 8 and 9 (without), pages of 4096 bytes, and calls of the system that
    succeed; the allocators of a program.  Allocator 3 is a pool on HOST. *)
Definition numa_cuda : opconfig := mkOpconfig true true false false false false.
Definition ex_strats (i : Z) : strat :=
  match i with
  | 1 => NumaPolicy 0 PHost (Source 0)
  | 2 => NumaPolicy 1 PHost (Source 0)
  | 4 => NumaPolicy 0 PHost (Source 3)
  | 5 => NumaPolicy 8 PCuda (Source 0)
  | 6 => NumaPolicy 9 PCuda (Source 0)
  | _ => Source i
  end.
Definition ex_run (place : nat -> Z -> Z -> option Z) (l : list pop) : outcome pworld (list (option Z)) :=
  p_run numa_cuda 4096 true (fun k => existsb (Z.eqb k) [0; 1; 8; 9]) (fun _ => None) (fun _ => PHost) place
    (fun _ => false) 0 (fun _ => Some true) ex_strats l p_start.

(** HOST: one page per request, the later the higher. *)
Definition ex_place (k : nat) (_ n : Z) : option Z := if n <=? 4096 then Some (4096 * (Z.of_nat k + 1)) else None.

Definition ex_history : pworld -> list home -> Prop :=
  history ex_strats numa_cuda 4096 true (fun k => existsb (Z.eqb k) [0; 1; 8; 9]) (fun _ => None) (fun _ => PHost) ex_place
    (fun _ => false) 0 (fun _ => Some true).

Lemma ex_fits o w : (forall p m, In (p, m) (p_taken w) -> p mod 4096 = 0 /\ 0 < m <= 4096 /\ p <= 4096 * Z.of_nat (p_calls w)) ->
  match o with PAllocate _ n => 0 < n | PDeallocate _ => True | PMove p _ => exists r, In r (p_live w) /\ r_ptr r = p end ->
  fits 4096 ex_place o w.
Proof.
  intros Ht Ho. split; auto. intros i n q E Hn. unfold ex_place in E. destruct (n <=? 4096) eqn:E1; [|discriminate].
  assert (Eq : q = 4096 * (Z.of_nat (p_calls w) + 1)) by congruence. clear E. subst q. apply C63_memalign; [lia| | |].
  - rewrite Z.mul_comm. apply Z.mod_mul. lia.
  - intros p m Hi. now apply Ht in Hi.
  - intros p m x Hi (A & B). apply Ht in Hi. lia.
Qed.

(** An allocation of node 0 and one of HOST that was moved to node 1, both as they should be. *)
Example C63_placed_ex : exists w h, ex_history w h /\
  h = [mkHome 12288 200 0 (Some 1); mkHome 4096 100 1 (Some 0)] /\ get_location 4096 12300 w = Ok w 1 /\
  get_location 4096 4195 w = Ok w 0.
Proof.
  eexists. eexists. split.
  - eapply history_ok with (o := PMove 12288 2).
    + eapply history_ok with (o := PAllocate 0 200).
      * eapply history_ok with (o := PAllocate 1 100); [apply history_start| |vm_compute; reflexivity].
        apply ex_fits; [intros p m []|lia].
      * apply ex_fits; [|lia]. intros p m [E|[]]. injection E as <- <-. vm_compute. intuition discriminate.
      * vm_compute. reflexivity.
    + apply ex_fits; [|eexists; split; [left; reflexivity|reflexivity]].
      intros p m [E|[E|[]]]; injection E as <- <-; vm_compute; intuition discriminate.
    + vm_compute. reflexivity.
  - vm_compute. auto.
Qed.

(** "An allocation that throws leaves nothing behind" is false: the policy keeps the memory beneath it, for which there
    is no record, and the bitmask.  Here the memory is from a pool, which does not begin on a page boundary. *)
Theorem C63_leak_refuted :
  match ex_run (fun _ _ _ => Some 4112) [PAllocate 4 100] with
  | Ok w rs => rs = [None] /\ p_live w = [] /\ p_taken w = [(4112, 100)] /\ p_masks w = 1
  | _ => False
  end.
Proof. vm_compute. auto. Qed.
Print Assumptions C63_leak_refuted.

(** "After a move to an allocator the memory belongs to that allocator" is false of policies: the record names the old
    one. *)
Theorem C63_owner_refuted :
  match ex_run ex_place [PAllocate 1 100; PMove 4096 2] with
  | Ok w rs => rs = [Some 4096; Some 4096] /\ get_location 4096 4096 w = Ok w 1 /\ map r_strat (p_live w) = [1]
  | _ => False
  end.
Proof. vm_compute. auto. Qed.
Print Assumptions C63_owner_refuted.

(** "After a move to a policy the memory is on its node" is false: moved to the policy it was allocated from, after a
    move elsewhere, memory stays where it is. *)
Theorem C63_move_back_refuted :
  match ex_run ex_place [PAllocate 1 100; PMove 4096 2; PMove 4096 1] with
  | Ok w rs => rs = [Some 4096; Some 4096; Some 4096] /\ policy_node (ex_strats 1) = Some 0 /\
               get_location 4096 4096 w = Ok w 1
  | _ => False
  end.
Proof. vm_compute. auto. Qed.
Print Assumptions C63_move_back_refuted.

(** "A move leaves other allocations where they are" is false of pointers inside an allocation: as many bytes as the
    allocation has are moved, from that pointer on. *)
Theorem C63_offset_move_refuted :
  match ex_run (fun k _ _ => nth k [Some 4096; None; Some 12288] None) [PAllocate 1 8192; PAllocate 1 100; PMove 8192 2] with
  | Ok w rs => rs = [Some 4096; Some 12288; Some 8192] /\ map r_ptr (p_live w) = [12288; 4096] /\
               get_location 4096 4096 w = Ok w 0 /\ get_location 4096 12288 w = Ok w 1
  | _ => False
  end.
Proof. vm_compute. auto. Qed.
Print Assumptions C63_offset_move_refuted.

(** It is false too of allocations that share a page, as those of pools do. *)
Theorem C63_neighbour_refuted :
  match ex_run (fun k _ _ => nth k [Some 4096; Some 4208] None) [PAllocate 3 100; PAllocate 3 100] with
  | Ok w rs => rs = [Some 4096; Some 4208] /\ p_node w (4208 / 4096) = None
  | _ => False
  end /\
  match ex_run (fun k _ _ => nth k [Some 4096; Some 4208] None) [PAllocate 3 100; PAllocate 3 100; PMove 4096 2] with
  | Ok w rs => rs = [Some 4096; Some 4208; Some 4096] /\ p_node w (4208 / 4096) = Some 1
  | _ => False
  end.
Proof. vm_compute. auto. Qed.
Print Assumptions C63_neighbour_refuted.

(** "Memory of an allocator without a policy is not bound to a node" is false: a policy that gives memory back leaves it
    bound, and HOST hands it out again. *)
Theorem C63_bound_after_free_refuted :
  match ex_run (fun _ _ _ => Some 4096) [PAllocate 2 100; PDeallocate 4096; PAllocate 0 100] with
  | Ok w rs => rs = [Some 4096; Some 0; Some 4096] /\ map r_strat (p_live w) = [0] /\ policy_node (ex_strats 0) = None /\
               get_location 4096 4096 w = Ok w 1
  | _ => False
  end.
Proof. vm_compute. auto. Qed.
Print Assumptions C63_bound_after_free_refuted.

(** "Memory of one policy can be moved to another if the system can do it" is false of nodes of devices: no operation
    is registered for the pair. *)
Theorem C63_device_move_refuted :
  match ex_run ex_place [PAllocate 5 100; PMove 4096 2; PMove 4096 6] with
  | Ok w rs => rs = [Some 4096; Some 4096; None]
  | _ => False
  end.
Proof. vm_compute. auto. Qed.
Print Assumptions C63_device_move_refuted.

(** "A policy is made for nodes that exist only" is false: a node that does not exist is taken for one of a device. *)
Theorem C63_missing_node_refuted :
  new_numa numa_cuda true [0; 1; 8; 9] (fun i => Some (if i <? 8 then 4 else 0)) (fun _ => PHost) 99 (Source 0) p_start =
  Ok p_start (NumaPolicy 99 PCuda (Source 0)).
Proof. vm_compute. reflexivity. Qed.
Print Assumptions C63_missing_node_refuted.

(** C64: an allocation that is returned by advisors and prefetchers, however stacked, has had exactly the hints due, each
    once, for its pointer, size and device, the innermost first. *)
Theorem C64_hints :
  forall page available usable binds place fails current props t n w w' q,
    s_allocate page available usable binds place fails current props t n w = Ok w' q ->
    p_hints w' = (rev (hints_due (can_prefetch current props) t q n) ++ p_hints w)%list.
Proof. exact place_hints. Qed.
Print Assumptions C64_hints.

(** C64: an advisor is made exactly for the advice documented for the platform of its allocator; it advises for the host
    if the accessing allocator is one of the host and the build has CUDA, and for the device named otherwise. *)
Theorem C64_advisor :
  forall c plat a t accessing d w, new_advisor c plat (advice_name a) t accessing d w =
    match find (fun x => platform_eqb (fst x) (platform_of plat t)) (advisable c a) with
    | Some (_, op) => Ok w (Advisor op (if oc_cuda c && platform_eqb (platform_of plat accessing) PHost then -1 else d) t)
    | None => Throw w RuntimeError
    end.
Proof. exact place_new_advisor. Qed.
Print Assumptions C64_advisor.

(** C64: a prefetcher is made exactly for allocators of CUDA and SYCL in builds that have them. *)
Theorem C64_prefetcher :
  forall c plat t d w, new_prefetcher c plat t d w =
    match platform_of plat t with
    | PCuda => if oc_cuda c then Ok w (Prefetcher CudaMemPrefetchOperation d t) else Throw w RuntimeError
    | PSycl => if oc_sycl c then Ok w (Prefetcher SyclMemPrefetchOperation d t) else Throw w RuntimeError
    | _ => Throw w RuntimeError
    end.
Proof. exact place_new_prefetcher. Qed.
Print Assumptions C64_prefetcher.

(** Read-mostly memory prefetched to device 1, and preferred by the host. *)
Example C64_hints_ex :
  match new_advisor numa_cuda (fun i => if i =? 0 then PHost else PCuda) (advice_name SetReadMostly) (Source 7) (Source 7) 1 p_start with
  | Ok w0 t0 =>
      match new_prefetcher numa_cuda (fun i => if i =? 0 then PHost else PCuda) t0 1 w0 with
      | Ok w1 t1 =>
          match new_advisor numa_cuda (fun i => if i =? 0 then PHost else PCuda) (advice_name SetPreferredLocation) t1 (Source 0) 1 w1 with
          | Ok w2 t2 =>
              match s_allocate 4096 true (fun _ => true) (fun _ => None) (fun _ _ _ => Some 4096) (fun _ => false) 0 (fun _ => Some true) t2 100 w2 with
              | Ok w q => p_hints w = [mkHint (Some SetPreferredLocation) 4096 100 (-1); mkHint None 4096 100 1;
                                       mkHint (Some SetReadMostly) 4096 100 1]
              | _ => False
              end
          | _ => False
          end
      | _ => False
      end
  | _ => False
  end.
Proof. vm_compute. reflexivity. Qed.

(** "A prefetcher prefetches the memory of SYCL": it is made, and every allocation that the memory beneath serves is
    undefined behaviour, for the operation reads through the record it is not given. *)
Theorem C64_sycl_prefetcher_refuted :
  forall c plat t d w, oc_sycl c = true -> platform_of plat t = PSycl ->
    exists t', new_prefetcher c plat t d w = Ok w t' /\
      forall page available usable binds place fails current props n v v1 q,
        s_allocate page available usable binds place fails current props t n v = Ok v1 q ->
        s_allocate page available usable binds place fails current props t' n v = UB.
Proof.
  intros c plat t d w Hc Hp. exists (Prefetcher SyclMemPrefetchOperation d t). rewrite C64_prefetcher, Hp, Hc.
  split; [reflexivity|]. intros. eapply place_sycl_prefetcher. eauto.
Qed.
Print Assumptions C64_sycl_prefetcher_refuted.

(** "Every allocation returned by a prefetcher was prefetched" is false on devices without concurrent managed access. *)
Theorem C64_not_prefetched_refuted :
  match s_allocate 4096 true (fun _ => true) (fun _ => None) (fun _ _ _ => Some 4096) (fun _ => false) 0 (fun _ => Some false)
          (Prefetcher CudaMemPrefetchOperation 1 (Source 7)) 100 p_start with
  | Ok w q => q = 4096 /\ p_hints w = []
  | _ => False
  end.
Proof. vm_compute. auto. Qed.
Print Assumptions C64_not_prefetched_refuted.

(** "An advisor for an accessing allocator of the host advises for the host" is false of HIP: the accessing allocator is
    not looked at. *)
Theorem C64_accessing_refuted :
  new_advisor (mkOpconfig false false true true false false) (fun i => if i =? 0 then PHost else PHip)
    (advice_name SetPreferredLocation) (Source 7) (Source 0) 3 p_start =
  Ok p_start (Advisor (HipAdviseOperation SetPreferredLocation) 3 (Source 7)).
Proof. vm_compute. reflexivity. Qed.
Print Assumptions C64_accessing_refuted.

(** "Only operations that can be applied make an advisor" is false: any registered name will do, and every allocation
    throws and keeps the memory beneath. *)
Theorem C64_any_operation_refuted :
  match new_advisor numa_cuda (fun _ => PCuda) "COPY" (Source 7) (Source 7) 0 p_start with
  | Ok w0 t =>
      match s_allocate 4096 true (fun _ => true) (fun _ => None) (fun _ _ _ => Some 4096) (fun _ => false) 0 (fun _ => Some true) t 100 w0 with
      | Throw w e => e = RuntimeError /\ p_live w = [] /\ p_taken w = [(4096, 100)]
      | _ => False
      end
  | _ => False
  end.
Proof. vm_compute. auto. Qed.
Print Assumptions C64_any_operation_refuted.
