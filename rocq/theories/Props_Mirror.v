(** C86: the memory of device allocators, and the table that device code looks into. *)
From Coq Require Import String Ascii.
From Verif Require Import Base DeviceModel DeviceSpec MirrorModel MirrorSpec MirrorFacts MirrorRun.

(** What is in use: the memory and the counter of every device allocator, the array of them, the arrays before it, and at most one
    further allocation for each call of make_device_allocator that threw. *)
Theorem C86_memory place fresh copy_ok w made old k :
  blank_arrays fresh -> mhist place fresh copy_ok w made old k ->
  exists lost, Permutation (dw_live w) (flat_map memory_of made ++ um (arrays_at (dw_host w) ++ old) ++ lost) /\ (length lost <= k)%nat.
Proof. intros H. exact (m_memory place fresh copy_ok H w made old k). Qed.
Print Assumptions C86_memory.

(** Destruction, by hand or at the exit, never throws and gives back the memory and the counter of every device allocator,
    and nothing else. *)
Theorem C86_destroy place fresh copy_ok w made old k a :
  blank_arrays fresh -> mhist place fresh copy_ok w made old k -> dw_host w = Some a ->
  exists w' lost, destroy_all w = Ok w' tt /\ at_exit w = Ok w' tt /\ dw_host w' = None /\
    Permutation (dw_live w) (flat_map memory_of made ++ um (a :: old) ++ lost) /\
    Permutation (dw_live w') (um (a :: old) ++ lost) /\ (length lost <= k)%nat.
Proof. intros H. exact (m_destroy place fresh copy_ok H w made old k a). Qed.
Print Assumptions C86_destroy.

(** A device allocator can be made if its size is not zero, its name is short, there are fewer than 64 and no allocation fails. *)
Theorem C86_make place fresh copy_ok w made old k i size name :
  blank_arrays fresh -> mhist place fresh copy_ok w made old k -> 0 < size -> Z.of_nat (String.length name) < 64 ->
  Z.of_nat (length made) < 64 -> (forall n, place n <> None) ->
  exists w' p c, make place fresh copy_ok i size name w = Ok w' (mkDA (mkEntry name size (- Z.of_nat (length made) - 1)) i p c) /\
    exists a, dw_host w' = Some a /\
      (dw_host w = Some a /\ dw_live w' = (c, UM) :: (p, i) :: dw_live w \/
       dw_host w = None /\ dw_live w' = (c, UM) :: (p, i) :: (a, UM) :: dw_live w).
Proof. intros H. exact (m_make place fresh copy_ok H w made old k i size name). Qed.
Print Assumptions C86_make.

(** The host finds each by its identifier, and the newest of a name. *)
Theorem C86_host_id place fresh copy_ok w made old k d :
  blank_arrays fresh -> mhist place fresh copy_ok w made old k -> In d made -> get_id false (e_id (da_entry d)) w = Ok w d.
Proof. intros H. exact (m_host_id place fresh copy_ok H w made old k d). Qed.
Print Assumptions C86_host_id.

Theorem C86_host_name place fresh copy_ok w old k newer d older :
  blank_arrays fresh -> mhist place fresh copy_ok w (newer ++ d :: older) old k ->
  (forall x, In x newer -> e_name (da_entry x) <> e_name (da_entry d)) ->
  (forall a x, In x (fresh a) -> e_name (da_entry x) <> e_name (da_entry d)) ->
  get_name false (e_name (da_entry d)) w = Ok w d.
Proof. intros H. exact (m_host_name place fresh copy_ok H w old k newer d older). Qed.
Print Assumptions C86_host_name.

(** Until the first destruction the device looks into the host's array, if copies to symbols succeed; it finds each by its
    identifier, and the oldest whose name is a prefix. *)
Theorem C86_view place fresh copy_ok w made k :
  (forall n, copy_ok n = true) -> mhist place fresh copy_ok w made [] k -> made <> [] ->
  exists a, dw_host w = Some a /\ dw_dev w = Some a.
Proof. exact (m_view place fresh copy_ok w made k). Qed.
Print Assumptions C86_view.

Theorem C86_device_id place fresh copy_ok w made k d :
  blank_arrays fresh -> (forall n, copy_ok n = true) -> mhist place fresh copy_ok w made [] k -> In d made ->
  get_id true (e_id (da_entry d)) w = Ok w d.
Proof. intros H. exact (m_device_id place fresh copy_ok H w made k d). Qed.
Print Assumptions C86_device_id.

Theorem C86_device_name place fresh copy_ok w k newer d older name :
  blank_arrays fresh -> (forall n, copy_ok n = true) -> mhist place fresh copy_ok w (newer ++ d :: older) [] k ->
  prefix (e_name (da_entry d)) name -> (forall x, In x older -> ~ prefix (e_name (da_entry x)) name) ->
  get_name true name w = Ok w d.
Proof. intros H. exact (m_device_name place fresh copy_ok H w k newer d older name). Qed.
Print Assumptions C86_device_name.

(** Once the library has used the macro the device keeps the array that it has, whatever is made and destroyed, until another
    translation unit uses the macro for the first time. *)
Theorem C86_kept place fresh copy_ok w w' :
  dw_track w 0%nat = true -> later place fresh copy_ok w w' -> dw_dev w' = dw_dev w.
Proof. exact (m_kept place fresh copy_ok w w'). Qed.
Print Assumptions C86_kept.

(** The host never has an array again that was abandoned. *)
Theorem C86_abandoned place fresh copy_ok w made old k a :
  blank_arrays fresh -> mhist place fresh copy_ok w made old k -> In a old -> dw_host w <> Some a.
Proof. intros H. exact (m_abandoned place fresh copy_ok H w made old k a). Qed.
Print Assumptions C86_abandoned.

(** A translation unit that uses the macro for the first time sets the device right. *)
Theorem C86_repair place fresh copy_ok w made old k t d :
  blank_arrays fresh -> mhist place fresh copy_ok w made old k -> t <> 0%nat -> dw_track w t = false -> copy_ok (dw_copies w) = true ->
  In d made -> get_id true (e_id (da_entry d)) (set_up copy_ok t w) = Ok (set_up copy_ok t w) d.
Proof. intros H. exact (m_repair place fresh copy_ok H w made old k t d). Qed.
Print Assumptions C86_repair.

(** What was not made is not found: by no other identifier, and by no other name; to the device a name is found if one begins it.
    A size of zero is refused and nothing happens. *)
Theorem C86_absent_id place fresh copy_ok w made old k a id :
  blank_arrays fresh -> mhist place fresh copy_ok w made old k -> dw_host w = Some a -> (forall d, In d made -> e_id (da_entry d) <> id) ->
  get_id false id w = Throw w RuntimeError.
Proof. intros H. exact (m_absent_id place fresh copy_ok H w made old k a id). Qed.
Print Assumptions C86_absent_id.

Theorem C86_absent_name place fresh copy_ok w made old k name :
  blank_arrays fresh -> mhist place fresh copy_ok w made old k -> (forall d, In d made -> e_name (da_entry d) <> name) ->
  (forall a x, In x (fresh a) -> e_name (da_entry x) <> name) -> get_name false name w = Throw w RuntimeError.
Proof. intros H. exact (m_absent_name place fresh copy_ok H w made old k name). Qed.
Print Assumptions C86_absent_name.

Theorem C86_absent_device place fresh copy_ok w made k :
  blank_arrays fresh -> (forall n, copy_ok n = true) -> mhist place fresh copy_ok w made [] k -> made <> [] ->
  (forall id, (forall d, In d made -> e_id (da_entry d) <> id) -> get_id true id w = Throw w RuntimeError) /\
  (forall name, (forall d, In d made -> ~ prefix (e_name (da_entry d)) name) -> (forall a x, In x (fresh a) -> ~ prefix (e_name (da_entry x)) name) ->
    get_name true name w = Throw w RuntimeError).
Proof.
  intros H Hc Hh Hm. split; [intros id Hi; exact (m_absent_dev place fresh copy_ok H w made k id Hc Hh Hm Hi)|].
  intros name Hn Hf. exact (m_absent_dev_name place fresh copy_ok H w made k name Hc Hh Hn Hf Hm).
Qed.
Print Assumptions C86_absent_device.

Theorem C86_no_size place fresh copy_ok i size name w : size <= 0 -> make place fresh copy_ok i size name w = Throw w RuntimeError.
Proof. exact (m_no_size place fresh copy_ok i size name w). Qed.
Print Assumptions C86_no_size.

(** Two are made, and no memory of an array looks like a third: it is refused by identifier and by name. *)
Example C86_absent_case :
  exists w made old k, mhist any_place any_fresh any_copy w made old k /\
    (map (fun d => e_id (da_entry d)) made, old, map (fun o => match o with Throw _ e => Some e | _ => None end)
       [get_id false (-3) w; get_id true (-3) w; get_id false 0 w; get_id true 0 w; get_name false "c" w; get_name true "c" w]) =
    ([-2; -1], [], repeat (Some RuntimeError) 6).
Proof.
  exact (mobs any_place any_fresh any_copy [OMake 3 4 "a"; OMake 4 8 "b"]
    (fun w made old k => (map (fun d => e_id (da_entry d)) made, old, map (fun o => match o with Throw _ e => Some e | _ => None end)
       [get_id false (-3) w; get_id true (-3) w; get_id false 0 w; get_id true 0 w; get_name false "c" w; get_name true "c" w]))
    _ ltac:(vm_compute; reflexivity)).
Qed.

(** A history with a call that is refused and two device allocators: five allocations, and both are found on both sides. *)
Example C86_case :
  exists w made old k, mhist any_place any_fresh any_copy w made old k /\
    (length (dw_live w), map da_entry made, old, k) = (5%nat, [mkEntry "b" 8 (-2); mkEntry "a" 4 (-1)], [], 1%nat) /\
    get_name true "b" w = get_name false "b" w /\ get_id true (-1) w = get_id false (-1) w.
Proof.
  destruct (mobs any_place any_fresh any_copy [OMake 3 4 "a"; OMake 3 0 "x"; OSetUp 1; OMake 4 8 "b"]
    (fun w made old k => ((length (dw_live w), map da_entry made, old, k), (get_name true "b" w, get_id true (-1) w), (get_name false "b" w, get_id false (-1) w)))
    _ ltac:(vm_compute; reflexivity)) as (w & made & old & k & H & E).
  exists w, made, old, k. split; [exact H|]. injection E as E1 E2 E3 E4 E5 E6 E7 E8. split; [now rewrite E1, E2, E3, E4|]. split; congruence.
Qed.

(** The array itself is never given back: after two rounds two of them are left with nothing made. *)
Theorem C86_array_refuted :
  exists w made old k, mhist any_place any_fresh any_copy w made old k /\
    (made, k, dw_host w, dw_live w) = ([], 0%nat, None, [(4000, UM); (1000, UM)]).
Proof.
  exact (mobs any_place any_fresh any_copy [OMake 3 4 "a"; ODestroy; OMake 3 4 "a"; ODestroy]
    (fun w made old k => (made, k, dw_host w, dw_live w)) _ ltac:(vm_compute; reflexivity)).
Qed.
Print Assumptions C86_array_refuted.

(** If the counter cannot be allocated the memory of the device allocator is lost: destroying everything leaves it in use. *)
Theorem C86_lost_refuted :
  exists w made old k, mhist (but_place 2) any_fresh any_copy w made old k /\
    (made, old, k, dw_live w) = ([], [1000], 1%nat, [(2000, 3); (1000, UM)]).
Proof.
  exact (mobs (but_place 2) any_fresh any_copy [OMake 3 4 "a"; ODestroy]
    (fun w made old k => (made, old, k, dw_live w)) _ ltac:(vm_compute; reflexivity)).
Qed.
Print Assumptions C86_lost_refuted.

(** After a destruction and a new device allocator the device finds by the same identifier the destroyed one, whose memory is not in use,
    finds it by its name too, and does not find the new one by its name. *)
Theorem C86_remade_refuted :
  exists w made old k, mhist any_place any_fresh any_copy w made old k /\
    (map (fun d => e_name (da_entry d)) made,
     answer (get_id false (-1) w), answer (get_id true (-1) w), answer (get_name true "old" w), answer (get_name true "new" w)) =
    (["new"%string], Some ("new"%string, true), Some ("old"%string, false), Some ("old"%string, false), None).
Proof.
  exact (mobs any_place any_fresh any_copy [OMake 3 4 "old"; ODestroy; OMake 3 4 "new"]
    (fun w made old k => (map (fun d => e_name (da_entry d)) made,
       answer (get_id false (-1) w), answer (get_id true (-1) w), answer (get_name true "old" w), answer (get_name true "new" w)))
    _ ltac:(vm_compute; reflexivity)).
Qed.
Print Assumptions C86_remade_refuted.

(** A copy to the symbol that fails is not repeated: the device has no array although the host finds the device allocator. *)
Theorem C86_copy_refuted :
  exists w made old k, mhist any_place any_fresh (fun n => Nat.ltb 0 n) w made old k /\
    (length made, old, dw_dev w, answer (get_id false (-1) w), get_id true (-1) w) = (2%nat, [], None, Some ("a"%string, true), UB).
Proof.
  exact (mobs any_place any_fresh (fun n => Nat.ltb 0 n) [OMake 3 4 "a"; OMake 3 4 "b"]
    (fun w made old k => (length made, old, dw_dev w, answer (get_id false (-1) w), get_id true (-1) w)) _ ltac:(vm_compute; reflexivity)).
Qed.
Print Assumptions C86_copy_refuted.

(** The public destroy() of the object that make_device_allocator returned leaves the entry of the table: the host still finds it, with memory that is
    not in use; destroy_device_allocator throws then, with the other device allocator not given back; and the exit ends the program. *)
Theorem C86_handle_refuted :
  exists w made old k, mhist any_place any_fresh any_copy w made old k /\
    match made with
    | [b; a] =>
        match destroy_one a w with
        | Ok w1 _ =>
            (answer (get_id false (e_id (da_entry a)) w1), match destroy_all w1 with Throw w2 e => Some (e, dw_live w2) | _ => None end,
             memory_of b, match at_exit w1 with Abort => true | _ => false end)
        | _ => (None, None, [], false)
        end
    | _ => (None, None, [], false)
    end = (Some ("a"%string, false), Some (RuntimeError, [(5000, UM); (4000, 3); (1000, UM)]), [(4000, 3); (5000, UM)], true).
Proof.
  refine (mobs any_place any_fresh any_copy [OMake 3 4 "a"; OMake 3 4 "b"] (fun w made old k => match made with
    | [b; a] => _ | _ => _ end) _ ltac:(vm_compute; reflexivity)).
Qed.
Print Assumptions C86_handle_refuted.
