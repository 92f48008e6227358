(** Model of the sanitizer calls of the pools (src/umpire/util/memory_sanitizers.hpp,
    strategy/mixins/AlignedAllocation.inl:28, QuickPool.cpp:135, 149, DynamicSizePool.hpp:328, 347), as compiled with
    [UMPIRE_ENABLE_ASAN] and [-fsanitize=address].

    The world below a pool is a pair of whatever the parent keeps and the shadow memory of AddressSanitizer.  The
    calls are added to the models of the pools (QuickPoolModel.v, DynPoolModel.v); everything else of the pools is
    used as it stands there.

    Simplified: a shadow byte is an integer; the run time options of AddressSanitizer are the default ones
    ([allow_user_poisoning]). *)
From Verif Require Import Base AlignedModel QuickPoolModel DynPoolModel.

(** One shadow byte for eight bytes of memory: 0 all addressable, 1..7 only so many, negative none. *)
Definition shadow : Type := Z -> Z.

(** What AddressSanitizer reports: an access to byte [a] is an error. *)
Definition poisoned (sh : shadow) (a : Z) : bool :=
  negb (sh (a / 8) =? 0) && (sh (a / 8) <=? a mod 8).

Definition sh_set (sh : shadow) (g v : Z) : shadow := fun x => if x =? g then v else sh x.
Definition sh_fill (sh : shadow) (lo hi v : Z) : shadow := fun x => if (lo <=? x) && (x <? hi) then v else sh x.

(** kAsanUserPoisonedMemoryMagic = 0xf7 as a signed byte *)
Definition MAGIC : Z := -9.

(** ASAN_POISON_MEMORY_REGION: [__asan_poison_memory_region] of the compiler's run time library (not part of /repo). *)
Definition asan_poison (beg size : Z) (sh : shadow) : shadow :=
  if size =? 0 then sh
  else
    let e := w64 (beg + size) in
    let bc := beg / 8 in let bo := beg mod 8 in
    let ec := e / 8 in let eo := e mod 8 in
    if bc =? ec then
      let v := sh bc in
      if (0 <? v) && (v <=? eo) then sh_set sh bc (if 0 <? bo then Z.min v bo else MAGIC) else sh
    else
      let sh1 := if 0 <? bo then sh_set sh bc (if sh bc =? 0 then bo else Z.min (sh bc) bo) else sh in
      let first := if 0 <? bo then bc + 1 else bc in
      let sh2 := sh_fill sh1 first ec MAGIC in
      if (0 <? sh ec) && (sh ec <=? eo) then sh_set sh2 ec MAGIC else sh2.

(** ASAN_UNPOISON_MEMORY_REGION: [__asan_unpoison_memory_region]. *)
Definition asan_unpoison (beg size : Z) (sh : shadow) : shadow :=
  if size =? 0 then sh
  else
    let e := w64 (beg + size) in
    let bc := beg / 8 in let bo := beg mod 8 in
    let ec := e / 8 in let eo := e mod 8 in
    if bc =? ec then
      if sh bc =? 0 then sh else sh_set sh bc (Z.max (sh bc) eo)
    else
      let sh1 := if 0 <? bo then sh_set sh bc 0 else sh in
      let first := if 0 <? bo then bc + 1 else bc in
      let sh2 := sh_fill sh1 first ec 0 in
      if (0 <? eo) && negb (sh ec =? 0) then sh_set sh2 ec (Z.max (sh ec) eo) else sh2.

Section WithParent.
  Context {W : Type} (P : Parent (W * shadow)).
  (** [m_allocator->getPlatform() == umpire::Platform::host] (memory_sanitizers.hpp:38, 43) *)
  Context (host : bool).

  (** memory_sanitizers.hpp:37-45 *)
  Definition u_poison (p n : Z) (ws : W * shadow) : W * shadow :=
    if host then (fst ws, asan_poison p n (snd ws)) else ws.
  Definition u_unpoison (p n : Z) (ws : W * shadow) : W * shadow :=
    if host then (fst ws, asan_unpoison p n (snd ws)) else ws.

  (** AlignedAllocation.inl:25-28: the block obtained from the parent is poisoned whole at once; seen from the rest of
      [aligned_allocate] this is what the parent's [allocate_internal] does.  [aligned_deallocate] (40-47) has no such call. *)
  Definition zP : Parent (W * shadow) :=
    mkParent
      (fun n ws => let* (ws', p) := p_alloc P n ws in Ok (u_poison p n ws') p)
      (p_dealloc P).

  Section Quick.
    Context (cfg : qcfg).

    Definition zq : Type := (qpool * (W * shadow))%type.

    (** QuickPool.cpp:43-137 with line 135 *)
    Definition z_allocate (bytes : Z) (sw : zq) : outcome zq Z :=
      let* (sw1, p) := q_allocate zP cfg bytes sw in
      Ok (fst sw1, u_unpoison p bytes (snd sw1)) p.

    (** [chunk->size] of the chunk [m_pointer_map] has for [ptr] (QuickPool.cpp:142, 149) *)
    Definition z_chunk_size (ptr : Z) (s : qpool) : Z :=
      match pm_find ptr (q_ptrmap s) with
      | Some c => match q_chunks s c with Some ch => c_size ch | None => 0 end
      | None => 0
      end.

    (** QuickPool.cpp:139-202 with line 149, and 331-346: as [q_deallocate] *)
    Fixpoint z_deallocate (fuel : nat) (ptr : Z) (sw : zq) : outcome zq unit :=
      match q_free_core ptr (fst sw) with
      | None => UB
      | Some s =>
          let ws := u_poison ptr (z_chunk_size ptr (fst sw)) (snd sw) in
          let suggested := cf_heur cfg (q_view s) in
          if suggested =? 0 then Ok (s, ws) tt
          else
            match fuel with
            | O => NoFuel
            | S f =>
                noexcept
                  (if 1 <? Z.of_nat (length (q_sizemap s)) then
                     let* (sw1, _u) := q_release zP (s, ws) in
                     let post_size := q_actual (fst sw1) in
                     if post_size <? suggested then
                       let* (sw2, p) := z_allocate (suggested - post_size) sw1 in
                       z_deallocate f p sw2
                     else Ok sw1 tt
                   else Ok (s, ws) tt)
            end
      end.

    (** QuickPool.cpp:204-251 *)
    Definition z_release (sw : zq) : outcome zq unit := q_release zP sw.

    (** QuickPool.cpp:331-346 *)
    Definition z_do_coalesce (fuel : nat) (suggested : Z) (sw : zq) : outcome zq unit :=
      noexcept
        (if 1 <? Z.of_nat (length (q_sizemap (fst sw))) then
           let* (sw1, _u) := q_release zP sw in
           let post_size := q_actual (fst sw1) in
           if post_size <? suggested then
             let* (sw2, p) := z_allocate (suggested - post_size) sw1 in
             z_deallocate fuel p sw2
           else Ok sw1 tt
         else Ok sw tt).

    (** QuickPool.cpp:316-329 *)
    Definition z_coalesce (fuel : nat) (sw : zq) : outcome zq unit :=
      let suggested := cf_heur cfg (q_view (fst sw)) in
      if suggested =? 0 then Ok sw tt
      else z_do_coalesce fuel suggested sw.

    (** The pool as the parent of another sanitized strategy: the same shadow memory above and below. *)
    Definition assoc_sw (sw : zq) : (qpool * W) * shadow := ((fst sw, fst (snd sw)), snd (snd sw)).
    Definition z_parent (fuel : nat) : Parent ((qpool * W) * shadow) :=
      mkParent
        (fun n x => omap assoc_sw (fun p => p) (z_allocate n (fst (fst x), (snd (fst x), snd x))))
        (fun p _ x => omap assoc_sw (fun u => u) (z_deallocate fuel p (fst (fst x), (snd (fst x), snd x)))).
  End Quick.

  Section Dyn.
    Context (cfg : dcfg).

    Definition zd : Type := (dpool * (W * shadow))%type.

    (** DynamicSizePool.hpp:304-332 with line 328 *)
    Definition y_allocate (bytes : Z) (sw : zd) : outcome zd Z :=
      let* (sw1, p) := d_allocate zP cfg bytes sw in
      Ok (fst sw1, u_unpoison p bytes (snd sw1)) p.

    (** DynamicSizePool.hpp:334-352 with line 347: [curr->size] of the used block at [ptr]; an unknown pointer is ignored *)
    Definition y_free (ptr : Z) (sw : zd) : zd :=
      match d_lookup ptr (d_used (fst sw)) with
      | None => sw
      | Some (curr, _) => (d_free_core ptr (fst sw), u_poison ptr (d_size curr) (snd sw))
      end.

    (** DynamicSizePool.hpp:354-358 *)
    Definition y_release (sw : zd) : outcome zd unit := d_release zP sw.

    (** DynamicSizePool.hpp:271-278 *)
    Definition y_coalesce_free (size : Z) (sw : zd) : outcome zd unit :=
      let* (sw1, _u) := d_release zP sw in
      let* (sw2, p) := y_allocate size sw1 in
      Ok (y_free p sw2) tt.

    (** DynamicSizePool.hpp:442-454 *)
    Definition y_dpa_coalesce (suggested : Z) (sw : zd) : outcome zd unit :=
      if 1 <? d_free_blocks (d_free (fst sw)) then
        let* (sw1, _u) := d_release zP sw in
        let size_post := d_actual (fst sw1) in
        if size_post <? suggested then y_coalesce_free (suggested - size_post) sw1 else Ok sw1 tt
      else Ok sw tt.

    (** DynamicPoolList.cpp:36-49 *)
    Definition y_deallocate (cur ptr : Z) (sw : zd) : outcome zd unit :=
      let sw1 := y_free ptr sw in
      let suggested := dc_heur cfg cur (d_view (fst sw1)) in
      if suggested =? 0 then Ok sw1 tt else y_dpa_coalesce suggested sw1.

    (** DynamicPoolList.cpp:125-137, [noexcept] *)
    Definition y_coalesce (cur : Z) (sw : zd) : outcome zd unit :=
      let suggested := dc_heur cfg cur (d_view (fst sw)) in
      if suggested =? 0 then Ok sw tt else noexcept (y_dpa_coalesce suggested sw).
  End Dyn.
End WithParent.
