(** Model of the operations on memory contents: copy, memset, reallocate and move of the resource
    manager (src/umpire/ResourceManager.cpp) with the host operations they use (src/umpire/op).  All
    allocators live on the host, so that the operation registry (op/MemoryOperationRegistry.cpp:58-68)
    always finds the host operation.  The variants taking a camp resource (asynchronous) are left out, as
    are events and log messages. *)
From Verif Require Import Base HeapModel StratModel GlobalModel MapModel SystemModel.

(** Accesses to memory made by an operation. *)
Inductive access : Type :=
| Read (r : region)
| Write (r : region).

Definition mem : Type := Z -> Z.

(** C [memcpy] and [memset]. *)
Definition mem_copy (dst src n : Z) (m : mem) : mem :=
  fun x => if (dst <=? x) && (x <? dst + n) then m (src + (x - dst)) else m x.
Definition mem_fill (p v n : Z) (m : mem) : mem :=
  fun x => if (p <=? x) && (x <? p + n) then v mod 256 else m x.

Section Ops.
  Context (J : Judy (list arec)) (C : list nodecfg).

  (** The bytes after the [k]-th call on an allocator, as far as they do not belong to an allocation that
      existed before and after it: malloc, free and the pools may have done anything to them. *)
  Context (noise : nat -> mem -> mem).

  Record mworld : Type := mkM {
    mw_sys : sworld J C;
    mw_mem : mem;
    mw_calls : nat;
    mw_log : list access     (** what the operations accessed, newest first *)
  }.

  Definition covered (a : amap J) : Z -> bool :=
    match am_records J (S (Z.to_nat (am_size J a))) 1 a with
    | Ok _ l => fun x => existsb (fun r => (r_ptr r <=? x) && (x <? r_ptr r + r_size r)) l
    | _ => fun _ => false
    end.

  Definition settle (k : nat) (a a' : amap J) (m : mem) : mem :=
    let before := covered a in
    let after := covered a' in
    fun x => if before x && after x then m x else noise k m x.

  (** A call on an allocator. *)
  Definition m_call {A : Type} (f : sworld J C -> outcome (sworld J C) A) (mw : mworld) : outcome mworld A :=
    omap (fun s => mkM s (settle (mw_calls mw) (snd (mw_sys mw)) (snd s) (mw_mem mw)) (S (mw_calls mw)) (mw_log mw))
         (fun x => x) (f (mw_sys mw)).

  (** AllocationMap::find from the resource manager. *)
  Definition m_find (p : Z) (mw : mworld) : outcome mworld arec :=
    omap (fun a => mkM (fst (mw_sys mw), a) (mw_mem mw) (mw_calls mw) (mw_log mw)) (fun r => r)
         (am_find J p (snd (mw_sys mw))).

  (** HostCopyOperation.cpp:16-21: [memcpy], undefined for overlapping objects. *)
  Definition m_memcpy (dst src n : Z) (mw : mworld) : outcome mworld unit :=
    if (0 <? n) && (dst <? src + n) && (src <? dst + n) then UB
    else Ok (mkM (mw_sys mw) (mem_copy dst src n (mw_mem mw)) (mw_calls mw)
                 (Write (dst, n) :: Read (src, n) :: mw_log mw)) tt.

  (** ResourceManager.cpp:375-416. *)
  Definition m_copy (dst src size : Z) (mw : mworld) : outcome mworld unit :=
    let* (mw1, rs) := m_find src mw in
    let src_size := w64 (r_size rs - (src - r_ptr rs)) in
    let* (mw2, rd) := m_find dst mw1 in
    let dst_size := w64 (r_size rd - (dst - r_ptr rd)) in
    let n := if size =? 0 then src_size else size in
    if dst_size <? n then Throw mw2 RuntimeError else m_memcpy dst src n mw2.

  (** ResourceManager.cpp:463-496, HostMemsetOperation.cpp:16-20. *)
  Definition m_memset (p v length : Z) (mw : mworld) : outcome mworld unit :=
    let* (mw1, r) := m_find p mw in
    let size := w64 (r_size r - (p - r_ptr r)) in
    let n := if length =? 0 then size else length in
    if size <? n then Throw mw1 RuntimeError
    else Ok (mkM (mw_sys mw1) (mem_fill p v n (mw_mem mw1)) (mw_calls mw1) (Write (p, n) :: mw_log mw1)) tt.

  (** GenericReallocateOperation.cpp:19-32; the same text is HostReallocateOperation.cpp:21-33 for an
      allocation of zero bytes. *)
  Definition m_realloc_generic (p : Z) (r : arec) (n : Z) (mw : mworld) : outcome mworld Z :=
    let i := Z.to_nat (r_strat r) in
    let* (mw1, q) := m_call (sys_allocate J C i n 0) mw in
    let copy_size := if n <? r_size r then n else r_size r in
    let* (mw2, u) := m_copy q p copy_size mw1 in
    let* (mw3, u) := m_call (sys_deallocate J C i p) mw2 in
    Ok mw3 q.

  (** HostReallocateOperation.cpp:34-43: [realloc] keeps the bytes up to the smaller size. *)
  Definition m_realloc_host (p : Z) (r : arec) (n : Z) (mw : mworld) : outcome mworld Z :=
    let* (mw1, q) := m_call (sys_host_realloc J C p n) mw in
    let keep := Z.min (r_size r) n in
    Ok (mkM (mw_sys mw1)
            (fun x => if (q <=? x) && (x <? q + keep) then mw_mem mw (p + (x - q)) else mw_mem mw1 x)
            (mw_calls mw1) (Write (q, keep) :: Read (p, keep) :: mw_log mw1)) q.

  (** ResourceManager.cpp:657-705 [reallocate_impl] with allocator [i]. *)
  Definition m_reallocate_with (p n : Z) (i : nat) (mw : mworld) : outcome mworld Z :=
    if p =? 0 then m_call (sys_allocate J C i n 0) mw
    else
      let* (mw1, r) := m_find p mw in
      if negb (r_strat r =? Z.of_nat i) then Throw mw1 RuntimeError
      else if n =? 0 then
        let* (mw2, u) := m_call (sys_deallocate J C i p) mw1 in
        m_call (sys_allocate J C i n 0) mw2
      else if negb (p =? r_ptr r) then Throw mw1 RuntimeError
      else if negb (Nat.eqb i host_id) || (r_size r =? 0) then m_realloc_generic p r n mw1
      else m_realloc_host p r n mw1.

  (** ResourceManager.cpp:536-567, [dflt] being the default allocator. *)
  Definition m_reallocate (dflt : nat) (p n : Z) (mw : mworld) : outcome mworld Z :=
    if p =? 0 then m_reallocate_with p n dflt mw
    else let* (mw1, r) := m_find p mw in m_reallocate_with p n (Z.to_nat (r_strat r)) mw1.

  (** ResourceManager.cpp:758-832 without NUMA support. *)
  Definition m_move (p : Z) (i : nat) (mw : mworld) : outcome mworld Z :=
    let* (mw1, r) := m_find p mw in
    if r_strat r =? Z.of_nat i then Ok mw1 p
    else if negb (p =? r_ptr r) then Throw mw1 RuntimeError
    else
      let* (mw2, q) := m_call (sys_allocate J C i (r_size r) 0) mw1 in
      let* (mw3, u) := m_copy q p 0 mw2 in
      let* (mw4, u) := m_call (rm_deallocate J C p) mw3 in
      Ok mw4 q.
End Ops.
Arguments mkM {J C}. Arguments mw_sys {J C}. Arguments mw_mem {J C}. Arguments mw_calls {J C}. Arguments mw_log {J C}.
