(** Model of DeviceAllocator (src/umpire/DeviceAllocator.cpp) and of the table of them
    (src/umpire/device_allocator_helper.cpp).

    Device threads run concurrently; every access to the counter is one step of the model, and steps of different
    threads interleave arbitrarily.  Offsets are relative to [m_ptr].  [hip]: compiled for HIP, where [allocate]
    checks the counter; under CUDA it does not. *)
From Coq Require Import String Ascii.
From Verif Require Import Base.

(** The counter (an [unsigned int]), the threads between the addition and the end of [allocate] with the offset they read
    and the size they asked for, and the threads inside the loop of [reset] with the value they read. *)
Record dstate : Type := mkD { d_counter : Z; d_pend : fmap (Z * Z); d_cas : fmap Z }.

Inductive dact : Type :=
| DAdd (t n : Z)     (* 74: atomicAdd; [size] is converted to unsigned int *)
| DCheck (t : Z)     (* 75-81: the check under HIP, and the return *)
| DRead (t : Z)      (* 121 *)
| DCas (t : Z)       (* 122-123 *)
| DZero.             (* 116-117: reset called on the host *)

Inductive dout : Type := DNone | DGot (off n : Z) | DError | DDone | DStuck.

(** 26-30 of the constructor. *)
Definition d_init : dstate := mkD 0 fempty fempty.

Definition dexec (hip : bool) (size : Z) (x : dact) (s : dstate) : dstate * dout :=
  match x with
  | DAdd t n =>
      match d_pend s t with
      | Some _ => (s, DStuck)
      | None => (mkD (w32 (d_counter s + w32 n)) (fset (d_pend s) t (d_counter s, n)) (d_cas s), DNone)
      end
  | DCheck t =>
      match d_pend s t with
      | None => (s, DStuck)
      | Some (off, n) =>
          (mkD (d_counter s) (fdel (d_pend s) t) (d_cas s),
           if hip && (size <? d_counter s) then DError else DGot off n)
      end
  | DRead t => (mkD (d_counter s) (d_pend s) (fset (d_cas s) t (d_counter s)), DNone)
  | DCas t =>
      match d_cas s t with
      | None => (s, DStuck)
      | Some a =>
          if d_counter s =? a then (mkD 0 (d_pend s) (fdel (d_cas s) t), DDone)
          else (mkD (d_counter s) (d_pend s) (fdel (d_cas s) t), DNone)
      end
  | DZero => (mkD 0 (d_pend s) (d_cas s), DDone)
  end.

(** ** The table *)

(** An entry: name (a C string in 64 bytes) and size.  The array is fresh memory; what it holds at first is arbitrary. *)
Record dentry : Type := mkEntry { e_name : string; e_size : Z; e_id : Z }.
Definition DEV_ALLOCS : Z := 64.                       (* device_allocator_helper.hpp:30 *)
Definition NAME_BYTES : Z := 64.                       (* DeviceAllocator.hpp:111 *)

Record dtable : Type := mkTable { t_array : option (list dentry); t_index : Z }.
Definition t_init : dtable := mkTable None 0.

(** device_allocator_helper.cpp:36-40 *)
Definition convert_to_array_index (neg_id : Z) : Z := neg_id * (-1) - 1.

Fixpoint set_nth {A : Type} (l : list A) (i : nat) (x : A) : list A :=
  match l, i with
  | [], _ => []
  | _ :: l, O => x :: l
  | y :: l, S i => y :: set_nth l i x
  end.

(** 180-218 with DeviceAllocator.cpp:19-39 (names without NUL).  [fresh]: the contents of the array if it has to be
    allocated.  A name of 64 or more characters overruns [m_name]; an index beyond the array is written all the same. *)
Definition make_device_allocator (fresh : list dentry) (size : Z) (name : string) (T : dtable) : outcome dtable dentry :=
  if size <=? 0 then Throw T RuntimeError
  else
    let '(arr, index) := match t_array T with Some a => (a, t_index T) | None => (fresh, 0) end in
    if NAME_BYTES <=? Z.of_nat (String.length name) then UB
    else if DEV_ALLOCS <=? index then UB
    else
      let e := mkEntry name size (convert_to_array_index index) in
      Ok (mkTable (Some (set_nth arr (Z.to_nat index) e)) (index + 1)) e.

(** 46-59, host: the last entry of that name. *)
Fixpoint host_index (i : Z) (name : string) (l : list dentry) (index : Z) : Z :=
  match l with
  | [] => index
  | e :: l => host_index (i + 1) name l (if String.eqb (e_name e) name then i else index)
  end.
(** 69-76, device: the comparison of one entry; [true] if no difference was counted. *)
Fixpoint device_match (temp name : string) : bool :=
  match temp, name with
  | EmptyString, _ => true                    (* temp[curr] == 0: break *)
  | String a temp', EmptyString => false      (* differs from the NUL, and the loop ends *)
  | String a temp', String b name' => Ascii.eqb a b && device_match temp' name'
  end.
(** 65-81, device: the first entry that matches. *)
Fixpoint device_index (i : Z) (name : string) (l : list dentry) : Z :=
  match l with
  | [] => -1
  | e :: l => if device_match (e_name e) name then i else device_index (i + 1) name l
  end.

(** 104-117 *)
Definition get_by_name (device : bool) (name : string) (T : dtable) : outcome dtable dentry :=
  match t_array T with
  | None => Throw T RuntimeError
  | Some l =>
      let index := if device then device_index 0 name l else host_index 0 name l (-1) in
      if index =? -1 then Throw T RuntimeError
      else match nth_error l (Z.to_nat index) with Some e => Ok T e | None => UB end
  end.

(** 119-135 with 157-175; before any allocator has been made the array pointer is null. *)
Definition get_by_id (da_id : Z) (T : dtable) : outcome dtable dentry :=
  let id := convert_to_array_index da_id in
  if (id <? 0) || (DEV_ALLOCS - 1 <? id) then Throw T RuntimeError
  else match t_array T with
       | None => UB
       | Some l => match nth_error l (Z.to_nat id) with
                   | Some e => if 0 <? e_size e then Ok T e else Throw T RuntimeError
                   | None => UB
                   end
       end.

(** 220-228: destroys every entry with a size (the list returned).  An entry that was never made but does not look empty is
    destroyed too.  Calling it without an array dereferences null.  The array itself is not given back. *)
Definition destroy_device_allocator (T : dtable) : outcome dtable (list dentry) :=
  match t_array T with
  | None => UB
  | Some l =>
      if existsb (fun e => 0 <? e_size e) (skipn (Z.to_nat (t_index T)) l) then UB
      else Ok (mkTable None (t_index T)) (filter (fun e => 0 <? e_size e) l)
  end.
