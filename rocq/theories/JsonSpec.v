(** What a JSON text, a string in it and the record of an event are, independently of the code. *)
From Coq Require Import String Sorted HexString.
From Verif Require Import Base ReplayModel JsonModel StoreModel.

Definition tail (lo hi b : Z) : Prop := lo <= b <= hi.

(** Well-formed UTF-8: the grammar of RFC 3629, section 4. *)
Inductive utf8 : bytes -> Prop :=
| u_nil : utf8 []
| u_1 a s : 0 <= a <= 127 -> utf8 s -> utf8 (a :: s)
| u_2 a b s : 194 <= a <= 223 -> tail 128 191 b -> utf8 s -> utf8 (a :: b :: s)
| u_3a b c s : tail 160 191 b -> tail 128 191 c -> utf8 s -> utf8 (224 :: b :: c :: s)
| u_3b a b c s : 225 <= a <= 236 \/ 238 <= a <= 239 -> tail 128 191 b -> tail 128 191 c -> utf8 s ->
                 utf8 (a :: b :: c :: s)
| u_3c b c s : tail 128 159 b -> tail 128 191 c -> utf8 s -> utf8 (237 :: b :: c :: s)
| u_4a b c d s : tail 144 191 b -> tail 128 191 c -> tail 128 191 d -> utf8 s -> utf8 (240 :: b :: c :: d :: s)
| u_4b a b c d s : 241 <= a <= 243 -> tail 128 191 b -> tail 128 191 c -> tail 128 191 d -> utf8 s ->
                   utf8 (a :: b :: c :: d :: s)
| u_4c b c d s : tail 128 143 b -> tail 128 191 c -> tail 128 191 d -> utf8 s -> utf8 (244 :: b :: c :: d :: s).

(** Texts made of bytes. *)
Definition is_bytes (s : bytes) : Prop := Forall (fun b => 0 <= b <= 255) s.

(** A map has each key once, in order. *)
Definition keylt {A} (a b : bytes * A) : Prop := bcmp (fst a) (fst b) = Lt.
Definition sorted {A} (m : list (bytes * A)) : Prop := StronglySorted keylt m.

(** The values that can be written: strings are UTF-8, numbers fit in 64 bits, no [double]. *)
Inductive good_json : json -> Prop :=
| g_null : good_json JNull
| g_bool b : good_json (JBool b)
| g_int z : - 2 ^ 63 <= z < 2 ^ 63 -> good_json (JInt z)
| g_uns z : 0 <= z < 2 ^ 64 -> good_json (JUns z)
| g_str s : utf8 s -> good_json (JStr s)
| g_arr l : Forall good_json l -> good_json (JArr l)
| g_obj m : Forall (fun kv => utf8 (fst kv)) m -> Forall (fun kv => good_json (snd kv)) m -> sorted m ->
            good_json (JObj m).

(** Equal values: a number is the same whether its type is signed or not (json.hpp, [operator==]). *)
Inductive same : json -> json -> Prop :=
| s_null : same JNull JNull
| s_bool b : same (JBool b) (JBool b)
| s_num j j' z : (j = JInt z \/ j = JUns z) -> (j' = JInt z \/ j' = JUns z) -> same j j'
| s_str s : same (JStr s) (JStr s)
| s_arr l l' : Forall2 same l l' -> same (JArr l) (JArr l')
| s_obj m m' : Forall2 (fun a b => fst a = fst b /\ same (snd a) (snd b)) m m' -> same (JObj m) (JObj m').

(** An event as the library has it: maps, words, a time that is a [long].  Without the clause on UTF-8,
    which is about what programs name their allocators. *)
Definition fits (e : ev) : Prop :=
  sorted (v_str e) /\ sorted (v_num e) /\ sorted (v_tag e) /\
  Forall (fun kv => 0 <= snd kv < 2 ^ 64) (v_num e) /\ - 2 ^ 63 <= v_time e < 2 ^ 63.
Definition utf8_ev (e : ev) : Prop :=
  utf8 (v_name e) /\ Forall (fun kv => utf8 (fst kv) /\ utf8 (snd kv)) (v_str e) /\
  Forall (fun kv => utf8 (fst kv)) (v_num e) /\ Forall (fun kv => utf8 (fst kv) /\ utf8 (snd kv)) (v_tag e).

(** Names that JSON writes as they are: no quote, backslash or control character. *)
Definition plain (s : bytes) : Prop := utf8 s /\ Forall (fun b => 32 <= b /\ b <> 34 /\ b <> 92) s.

(** The event that a call asks to be recorded. *)
Definition op (name : string) (num : list (bytes * Z)) (str : list (bytes * bytes)) (t : Z) : ev :=
  {| v_name := bs name; v_cat := Operation; v_num := num; v_str := str;
     v_tag := [(bs "replay", bs "true")]; v_time := t |}.
(** An address in a record: 0x and hexadecimal digits. *)
Definition printed (p : Z) : string := if p =? 0 then "(nil)"%string else HexString.of_Z p.
Definition meant (r : rec) : ev :=
  match r with
  | RGeneric e => e
  | RAllocate n ref p t =>
      op "allocate" [(bs "size", n)] [(bs "allocator_ref", bs (printed ref)); (bs "pointer", bs (printed p))] t
  | RNamed n ref p s t =>
      op "named_allocate" [(bs "size", n)]
         [(bs "allocation_name", s); (bs "allocator_ref", bs (printed ref)); (bs "pointer", bs (printed p))] t
  | RDeallocate ref p t =>
      op "deallocate" [] [(bs "allocator_ref", bs (printed ref)); (bs "pointer", bs (printed p))] t
  end.

Definition word (n : Z) : Prop := 0 <= n < 2 ^ 64.
Definition long (t : Z) : Prop := - 2 ^ 63 <= t < 2 ^ 63.

(** Sizes are words, addresses are not negative, names are plain, generic events are UTF-8. *)
Definition writable (r : rec) : Prop :=
  match r with
  | RGeneric e => fits e /\ utf8_ev e
  | RAllocate n ref p t => word n /\ 0 <= ref /\ 0 <= p /\ long t
  | RNamed n ref p s t => word n /\ 0 <= ref /\ 0 <= p /\ plain s /\ long t
  | RDeallocate ref p t => 0 <= ref /\ 0 <= p /\ long t
  end.

(** An event made of bytes. *)
Definition bytes_ev (e : ev) : Prop :=
  is_bytes (v_name e) /\ Forall (fun kv => is_bytes (fst kv) /\ is_bytes (snd kv)) (v_str e) /\
  Forall (fun kv => is_bytes (fst kv)) (v_num e) /\ Forall (fun kv => is_bytes (fst kv) /\ is_bytes (snd kv)) (v_tag e).

(** The records that a program gets through: for an event that is not UTF-8 it gets an exception. *)
Inductive kept : list rec -> list rec -> Prop :=
| k_nil : kept [] []
| k_keep r l l' : writable r -> kept l l' -> kept (r :: l) (r :: l')
| k_drop e l l' : fits e -> bytes_ev e -> ~ utf8_ev e -> kept l l' -> kept (RGeneric e :: l) l'.

(** The file of a store, written by somebody else. *)
Definition with_disk (d : option bytes) (w : store) : store :=
  {| s_disk := d; s_writable := s_writable w; s_ro := s_ro w; s_open := s_open w; s_pend := s_pend w; s_pos := s_pos w; s_eof := s_eof w |}.
