(** What is expected of an event store in a database, independently of the code. *)
From Coq Require Import String.
From Verif Require Import Base ReplayModel JsonModel StoreModel JsonSpec SqlModel.

Definition no_quote (s : bytes) : Prop := ~ In 39 s.
Definition quiet (m : list (bytes * bytes)) : Prop := Forall (fun kv => no_quote (fst kv) /\ no_quote (snd kv)) m.

(** The records for which the store is meant: those of the file store, addresses are words, no single
    quote; an allocation has a name of at most 200 bytes. *)
Definition storable (r : rec) : Prop :=
  writable r /\
  match r with
  | RGeneric e => no_quote (v_name e) /\ quiet (v_str e) /\ Forall (fun kv => no_quote (fst kv)) (v_num e) /\ quiet (v_tag e)
  | RAllocate _ ref p _ | RDeallocate ref p _ => word ref /\ word p
  | RNamed _ ref p s _ => word ref /\ word p /\ no_quote s /\ (length s <= 200)%nat
  end.

(** Typed records whose name, if any, has at most 200 bytes. *)
Definition small (r : rec) : Prop :=
  match r with
  | RGeneric _ => True
  | RAllocate _ ref p _ | RDeallocate ref p _ => word ref /\ word p
  | RNamed _ ref p s _ => word ref /\ word p /\ (length s <= 200)%nat
  end.

(** For an event that is not UTF-8 the program gets an exception. *)
Inductive stored : list rec -> list rec -> Prop :=
| st_nil : stored [] []
| st_keep r l l' : storable r -> stored l l' -> stored (r :: l) (r :: l')
| st_drop e l l' : fits e -> bytes_ev e -> ~ utf8_ev e -> stored l l' -> stored (RGeneric e :: l) l'.

(** The function [json] of SQLite accepts the texts that the store writes for events and gives a text for
    the same event. *)
Definition faithful (strtod : bytes -> option Z) (sj : bytes -> option bytes) : Prop :=
  forall r t j, writable r -> value_text r = DOk t -> parse strtod t = POk j -> from_json j = COk (meant r) ->
  exists t' j', sj t = Some t' /\ parse strtod t' = POk j' /\ from_json j' = COk (meant r).

(** ** Line protocol *)

(** Words that need no escape. *)
Definition token (s : bytes) : Prop := Forall (fun b => b <> 0 /\ b <> 10 /\ b <> 32 /\ b <> 44 /\ b <> 61) s.
(** Events that the line protocol can carry as they are: words, and one number, which fits in an [int]. *)
Definition lean (e : ev) : Prop :=
  token (v_name e) /\ Forall (fun kv => token (fst kv) /\ token (snd kv)) (v_str e ++ v_tag e) /\
  (exists k n, v_num e = [(k, n)] /\ token k /\ 0 <= n < 2 ^ 31) /\ long (v_time e).
(** What the two have in common when their lines are the same. *)
Definition alike (a b : ev) : Prop :=
  v_name a = v_name b /\ v_str a ++ v_tag a = v_str b ++ v_tag b /\ v_num a = v_num b /\ v_time a = v_time b.
