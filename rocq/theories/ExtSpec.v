(** Histories of a program that also enters memory of its own into the registry. *)
From Verif Require Import Base HeapModel StratModel QuickPoolModel GlobalModel GlobalSpec MapModel MapSpec SystemModel SystemSpec
  ExtModel.

(** The program's allocations as registrations. *)
Definition filed (g : list arec) : registry := map (fun r => (r_ptr r, r)) g.

Section Hist.
  Context (J : Judy (list arec)).

  (** [ehist ok C sw g x q t]: as [shist]; [x] are the external registrations that have not been withdrawn, newest
      first.  Calls to the allocators are made for addresses that are not in [x], registrations and
      withdrawals for addresses that are not in [g]: external memory is not Umpire's. *)
  Inductive ehist (ok : (Z -> Prop) -> Prop) :
    forall C : list nodecfg, sworld J (C ++ boot) -> list arec -> registry -> list nat -> list snapshot -> Prop :=
  | eh_plain C sw g q t : shist J ok C sw g q t -> ehist ok C sw g [] q t
  | eh_register C sw g x q t events k r sw' :
      ehist ok C sw g x q t -> addr_ok k -> ~ keyed g k ->
      ext_register J (C ++ boot) events k r sw = Ok sw' tt ->
      ok (registered (filed g ++ (k, r) :: x)) ->
      ehist ok C sw' g ((k, r) :: x) q t
  | eh_register_throw C sw g x q t events k r sw' e :
      ehist ok C sw g x q t -> addr_ok k ->
      ext_register J (C ++ boot) events k r sw = Throw sw' e ->
      ehist ok C sw' g x q t
  | eh_deregister C sw g x q t k sw' :
      ehist ok C sw g x q t -> addr_ok k -> ~ keyed g k ->
      left_by J (ext_deregister J (C ++ boot) k sw) sw' ->
      ehist ok C sw' g (drop_newest k x) q t
  | eh_create C w a g x q t c w' v :
      ehist ok C (w, a) g x q t -> node_ok (C ++ boot) c -> usable (C ++ boot) (nc_parent c) ->
      gcreate (C ++ boot) c w = Ok w' v ->
      ehist ok (c :: C) (v, a) g x (nc_parent c :: q) (snap (c :: C ++ boot) v :: t)
  | eh_create_throw C w a g x q t c w' e :
      ehist ok C (w, a) g x q t -> node_ok (C ++ boot) c -> usable (C ++ boot) (nc_parent c) ->
      gcreate (C ++ boot) c w = Throw w' e ->
      ehist ok C (w', a) g x (nc_parent c :: q) (snap (C ++ boot) w' :: t)
  | eh_alloc C sw g x q t i n nm sw' p :
      ehist ok C sw g x q t -> usable (C ++ boot) i -> n = 0 \/ user_guard (C ++ boot) i n (fst sw) ->
      sys_allocate J (C ++ boot) i n nm sw = Ok sw' p -> ~ registered x p ->
      ok (registered (filed (mkRec p n (Z.of_nat i) nm :: g) ++ x)) ->
      ehist ok C sw' (mkRec p n (Z.of_nat i) nm :: g) x q (snap (C ++ boot) (fst sw') :: t)
  | eh_alloc_throw C sw g x q t i n nm sw' e :
      ehist ok C sw g x q t -> usable (C ++ boot) i -> n = 0 \/ user_guard (C ++ boot) i n (fst sw) ->
      sys_allocate J (C ++ boot) i n nm sw = Throw sw' e ->
      ehist ok C sw' g x q (snap (C ++ boot) (fst sw') :: t)
  | eh_free C sw g x q t i p sw' :
      ehist ok C sw g x q t -> usable (C ++ boot) i -> addr_ok p -> ~ registered x p ->
      sys_deallocate J (C ++ boot) i p sw = Ok sw' tt ->
      ehist ok C sw' (forget p g) x q (snap (C ++ boot) (fst sw') :: t)
  | eh_free_throw C sw g x q t i p sw' e :
      ehist ok C sw g x q t -> usable (C ++ boot) i -> addr_ok p -> ~ registered x p ->
      sys_deallocate J (C ++ boot) i p sw = Throw sw' e ->
      ehist ok C sw' (gone i p g) x q (snap (C ++ boot) (fst sw') :: t)
  | eh_rm_free C sw g x q t p sw' :
      ehist ok C sw g x q t -> addr_ok p -> ~ registered x p ->
      left_by J (rm_free J (C ++ boot) p sw) sw' ->
      ehist ok C sw' (forget p g) x q (snap (C ++ boot) (fst sw') :: t)
  | eh_release C sw g x q t i sw' :
      ehist ok C sw g x q t -> usable (C ++ boot) i -> left_by J (sys_release J (C ++ boot) i sw) sw' ->
      ehist ok C sw' g x q (snap (C ++ boot) (fst sw') :: t)
  | eh_coalesce C sw g x q t i sw' :
      ehist ok C sw g x q t -> usable (C ++ boot) i -> left_by J (sys_coalesce J (C ++ boot) i sw) sw' ->
      ehist ok C sw' g x q (snap (C ++ boot) (fst sw') :: t)
  | eh_realloc C sw g x q t r n sw' p :
      ehist ok C sw g x q t -> In r g -> r_strat r = Z.of_nat host_id -> r_size r <> 0 -> 0 < n < M64 ->
      sys_host_realloc J (C ++ boot) (r_ptr r) n sw = Ok sw' p -> ~ registered x p ->
      ok (registered (filed (mkRec p n (Z.of_nat host_id) 0 :: forget (r_ptr r) g) ++ x)) ->
      ehist ok C sw' (mkRec p n (Z.of_nat host_id) 0 :: forget (r_ptr r) g) x (host_id :: q) (snap (C ++ boot) (fst sw') :: t)
  | eh_look C w a g x q t a' :
      ehist ok C (w, a) g x q t -> looks J a a' -> ehist ok C (w, a') g x q t.
End Hist.
