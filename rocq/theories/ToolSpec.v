(** What the options of the replay tool ask for, independently of how it goes about it. *)
From Coq Require Import String.
From Verif Require Import Base ReplayModel ReplaySpec ToolModel.
Local Open Scope string_scope.
Local Open Scope Z_scope.

(** The arguments a pool has when none are given (QuickPool.hpp:56-62, DynamicPoolList.hpp:61-67). *)
Definition pool_defaults : list arg := [AN (2 ^ 29); AN (2 ^ 20); AN 16].

(** The creation of a pool as the options want it: of the class asked for, and with the heuristic asked for, which comes after
    all other arguments. *)
Definition wanted (o : opts) (c : rcall) : rcall :=
  match c with
  | RCreate k cls name base tracked args =>
      if poolish cls then
        RCreate k (match p_pool o with Some p => p | None => cls end) name base tracked
          (match p_heur o with
           | Some (h, parm) => (args ++ skipn (List.length args) pool_defaults ++ [AS h; AN parm])%list
           | None => args
           end)
      else c
  | _ => c
  end.

(** Options the tool accepts. *)
Definition accepted (o : opts) : Prop := forall p, p_pool o = Some p -> is_pool p.

(** The calls [L] are those of the program [H], changed as the options want. *)
Definition as_wanted (o : opts) (H : list pcall) (L : list (rcall * Z)) : Prop :=
  exists L0 f, mirrors H L0 f /\ L = map (fun ca => (wanted o (fst ca), snd ca)) L0.

(** All pools of the program are tracked. *)
Definition tracks_pools (H : list pcall) : Prop :=
  forall r name cls base tracked args, In (PMake r name cls base tracked args) H -> is_pool cls -> tracked = true.

(** [files fsize log clean f]: [f] is what any number of sessions over the log left, none of which was both forced to compile
    and told to use a pool; [clean]: there was no file before the first and none was forced to compile. *)
Inductive files (fsize : Z) (log : list event) : bool -> bfile -> Prop :=
| fi_new : files fsize log true Absent
| fi_foreign objs : files fsize log false (Foreign objs)
| fi_session b f o W (lib : rcall -> W -> outcome W Z) w r f' :
    files fsize log b f -> orderly lib -> accepted o -> (p_force o = true -> p_pool o = None) ->
    session lib o fsize log f w = Ran r f' -> files fsize log (b && negb (p_force o)) f'.
