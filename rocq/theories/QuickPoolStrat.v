(** QuickPool as a strategy (constructor: QuickPool.cpp:18-34; [deallocate] ignores the
    size argument, QuickPool.cpp:139).  [fuel] bounds the coalescing recursion; exhausting it
    is the distinct outcome [NoFuel]. *)
From Verif Require Import Base StratModel QuickPoolModel.

Definition QuickPool (cfg : qcfg) (fuel : nat) : Strat :=
  mkStrat qpool
    (fun W P w => Ok w q_init)
    (fun W P n sw => q_allocate P cfg n sw)
    (fun W P _ p _ sw => q_deallocate P cfg fuel p sw)
    (fun W P sw => q_release P sw)
    (fun W P _ sw => q_coalesce P cfg fuel sw).
