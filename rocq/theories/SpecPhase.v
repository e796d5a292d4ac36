(** * Phases: any number of calls at once, then changes of the disk, then calls again (C65). *)
From Coq Require Import String.
From Coq Require Import List Arith NArith Bool.
From Verif Require Import Str Path Json Types Parse Map Prog Desc Resolve Top Run SpecCache.
Import ListNotations.

Inductive phase :=
| PCalls (cs : list call) (sched : list nat)   (* these calls, interleaved as the schedule says *)
| PFs (fs : fsys).                             (* the disk becomes this one *)
(** The thread has ended. *)
Definition over {A} (p : prog A) : Prop := match p with Do _ _ => False | _ => True end.
(** From a disk and tables to others; all calls of a phase come to their end. *)
Inductive phases : fsys -> state -> list phase -> fsys -> state -> Prop :=
| PhNil fs st : phases fs st [] fs st
| PhCalls fs st cs sched ps st1 h fs' st' : run_sched fs sched st (map call_prog cs) = (ps, st1) -> Forall over ps ->
    phases fs st1 h fs' st' -> phases fs st (PCalls cs sched :: h) fs' st'
| PhFs fs st fs1 h fs' st' : phases fs1 st h fs' st' -> phases fs st (PFs fs1 :: h) fs' st'.
(** The file systems in order, and the resolvers that call. *)
Definition phase_systems (fs0 : fsys) (h : list phase) : list fsys :=
  fs0 :: flat_map (fun p => match p with PFs fs => [fs] | PCalls _ _ => [] end) h.
Definition phase_callers (h : list phase) : list resolver :=
  flat_map (fun p => match p with PCalls cs _ => map call_resolver cs | PFs _ => [] end) h.
