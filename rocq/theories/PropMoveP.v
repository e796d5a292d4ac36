(** * The example behind PropMove.v *)
From Coq Require Import String.
From Coq Require Import List Arith NArith Bool.
From Verif Require Import Str StrP Path Json Types Parse Map Prog Desc Resolve Top Run Posix Demo SpecRun SpecLoad SpecCache SpecDesc SpecWorld SpecFull SpecStale WitnessP PropCacheP PropChangeP.
Import ListNotations.

Definition R62 : resolver := mkR dflt [].
(* a.json gives way to a.js *)
Definition w62a : fsys := W (D [("r", D [("a.json", F)])])%string.
Definition w62b : fsys := W (D [("r", D [("a.js", F)])])%string.
(* after [n] steps *)
Definition sched62 (n : nat) : list (fsys * nat) := repeat (w62a, 0) n ++ repeat (w62b, 0) 60.
Definition c62 : call := CResolve R62 40 (lit "/r") (lit "./a").
Definition moved62 (n : nat) : list (outcome answer) := map SpecCache.settled (fst (run_moving (sched62 n) st0 (map call_prog [c62]))).
Lemma runs62 : moved62 0 = [at_path "/r/a.js"] /\ moved62 60 = [at_path "/r/a.json"] /\
  moved62 12 = [Done (AResolve (Err (lit "Resolve './a' failed in '/r'")))] /\ moved62 13 = [Done (AResolve (Err (lit "Path normalized failed")))].
Proof. repeat split; vm_compute; reflexivity. Qed.
Lemma keyed62 : keyed c62.
Proof. intros H. destruct (H eq_refl). Qed.
