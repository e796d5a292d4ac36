(** * Sequential runs: composition. *)
From Coq Require Import String.
From Coq Require Import List Arith NArith Bool Lia.
From Verif Require Import Str Path Json Types Parse Map Prog Desc Resolve Top Run Exec ExecP FuelP.
Import ListNotations.

Lemma run_bind {A B} : forall fs (p : prog A) (f : A -> prog B) st,
  run fs (bind p f) st =
  match run fs p st with
  | (Done a, st') => run fs (f a) st'
  | (Panicked m, st') => (Panicked m, st')
  | (NoFuel, st') => (NoFuel, st')
  end.
Proof.
  intros fs p f. induction p as [a|m| |o k IH]; intros st; cbn [bind run]; auto.
  destruct (step fs st o) as [x st']. apply IH.
Qed.
Lemma run_act {B} : forall fs o (f : ans o -> prog B) st,
  run fs (bind (act o) f) st = run fs (f (fst (step fs st o))) (snd (step fs st o)).
Proof. intros. cbn [act bind run]. destruct (step fs st o); reflexivity. Qed.
Lemma run_and_then : forall fs (p : prog stats) (f : info -> prog stats) st,
  run fs (and_then p f) st =
  match run fs p st with
  | (Done (Resolving i), st') => run fs (f i) st'
  | (r, st') => (r, st')
  end.
Proof.
  intros. unfold and_then. rewrite run_bind. destruct (run fs p st) as [[[r|i|e i]|m|] st']; reflexivity.
Qed.
Lemma run_lift {A} : forall fs (p : pcomp A) st, run fs (lift p) st =
  (match p with PRet a => Done a | PPanic m => Panicked m | PFuel => NoFuel end, st).
Proof. intros fs [a|m|] st; reflexivity. Qed.
(** Enough to look at large fuels to see a divergence. *)
Lemma diverges_from {A} : forall (p : nat -> prog A) fs st n, (forall f f', f <= f' -> fle (p f) (p f')) ->
  (forall f, out fs st (p (n + f)) = NoFuel) -> forall f, out fs st (p f) = NoFuel.
Proof.
  intros p fs st n Hm H f. destruct (out fs st (p f)) eqn:E; [| |reflexivity]; exfalso;
    pose proof (fle_run _ _ (Hm f (n + f) ltac:(lia)) fs st) as Hr; specialize (H f); unfold out in *;
    rewrite Hr in H by congruence; congruence.
Qed.
Lemma done_from {A} : forall (p : nat -> prog A) fs st n r st', (forall f f', f <= f' -> fle (p f) (p f')) ->
  run fs (p n) st = (r, st') -> r <> NoFuel -> forall f, n <= f -> run fs (p f) st = (r, st').
Proof.
  intros p fs st n r st' Hm H Hr f Hf. rewrite (fle_run _ _ (Hm n f Hf)); [exact H|].
  unfold out. rewrite H. exact Hr.
Qed.
