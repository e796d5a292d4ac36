(** * Proofs and examples for PropRefuted.v *)
From Coq Require Import String.
From Coq Require Import List Arith NArith Bool.
From Verif Require Import Str Path Json Types Parse Map Prog Desc Resolve Top Run Posix Demo WitnessP FuelP.
Import ListNotations.
Local Open Scope string_scope.

Lemma p_C12_same_specifier_refuted : exists fs R p,
  f_file fs (lit "/r/node_modules/pkg/index.js") = true /\
  ends_at (res fs R "/r" "pkg") "/r/node_modules/pkg/index.js" /\
  ends_at (res fs R "/r/a" "pkg") p /\ contains (lit p) (lit "pkg") = false.
Proof. exists w12, Rr, "/r/node_modules/index.js". destruct C12_w. repeat split; auto. Qed.
Lemma p_C16_alias_cycle_refuted : exists R, forall fs st base fuel, contains base MODULE = false ->
  out fs st (resolve R fuel base (lit "a")) = NoFuel.
Proof. exists Ra. intros. apply alias_cycle_diverges. assumption. Qed.
Lemma p_C16_termination_refuted :
  (forall fuel, out wi st0 (resolve Ri fuel (lit "/r") (lit "#a")) = NoFuel) /\
  (forall fuel, out wb st0 (resolve Rb fuel (lit "/r") (lit "./a")) = NoFuel) /\
  (forall fuel st, out wt st (resolve Rt fuel (lit "/r") (lit "x")) = NoFuel) /\
  (forall fuel, out wr st0 (resolve Rr fuel (lit "d") (lit "./x.js")) = NoFuel).
Proof.
  exact (conj imports_cycle_diverges (conj browser_cycle_diverges (conj extends_cycle_diverges relative_base_diverges))).
Qed.
Lemma p_C19_whole_segments_refuted : exists fs,
  ends_at (res fs (mkR (with_alias dflt [(lit "foo", ATarget (lit "/r/lib"))]) []) "/r" "foobar") "/r/libbar.js" /\
  ends_at (res fs (mkR dflt []) "/r" "foobar") "/r/node_modules/foobar/index.js".
Proof. exists w19. exact C19_w. Qed.
Lemma p_C37_transparent_refuted : exists fs R,
  ends_at (res fs R "/r" "p") "/r/node_modules/p/i.js" /\
  ends_at (res fs R "/r" "./i") "/r/i.js" /\
  res_at (after st0 fs R "/r" "./i") fs R "/r" "p" = failed "Package path p is not exported".
Proof. exists w37, R37. exact C37_w. Qed.
Lemma p_C38_concurrent_refuted : exists fs R sched,
  ends_at (res fs R "/r" "p") "/r/node_modules/p/i.js" /\
  nth_error (fst (run_sched fs sched st0
    [resolve R 40 (lit "/r") (lit "./i"); resolve R 40 (lit "/r") (lit "p")])) 1 =
  Some (Ret (Err (lit "Package path p is not exported"))).
Proof. exists w37, R37. eexists. exact (conj (proj1 C37_w) C38_w). Qed.
Lemma p_C43_kinds_share_refuted : exists fs R p pk v t,
  out fs (after st0 fs R "/r" "./i") (load_pkg_file R 40 p) = Done (Ok (Some pk)) /\
  jget (p_raw pk) (lit "exports") = Some v /\ build_exports v = PRet (Ok t) /\ p_exports pk <> Some t.
Proof. exists w37, R37, (lit "/r/node_modules/p"). exact C43_w. Qed.
Lemma p_C39_shared_cache_refuted : exists fs R R', rv_cache R = rv_cache R' /\
  ends_at (res fs R' "/r" "p") "/r/node_modules/p/index.js" /\
  ends_at (res_at (after st0 fs R "/r" "p") fs R' "/r" "p") "/r/node_modules/p/b.js".
Proof. exists w39, R39, R39'. exact (conj eq_refl C39_w). Qed.
