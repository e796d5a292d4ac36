(** * The work of a call (C70)

    [exec p tr r]: [p] can perform the operations [tr], with these answers, and end with [r].  [work fs p st] counts the
    operations of a run, [entries t] the files and directories of a tree (SpecWork.v). *)
From Coq Require Import String.
From Coq Require Import List Arith NArith Bool.
From Verif Require Import Str Path Json Types Parse Map Prog Desc Resolve Top Run Exec Posix Demo SpecRun SpecLoad SpecWork PropWorkP.
Import ListNotations.

(** Wanted: the number of operations of a call that ends is bounded by some polynomial in the size of the tree, for each
    choice of options.  It is not: with the main fields "module" and "main" no polynomial [c * x ^ d] will do, although the
    request is found. *)
Theorem C70_polynomial_refuted : forall c d, exists t R f base req i, R = mkR (with_fields dflt [lit "module"; lit "main"]) texts70 /\
  out (W t) st0 (call_prog (CResolve R f base req)) = Done (AResolve (Ok (RInfo i))) /\
  c * entries t ^ d < work (W t) (call_prog (CResolve R f base req)) st0.
Proof. exact fin_70_poly. Qed.
Print Assumptions C70_polynomial_refuted.
(** The trees: [n] directories inside each other. *)
Theorem C70_nested_refuted : forall n, exists f,
  out (W (deep n)) st0 (call_prog (CResolve R70 f (lit "/") (lit "./d"))) = Done (AResolve (Ok (RInfo (mkInfo (lit "/d/index.js") (mkReq [] [] [] Relative))))) /\
  2 ^ n <= work (W (deep n)) (call_prog (CResolve R70 f (lit "/") (lit "./d"))) st0 /\ entries (deep n) = 2 * n + 6.
Proof. exact fin_70_deep. Qed.
Print Assumptions C70_nested_refuted.
Example C70_nested_ex : map (fun n => (entries (deep n), work (W (deep n)) (call_prog (CResolve R70 40 (lit "/") (lit "./d"))) st0)) [0; 1; 2; 3; 4; 5] =
  [(6, 56); (8, 124); (10, 260); (12, 532); (14, 1076); (16, 2164)].
Proof. exact ex70d. Qed.

(** Without description files, aliases, preferRelative and a tsconfig there is a bound that does not even depend on the
    disk: whatever the operations answer, so also while files change and other threads use the tables.  [E] extensions and
    [M] main files make at most [4 + E + M * (1 + E)] questions in each directory from the base upwards. *)
Theorem C70_plain_partial : forall R f base req tr o, o_desc (rv_opts R) = None -> no_remap R base (r_target (parse req)) ->
  exec (call_prog (CResolve R f base req)) tr o ->
  length tr <= (length (components base) + 1) * (4 + length (o_extensions (rv_opts R)) + length (o_main_files (rv_opts R)) * (1 + length (o_extensions (rv_opts R)))) + 1.
Proof. exact fin_70. Qed.
Print Assumptions C70_plain_partial.
(** The bound is reached. *)
Example C70_plain_ex : (o_desc (rv_opts R70n) = None /\ no_remap R70n (lit "a") (lit "x") /\
    length (components (lit "a")) = 1 /\ length (o_extensions (rv_opts R70n)) = 3 /\ length (o_main_files (rv_opts R70n)) = 1) /\
  (out (W t70) st0 (call_prog (CResolve R70n 40 (lit "a") (lit "x"))) = Done (AResolve (Ok (RInfo (mkInfo (lit "/node_modules/index.node") (mkReq [] [] [] Relative))))) /\
   work (W t70) (call_prog (CResolve R70n 40 (lit "a") (lit "x"))) st0 = (1 + 1) * (4 + 3 + 1 * (1 + 3)) + 1).
Proof. exact ex70. Qed.

(** Finding the description of a path is linear in its length, with any options, also in debug builds: the disk is fixed,
    what the tables answer is arbitrary. *)
Theorem C70_side_partial : forall fs, sane_fs fs -> forall R f p tr r, is_abs p = true ->
  exec (call_prog (CSide R f p)) tr r -> Forall (from_disk fs) tr ->
  length tr <= 3 * length (components p) + 22.
Proof. exact fin_70_side. Qed.
Print Assumptions C70_side_partial.
Example C70_side_ex : map (fun p => (length (components (lit p)), work (W t70s) (call_prog (CSide R70 40 (lit p))) st0)) ["/"; "/a"; "/a/b"; "/a/b/c"; "/a/b/./c/d"]%string =
    [(1, 6); (2, 9); (3, 12); (4, 13); (5, 14)] /\
  sane_fs (W t70s).
Proof. exact ex70s. Qed.
