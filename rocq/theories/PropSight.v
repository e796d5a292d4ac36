(** * Only descriptions and tsconfig files are read (C71)

    [exec p tr r]: [p] can perform the operations [tr], with these answers, and end with [r]; the answers are arbitrary, so
    other threads may run and files may change.  [description_of R tr d p] and [ts_file R tr p] say what had been found out
    about [p] by the operations [tr] (SpecSight.v). *)
From Coq Require Import String.
From Coq Require Import List Arith NArith Bool.
From Verif Require Import Str Path Json Types Parse Map Prog Desc Resolve Top Run Exec Posix Demo SpecCache SpecSight PropSightP.
Import ListNotations.

(** A file that is read is the description file of a directory, after both were seen to exist, or the tsconfig file of the
    options, or one found for the "extends" of such a file. *)
Theorem C71_read : forall c tr1 p x tr2 r, exec (call_prog c) (tr1 ++ mkev (ORead p) x :: tr2) r ->
  (exists d, description_of (call_resolver c) tr1 d p) \/ ts_file (call_resolver c) tr1 p.
Proof. exact fin_71_read. Qed.
Print Assumptions C71_read.
Example C71_read_ex : map (fun q => reads (W t71) (call_prog (CResolve R71 40 (lit "/r") (lit q))) st0) ["~/x"; "m"; "./src/x.js"]%string =
    map (map lit) [["/r/tsconfig.json"; "/r/package.json"; "/r/./base.json"]; ["/r/tsconfig.json"; "/r/package.json"; "/r/./base.json"; "/r/node_modules/m/package.json"];
      ["/r/tsconfig.json"; "/r/package.json"; "/r/./base.json"]]%string /\
  reads (W t71) (call_prog (CSide R71 40 (lit "/r/src/x.js"))) st0 = [lit "/r/package.json"] /\
  out (W t71) st0 (call_prog (CResolve R71 40 (lit "/r") (lit "~/x"))) = Done (AResolve (Ok (RInfo (mkInfo (lit "/r/src/x.js") (mkReq [] [] [] Relative))))) /\
  out (W t71) st0 (call_prog (CResolve R71 40 (lit "/r") (lit "m"))) = Done (AResolve (Ok (RInfo (mkInfo (lit "/r/node_modules/m/i.js") (mkReq [] [] [] Relative))))).
Proof. exact ex71. Qed.

(** Times are asked of descriptions only; links are followed with symlinks on only, for files seen to exist. *)
Theorem C71_other : forall c tr1 tr2 r p,
  (forall x, exec (call_prog c) (tr1 ++ mkev (OMtime p) x :: tr2) r -> exists d, description_of (call_resolver c) tr1 d p) /\
  (forall x, exec (call_prog c) (tr1 ++ mkev (OCanon p) x :: tr2) r -> o_symlinks (rv_opts (call_resolver c)) = true /\ told tr1 (OIsFile p) true).
Proof. exact fin_71_other. Qed.
Print Assumptions C71_other.

(** What is stored is what was read: the text and time of a description, and under the directory it was read in; that a
    directory has no description is stored for directories only. *)
Theorem C71_stored : forall c tr1 tr2 r x,
  (forall id p s t, exec (call_prog c) (tr1 ++ mkev (OFilePut id p s t) x :: tr2) r ->
     id = rv_id (call_resolver c) /\ (exists d, description_of (call_resolver c) tr1 d p) /\ told tr1 (ORead p) (Some s) /\ told tr1 (OMtime p) (MTime t)) /\
  (forall id d v, exec (call_prog c) (tr1 ++ mkev (OPkgPut id d v) x :: tr2) r ->
     id = rv_cache (call_resolver c) /\ told tr1 (OIsDir d) true /\
     forall pk, v = Some pk -> p_dir pk = d /\
       exists p s, description_of (call_resolver c) tr1 d p /\ told tr1 (ORead p) (Some s) /\ rv_json (call_resolver c) s = Some (p_raw pk)).
Proof. exact fin_71_stored. Qed.
Print Assumptions C71_stored.
