(** * What is read *)
From Coq Require Import String.
From Coq Require Import List Arith NArith Bool.
From Verif Require Import Str Path Json Types Prog Run Exec Posix Demo.
Import ListNotations.

Section Sight.
Variable R : resolver.
Variable tr : list ev.   (* what was asked and answered up to now *)
Definition told (o : op) (x : ans o) : Prop := In (mkev o x) tr.

(** [p] is the description file of the directory [d], and both have been seen to exist. *)
Definition description_of (d p : path) : Prop :=
  exists name, o_desc (rv_opts R) = Some name /\ p = join d name /\ told (OIsDir d) true /\ told (OIsFile p) true.
(** [p] is the tsconfig file of the options, or has been found for the "extends" of one that was read. *)
Inductive ts_file : path -> Prop :=
| TsOption : forall p, o_tsconfig (rv_opts R) = Some p -> ts_file p
| TsExtends : forall p q s j e, ts_file q -> told (ORead q) (Some s) -> rv_jsonc R s = JCVal j ->
    jget j (lit "extends") = Some (JStr e) -> told (OIsFile p) true -> ts_file p.
End Sight.

(** The files a run reads. *)
Fixpoint reads {A} (fs : fsys) (p : prog A) (st : state) : list path :=
  match p with
  | Do o k => (match o with ORead q => [q] | _ => [] end) ++ reads fs (k (fst (step fs st o))) (snd (step fs st o))
  | _ => []
  end.
Definition t71 : node := D [("r", D [("tsconfig.json", PJ "T"); ("base.json", PJ "B"); ("package.json", PJ "P"); ("src", D [("x.js", PJ "X")]);
  ("node_modules", D [("m", D [("package.json", PJ "M"); ("i.js", PJ "I")])])])]%string.
Definition texts71 : list (string * json) := [("T", O [("extends", S_ "./base.json")]);
  ("B", O [("compilerOptions", O [("baseUrl", S_ "."); ("paths", O [("~/*", JArr [S_ "src/*"])])])]); ("P", O []); ("M", O [("main", S_ "i.js")])]%string.
Definition R71 : resolver := mkR (with_tsconfig dflt (Some (lit "/r/tsconfig.json"))) texts71.
