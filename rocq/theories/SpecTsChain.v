(** * The files a tsconfig extends *)
From Coq Require Import String.
From Coq Require Import List Arith NArith Bool.
From Verif Require Import Str Path Json Types Parse Map Prog Desc Resolve Top Run Posix Demo.
Import ListNotations.

(** [ts_chain fs R load f st loc docs st']: from the tables [st], the file [loc], the file its "extends" resolves to, and so
    on are [docs], each with its content; the search leaves the tables [st']. *)
Inductive ts_chain (fs : fsys) (R : resolver) (load : path -> prog (result (option pkg))) : nat -> state -> path -> list (path * json) -> state -> Prop :=
| TCEnd : forall f st loc s j, f_read fs loc = Some s -> rv_jsonc R s = JCVal j -> (forall e, jget j (lit "extends") <> Some (JStr e)) ->
    ts_chain fs R load (S f) st loc [(loc, j)] st
| TCSkip : forall f st loc s j e dir x st1, f_read fs loc = Some s -> rv_jsonc R s = JCVal j -> jget j (lit "extends") = Some (JStr e) -> parent loc = Some dir ->
    run fs (resolve_ R load (S f) (mkInfo dir (parse e))) st = (Done x, st1) -> is_success x = false ->
    ts_chain fs R load (S f) st loc [(loc, j)] st1
| TCNext : forall f st loc s j e dir i st1 docs st2, f_read fs loc = Some s -> rv_jsonc R s = JCVal j -> jget j (lit "extends") = Some (JStr e) -> parent loc = Some dir ->
    run fs (resolve_ R load (S f) (mkInfo dir (parse e))) st = (Done (Success (RInfo i)), st1) ->
    ts_chain fs R load f st1 (get_path i) docs st2 ->
    ts_chain fs R load (S f) st loc ((loc, j) :: docs) st2.
(** What the documents say together: the first to set something wins. *)
Fixpoint merged (docs : list (path * json)) : json :=
  match docs with
  | [] => JNull
  | [d] => snd d
  | d :: r => merge (snd d) (merged r)
  end.
Definition sets_base (j : json) (b : str) : Prop :=
  exists opts, jget j (lit "compilerOptions") = Some opts /\ jget opts (lit "baseUrl") = Some (JStr b).

(** Three files: the outer one sets nothing, the middle one a base, the inner one the patterns and another base. *)
Definition t47 : node := D [("r", D [("tsconfig.json", PJ "T"); ("mid.json", PJ "M"); ("base", D [("in.json", PJ "B"); ("src", D [("x.js", F)])]);
  ("src", D [("x.js", F)]); ("lib", D [("x.js", F)])])]%string.
Definition docT : json := O [("extends", S_ "./mid.json")]%string.
Definition docM : json := O [("extends", S_ "./base/in.json"); ("compilerOptions", O [("baseUrl", S_ "./lib")])]%string.
Definition docB : json := O [("compilerOptions", O [("baseUrl", S_ "./src"); ("paths", O [("~/*", JArr [S_ "*"])])])]%string.
Definition R47c : resolver := mkR (with_tsconfig dflt (Some (lit "/r/tsconfig.json"))) [("T", docT); ("M", docM); ("B", docB)]%string.
