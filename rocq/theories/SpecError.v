(** * What stands behind an error (C13): an error that is not the generic one is about something
    that was met on the way, and the trace shows it. *)
From Coq Require Import String.
From Coq Require Import List Arith NArith Bool.
From Verif Require Import Str Path Json Types Parse Map Prog Run Exec SpecExports.
Import ListNotations.

Section Blame.
Variables (R : resolver) (tr : list ev).
Notation saw o x := (In (mkev o x) tr).
(** The description was met: taken from the table, or read and stored there. *)
Definition described (pk : pkg) : Prop :=
  (exists c p, saw (OPkgGet c p) (Some (Some pk))) \/ (exists c p, saw (OPkgPut c p (Some pk)) tt).
(** File [p] was read as JSON. *)
Definition has_read (p : path) (j : json) : Prop := exists s, saw (ORead p) (Some s) /\ rv_json R s = Some j.
Definition conds := o_conditions (rv_opts R).
(** An exports target that is no file, or is refused. *)
Definition refused (i : info) : Prop := saw (OIsFile (get_path i)) false \/ check_target (r_target (i_req i)) = PRet false.

Inductive blame : str -> Prop :=
(* description files *)
| BOpen p : saw (ORead p) None \/ saw (OMtime p) MErr \/ saw (OMtime p) MNoTime -> blame (lit "Open " ++ p ++ lit " failed")
| BNoTime p : saw (OMtime p) MNoTime -> blame (lit "Get modified time of " ++ p ++ lit " failed")
| BCompare p t r s t' : saw (OMtime p) (MTime t) -> saw (OFileGet r p) (Some (s, t')) -> (t < t')%N -> blame (lit "Compare SystemTime failed in " ++ p)
| BParse p s : saw (ORead p) (Some s) -> rv_json R s = None -> blame (lit "Parse " ++ p ++ lit " failed")
| BSide p j w v : has_read p j -> jget j (lit "sideEffects") = Some w ->
    (v = w /\ as_bool w = None /\ as_array w = None) \/ (exists l, as_array w = Some l /\ In v l /\ as_str v = None) ->
    blame (lit "sideEffects in " ++ p ++ lit " had unexpected value " ++ to_string v)
| BExportsKeys p j v e : has_read p j -> jget j (lit "exports") = Some v -> build_exports v = PRet (Err e) -> blame e
| BImportsKeys p j v e : has_read p j -> jget j (lit "imports") = Some v -> build_imports v = PRet (Err e) -> blame e
(* exports and imports fields *)
| BExportsField pk tree t e : described pk -> p_exports pk = Some tree -> field_process FExports tree t conds = PRet (Err e) -> blame e
| BImportsField pk tree t e : described pk -> p_imports pk = Some tree -> field_process FImports tree t conds = PRet (Err e) -> blame e
| BExportsDenied pk tree t u l : described pk -> p_exports pk = Some tree -> field_process FExports tree u conds = PRet (Ok l) ->
    Forall (fun c => refused (mkInfo (p_dir pk) (parse c))) l -> blame (lit "Package path " ++ t ++ lit " is not exported")
| BImportsDenied pk tree t l : described pk -> p_imports pk = Some tree -> field_process FImports tree t conds = PRet (Ok l) ->
    l = [] \/ (exists i, refused i) -> blame (lit "Package path " ++ t ++ lit " is not exported")
(* the file found *)
| BNormalize p : saw (OIsFile p) true -> saw (OCanon p) None -> blame (lit "Path normalized failed")
(* tsconfig *)
| BTsParse p s e : o_tsconfig (rv_opts R) <> None -> saw (ORead p) (Some s) -> rv_jsonc R s = JCErr e ->
    blame (lit "Parse " ++ p ++ lit " failed. Error: " ++ e)
| BTsIgnored p s j e : o_tsconfig (rv_opts R) <> None -> saw (ORead p) (Some s) -> rv_jsonc R s = JCVal j -> jget j (lit "extends") = Some (JStr e) ->
    blame (e ++ lit " had been ignored in " ++ p).
End Blame.
