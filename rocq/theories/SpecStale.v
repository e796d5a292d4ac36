(** * What a resolver may take for the description of a path (C61)

    No condition on the disk, on what the files hold, on the resolvers or on how the disk changed: a
    description may be one that was read at an earlier time, by another resolver that shares the
    cache, under another spelling of its directory; the tree of an exports field may be that of
    another field with the same text.  [seen]: what the disk has been, as a [world] each time;
    [crew]: the resolvers that have made calls. *)
From Coq Require Import String.
From Coq Require Import List Arith NArith Bool Permutation.
From Verif Require Import Str Path Json Types Parse Map Prog Desc Resolve Run SpecRun SpecLoad SpecWorld SpecFull.
Import ListNotations.

Section Stale.
Variable seen : world -> Prop.
Variable crew : resolver -> Prop.

(** The description file in [d] has the value [j]. *)
Definition holds (w : world) (R : resolver) (name : str) (d : path) (j : json) : Prop :=
  exists s t, w_read w (join d name) (Some s) /\ w_mtime w (join d name) (MTime t) /\ rv_json R s = Some j.
(** A tree that may be stored in the cache [c] under the text [k]: that of an exports field or of an
    imports field with this text. *)
Definition grown_from (c : nat) (k : str) (t : ptn) : Prop :=
  exists R w name d j fld v, crew R /\ rv_cache R = c /\ o_desc (rv_opts R) = Some name /\ seen w /\ w_dir w d true /\
    holds w R name d j /\ jget j fld = Some v /\ to_string v = k /\
    (fld = lit "exports" /\ build_exports v = PRet (Ok t) \/ fld = lit "imports" /\ build_imports v = PRet (Ok t)).
Definition exports_read (R : resolver) (j : json) (x : pcomp (result (option ptn))) : Prop :=
  match jget j (lit "exports") with
  | None => x = PRet (Ok None)
  | Some v => x = (plet r := build_exports v in PRet (match r with Ok t => Ok (Some t) | Err e => Err e end)) \/
              exists t, grown_from (rv_cache R) (to_string v) t /\ x = PRet (Ok (Some t))
  end.
Definition imports_read (j : json) (x : pcomp (result (option ptn))) : Prop :=
  match jget j (lit "imports") with
  | None => x = PRet (Ok None)
  | Some v => x = plet r := build_imports v in PRet (match r with Ok t => Ok (Some t) | Err e => Err e end)
  end.
(** What comes of reading the description file in [d]. *)
Inductive scanned (w : world) (R : resolver) (name : str) (d : path) : reading -> Prop :=
| ScUnread : w_read w (join d name) None \/ (exists x, w_mtime w (join d name) x /\ forall t, x <> MTime t) ->
    scanned w R name d (Bad (open_failed (join d name)))
| ScGarbled s t : w_read w (join d name) (Some s) -> w_mtime w (join d name) (MTime t) -> rv_json R s = None ->
    scanned w R name d (Bad (lit "Parse " ++ join d name ++ lit " failed"))
| ScBrowser j m : holds w R name d j -> alias_fields_of j = PPanic m -> scanned w R name d Fell
| ScExports j af e : holds w R name d j -> alias_fields_of j = PRet af -> exports_read R j (PRet (Err e)) -> scanned w R name d (Bad e)
| ScExportsFell j af m : holds w R name d j -> alias_fields_of j = PRet af -> exports_read R j (PPanic m) -> scanned w R name d Fell
| ScImports j af ex e : holds w R name d j -> alias_fields_of j = PRet af -> exports_read R j (PRet (Ok ex)) ->
    imports_read j (PRet (Err e)) -> scanned w R name d (Bad e)
| ScImportsFell j af ex m : holds w R name d j -> alias_fields_of j = PRet af -> exports_read R j (PRet (Ok ex)) ->
    imports_read j (PPanic m) -> scanned w R name d Fell
| ScSide j af ex im e : holds w R name d j -> alias_fields_of j = PRet af -> exports_read R j (PRet (Ok ex)) ->
    imports_read j (PRet (Ok im)) -> side_effects_of (join d name) j = Err e -> scanned w R name d (Bad e)
| ScDone j af l ex im se : holds w R name d j -> alias_fields_of j = PRet af -> Permutation af l -> exports_read R j (PRet (Ok ex)) ->
    imports_read j (PRet (Ok im)) -> side_effects_of (join d name) j = Ok se ->
    scanned w R name d (Has (Some (mkPkg d (opt_str (jget j (lit "name"))) (opt_str (jget j (lit "version"))) l ex im se j)))
(* debug builds refuse to read a file twice *)
| ScTwice : rv_debug R = true -> scanned w R name d Fell.

(** No directory from [p] upwards has a description file. *)
Definition bare (w : world) (name : str) (p : path) : Prop := Forall (fun q => w_file w (join q name) false) (lineage p).
(** What may be stored for the directory [p] in the cache [c]: what was read there once, or that
    there was nothing to be read there or above. *)
Inductive kept (c : nat) (p : path) : option pkg -> Prop :=
| KpRead R w name d pk : crew R -> rv_cache R = c -> o_desc (rv_opts R) = Some name -> seen w -> same_path d p -> w_dir w d true ->
    w_file w (join d name) true -> scanned w R name d (Has (Some pk)) -> kept c p (Some pk)
| KpBare R w name d : crew R -> rv_cache R = c -> o_desc (rv_opts R) = Some name -> seen w -> same_path d p -> w_dir w d true ->
    bare w name d -> kept c p None.
(** A modification time that the resolver [i] may have noted for the file [p]. *)
Definition noted (i : nat) (p : path) (t : N) : Prop :=
  exists R w q, crew R /\ rv_id R = i /\ seen w /\ same_path q p /\ (exists s, w_read w q (Some s)) /\ w_mtime w q (MTime t).

(** ** Lookups *)
Variables (w : world) (R : resolver).
Inductive consulted : path -> reading -> Prop :=
| CsOff p : o_desc (rv_opts R) = None -> consulted p (Has None)
(* not a directory *)
| CsUp p q x name : o_desc (rv_opts R) = Some name -> w_dir w p false -> parent p = Some q -> consulted q x -> consulted p x
| CsTop p name : o_desc (rv_opts R) = Some name -> w_dir w p false -> parent p = None -> consulted p (Bad TAG)
(* something is stored, and the file is gone *)
| CsGone p v name : o_desc (rv_opts R) = Some name -> w_dir w p true -> kept (rv_cache R) p v -> w_file w (join p name) false ->
    consulted p (Has v)
(* or its time is not yet [rv_duration] after the one noted *)
| CsKept p v name t now : o_desc (rv_opts R) = Some name -> w_dir w p true -> kept (rv_cache R) p v -> w_file w (join p name) true ->
    noted (rv_id R) (join p name) t -> w_mtime w (join p name) (MTime now) -> (t <= now)%N -> (now - t < rv_duration R)%N ->
    consulted p (Has v)
(* or its time cannot be compared *)
| CsClock p v name t now : o_desc (rv_opts R) = Some name -> w_dir w p true -> kept (rv_cache R) p v -> w_file w (join p name) true ->
    noted (rv_id R) (join p name) t -> w_mtime w (join p name) (MTime now) -> (now < t)%N ->
    consulted p (Bad (lit "Compare SystemTime failed in " ++ join p name))
| CsMeta p v name t : o_desc (rv_opts R) = Some name -> w_dir w p true -> kept (rv_cache R) p v -> w_file w (join p name) true ->
    noted (rv_id R) (join p name) t -> w_mtime w (join p name) MErr -> consulted p (Bad (open_failed (join p name)))
| CsNoTime p v name t : o_desc (rv_opts R) = Some name -> w_dir w p true -> kept (rv_cache R) p v -> w_file w (join p name) true ->
    noted (rv_id R) (join p name) t -> w_mtime w (join p name) MNoTime ->
    consulted p (Bad (lit "Get modified time of " ++ join p name ++ lit " failed"))
(* the file is read *)
| CsRead p x name : o_desc (rv_opts R) = Some name -> w_dir w p true -> w_file w (join p name) true -> scanned w R name p x ->
    consulted p x
(* there is no file: the nearest one above, or none *)
| CsFound p d l1 l2 x name : o_desc (rv_opts R) = Some name -> w_dir w p true -> w_file w (join p name) false -> lineage p = l1 ++ d :: l2 ->
    Forall (fun q => w_file w (join q name) false) l1 -> w_file w (join d name) true -> consulted d x -> consulted p x
| CsNone p name : o_desc (rv_opts R) = Some name -> w_dir w p true -> bare w name p -> Forall (fun q => w_dir w q true) (lineage p) ->
    consulted p (Has None).
End Stale.

(** ** What the disk has been *)
(** One file system after the other, each for a while. *)
Definition each (fss : fsys -> Prop) (w : world) : Prop := exists fs, fss fs /\ w = standing fs.
(** The file systems of a schedule, and those of the steps of its [i]th thread. *)
Definition overall (sched : list (fsys * nat)) (fs : fsys) : Prop := exists i, In (fs, i) sched.
Definition during (sched : list (fsys * nat)) (i : nat) (fs : fsys) : Prop := In (fs, i) sched.
