(** * What a loaded description has to say. *)
From Coq Require Import String.
From Coq Require Import List Arith NArith Bool.
From Verif Require Import Str Path Json Types Parse Map Prog Desc Resolve Top Run.
Import ListNotations.

(** Interleaved execution while the file system changes: each step has its own. *)
Fixpoint run_moving {A} (sched : list (fsys * nat)) (st : state) (l : list (prog A)) : list (prog A) * state :=
  match sched with
  | [] => (l, st)
  | (fs, i) :: r => let (l', st') := step_nth fs st i l in run_moving r st' l'
  end.

(** The value of a string member. *)
Definition text_member (j : json) (name : str) (o : option str) : Prop :=
  match o with
  | Some s => jget j name = Some (JStr s)
  | None => forall s, jget j name <> Some (JStr s)
  end.
(** The entries of a browser object that count: [false] and strings. *)
Inductive usable : json -> alias_map -> Prop :=
| UFalse : usable (JBool false) AIgnored
| UText : forall s, usable (JStr s) (ATarget s).
(** The last such entry of a key decides (a [serde_json] object has one entry at most). *)
Definition browser_entry (j : json) (k : str) (e : alias_map) : Prop :=
  exists a v b, jget j (lit "browser") = Some (JObj (a ++ (k, v) :: b)) /\ usable v e /\
    forall v' e', In (k, v') b -> ~ usable v' e'.
(** The end of the chain of entries that starts at a value. *)
Inductive leads (j : json) : alias_map -> alias_map -> Prop :=
| LdIgnored : leads j AIgnored AIgnored
| LdEnd : forall s, (forall e, ~ browser_entry j s e) -> leads j (ATarget s) (ATarget s)
| LdStep : forall s v e, browser_entry j s v -> leads j v e -> leads j (ATarget s) e.
Definition says_side (j : json) (o : option side_effects) : Prop :=
  match o with
  | None => jget j (lit "sideEffects") = None
  | Some (SEBool b) => jget j (lit "sideEffects") = Some (JBool b)
  | Some (SEArray l) => jget j (lit "sideEffects") = Some (JArr (map JStr l))
  end.

Section Told.
Variable seen : fsys -> Prop.   (* the file systems there have been *)
Variable js : str -> option json.
(** [pk] is what the file [name] in its directory once said. *)
Record told (name : str) (pk : pkg) : Prop := {
  to_read : exists fs s, seen fs /\ f_read fs (join (p_dir pk) name) = Some s /\ js s = Some (p_raw pk);
  to_name : text_member (p_raw pk) (lit "name") (p_name pk);
  to_version : text_member (p_raw pk) (lit "version") (p_version pk);
  to_browser : forall k e, In (k, e) (p_alias pk) <-> browser_entry (p_raw pk) k e;
  to_once : NoDup (map fst (p_alias pk));
  to_side : says_side (p_raw pk) (p_side pk);
  (* trees of imports are stored in the table of the exports, see [C37_transparent_refuted] *)
  to_exports : match p_exports pk with
    | None => jget (p_raw pk) (lit "exports") = None
    | Some t => exists v, jget (p_raw pk) (lit "exports") = Some v /\ (build_exports v = PRet (Ok t) \/ build_imports v = PRet (Ok t))
    end;
  to_imports : match p_imports pk with
    | None => jget (p_raw pk) (lit "imports") = None
    | Some t => exists v, jget (p_raw pk) (lit "imports") = Some v /\ build_imports v = PRet (Ok t)
    end
}.
End Told.
(** The resolver parses with [js], and the resolvers of cache [c] look for files named [nm c]. *)
Definition reads_with (js : str -> option json) (nm : nat -> str) (R : resolver) : Prop :=
  rv_json R = js /\ (o_desc (rv_opts R) = None \/ o_desc (rv_opts R) = Some (nm (rv_cache R))).
Definition call_reads (js : str -> option json) (nm : nat -> str) (c : call) : Prop :=
  match c with CResolve R _ _ _ | CSide R _ _ => reads_with js nm R end.
