(** * Changes of the file system that a resolver can notice. *)
From Coq Require Import String.
From Coq Require Import List Arith NArith Bool.
From Verif Require Import Str Path Json Types Parse Map Prog Desc Run Posix SpecLoad SpecCache.
Import ListNotations.

(** What may happen to the description files between [fs] and a later [fs'], for resolvers with
    a refresh period of at most [dur].  In directories that exist at both times:
    a description file stays, and it is left alone or gets a modification time at least [dur] later;
    where no description applied, none applies later, except one in the directory itself. *)
Definition noticeable (name : str) (dur : N) (fs fs' : fsys) : Prop :=
  forall d, f_dir fs d = true -> f_dir fs' d = true ->
    (f_file fs (join d name) = true ->
       f_file fs' (join d name) = true /\
       ((f_read fs' (join d name) = f_read fs (join d name) /\ f_mtime fs' (join d name) = f_mtime fs (join d name)) \/
        exists t t', f_mtime fs (join d name) = MTime t /\ f_mtime fs' (join d name) = MTime t' /\ (t + dur <= t')%N)) /\
    (nearest fs name d = None -> nearest fs' name d = None \/ f_file fs' (join d name) = true).

(** Every description file can be read and is well-formed. *)
Definition all_readable (js : str -> option json) (name : str) (fs : fsys) : Prop :=
  forall d, f_dir fs d = true -> f_file fs (join d name) = true -> exists pk, described fs js name d = PRet (Ok pk).

(** The file systems of a history, in order. *)
Definition systems (fs0 : fsys) (h : list event) : list fsys :=
  fs0 :: flat_map (fun e => match e with EFs fs => [fs] | ECall _ => [] end) h.
Definition callers (h : list event) : list resolver :=
  flat_map (fun e => match e with ECall (CResolve R _ _ _) | ECall (CSide R _ _) => [R] | EFs _ => [] end) h.

(** The resolvers considered: parser [js], release build, one name of description files per cache
    ([nm]), one cache per resolver ([own]), a refresh period of at most [dur]. *)
Definition member (js : str -> option json) (nm : nat -> str) (own : nat -> nat) (dur : N) (R : resolver) : Prop :=
  client js nm R /\ own (rv_id R) = rv_cache R /\ (rv_duration R <= dur)%N.

(** ** On a concrete tree *)
(** What edits and additions make of a directory tree: nothing disappears or changes its kind,
    files are left alone or get a modification time at least [dur] later, and anything may be
    added, except a description file in a directory that is already there. *)
Inductive grown (name : str) (dur : N) : node -> node -> Prop :=
| GrSame s t : grown name dur (NFile s t) (NFile s t)
| GrEdit s t s' t' : (t + dur <= t')%N -> grown name dur (NFile s t) (NFile s' t')
| GrLink t : grown name dur (NLink t) (NLink t)
| GrDir l l' :
    (forall k v, imap_get l k = Some v -> exists v', imap_get l' k = Some v' /\ grown name dur v v') ->
    (imap_get l name = None -> imap_get l' name = None) ->
    (forall t, imap_get l name <> Some (NLink t)) ->
    grown name dur (NDir l) (NDir l').
(** A file name without separators that is not special. *)
Definition file_name (n : str) : Prop := n <> [] /\ n <> lit "." /\ n <> lit ".." /\ ~ In c_slash n.
(** The entries called [name] anywhere in a tree. *)
Fixpoint named (name : str) (n : node) : list node :=
  match n with
  | NDir l => flat_map (fun kv => (if str_eqb (fst kv) name then [snd kv] else []) ++ named name (snd kv)) l
  | _ => []
  end.
(** A text that is a well-formed description. *)
Definition good_text (js : str -> option json) (s : str) : Prop :=
  exists j af se, js s = Some j /\ alias_fields_of j = PRet af /\ side_effects_of [] j = Ok se /\
    (forall v, jget j (lit "exports") = Some v -> exists t, build_exports v = PRet (Ok t)) /\
    (forall v, jget j (lit "imports") = Some v -> exists t, build_imports v = PRet (Ok t)).
(** Every description in the tree is a file with such a text. *)
Definition good_tree (js : str -> option json) (name : str) (root : node) : Prop :=
  forall v, In v (named name root) -> match v with NFile s _ => good_text js s | NDir _ => True | NLink _ => False end.
(** The texts of the descriptions in the trees. *)
Definition text_in (name : str) (ts : list node) (s : str) : Prop := exists root t, In root ts /\ In (NFile s t) (named name root).
