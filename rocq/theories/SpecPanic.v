(** * Specification for the absence of panics (C15): inputs that cannot make the crate panic. *)
From Coq Require Import String.
From Coq Require Import List Arith NArith Bool.
From Verif Require Import Str StrP Path Json Types Parse Map Prog Desc Resolve Run SpecRun SpecMap SpecLoad SpecCache SpecTerm.
Import ListNotations.

(** [ascii]: whether the texts are ASCII.  If they need not be, one more panic is possible, that of
    a slice at a byte that does not begin a character. *)
Definition p_boundary : str := lit "byte index is not a char boundary".
Section Ascii.
Variable ascii : bool.
Definition text (s : str) : Prop := Forall (fun c => ascii = true -> (c < 128)%N) s.

(** ** Description files *)
(** A value of the "exports" or "imports" field: strings, objects, and arrays not directly inside
    arrays; no null, boolean or number. *)
Inductive field_value : json -> Prop :=
| FvStr : forall s, field_value (JStr s)
| FvObj : forall l, (forall k v, In (k, v) l -> field_value v) -> field_value (JObj l)
| FvArr : forall l, (forall v, In v l -> field_value v /\ forall a, v <> JArr a) -> field_value (JArr l).
(** "imports" is an object; no entry of the "browser" object is [true]. *)
Record shaped (j : json) : Prop := {
  sh_browser : forall l k, jget j (lit "browser") = Some (JObj l) -> ~ In (k, JBool true) l;
  sh_exports : forall v, jget j (lit "exports") = Some v -> field_value v;
  sh_imports : forall v, jget j (lit "imports") = Some v -> field_value v /\ is_obj v
}.

(** ** Names *)
(** A scope without a package name: "@scope". *)
Definition lone_scope (t : str) : Prop := exists s, t = lit "@" ++ s /\ ~ In c_slash s.
(** A target that may be looked up as a package. *)
Definition plain_target (t : str) : Prop := text t /\ ~ lone_scope t.
(** A target written in the "exports" or "imports" field: it does not begin with a star, and a scope in
    it is complete. *)
Definition plain_string (s : str) : Prop :=
  text s /\ (forall r, s <> lit "*" ++ r) /\
  forall r, s = lit "@" ++ r -> exists a b, r = a ++ c_slash :: b /\ ~ In c_star a /\ ~ In c_hash a /\ ~ In c_quest a.
(** A description whose texts cannot make up a name that panics. *)
Record tidy (j : json) : Prop := {
  td_shaped : shaped j;
  td_browser : forall l k c, jget j (lit "browser") = Some (JObj l) -> In (k, JStr c) l -> plain_target c;
  td_exports : forall v s, jget j (lit "exports") = Some v -> json_string s v -> plain_string s;
  td_imports : forall v s, jget j (lit "imports") = Some v -> json_string s v -> plain_string s
}.
(** The replacements of aliases. *)
Definition alias_plain (o : options) : Prop :=
  forall from to, In (from, ATarget to) (o_alias o) -> text to /\ to <> [] /\ ~ lone_scope to.

(** ** tsconfig *)
(** [v] is the value of a member [k] of object [j]. *)
Definition member (j : json) (k : str) (v : json) : Prop := exists l, j = JObj l /\ In (k, v) l.
(** baseUrl is a string, paths an object of arrays of strings whose keys are texts. *)
Definition ts_shaped (j : json) : Prop :=
  forall opts, member j (lit "compilerOptions") opts ->
    (forall v, member opts (lit "baseUrl") v -> exists s, v = JStr s) /\
    (forall v, member opts (lit "paths") v -> exists l, v = JObj l /\
       forall k w, In (k, w) l -> text k /\ exists a, w = JArr a /\ forall x, In x a -> exists s, x = JStr s).
(** The tsconfig and all files it extends, directly or not, are in [T]: those that can be read have
    content and are well-shaped, and what they extend is named by a text and is no lone scope. *)
Record ts_files (fs : fsys) (R : resolver) (location : path) (T : path -> Prop) : Prop := {
  tf_start : T location;
  tf_parent : forall p, T p -> f_read fs p <> None -> parent p <> None;
  tf_content : forall p s, T p -> f_read fs p = Some s -> rv_jsonc R s <> JCNone;
  tf_shaped : forall p s j, T p -> f_read fs p = Some s -> rv_jsonc R s = JCVal j -> ts_shaped j;
  tf_text : forall p e, T p -> extends_text fs R p e -> text e /\ ~ lone_scope (r_target (parse e));
  tf_next : forall p q, T p -> extends_by fs R (fun _ => disk_answer fs) p q -> T q
}.
Definition tsconfig_tidy (fs : fsys) (R : resolver) : Prop :=
  forall location, o_tsconfig (rv_opts R) = Some location -> exists T, ts_files fs R location T.
(** One such file. *)
Definition ts_file_tidy (fs : fsys) (R : resolver) (p : path) : Prop :=
  forall s, f_read fs p = Some s -> parent p <> None /\ rv_jsonc R s <> JCNone /\
    (forall j, rv_jsonc R s = JCVal j -> ts_shaped j) /\ forall e, extends_text fs R p e -> text e.

(** ** Calls *)
(** The descriptions on disk, as resolver [R] reads them, are tidy. *)
Definition disk_tidy (fs : fsys) (R : resolver) : Prop := forall d j, on_disk fs R d j -> tidy j.
Definition disk_shaped (fs : fsys) (R : resolver) : Prop := forall d j, on_disk fs R d j -> shaped j.
(** A call of a release build; a directory is not a regular file. *)
Definition call_tidy (fs : fsys) (c : call) : Prop :=
  match c with
  | CResolve R _ base req => rv_debug R = false /\ disk_tidy fs R /\ (forall p, f_dir fs p = true -> f_file fs p = false) /\ text req /\ ~ lone_scope (r_target (parse req)) /\
      alias_plain (rv_opts R) /\ tsconfig_tidy fs R
  | CSide R _ _ => rv_debug R = false /\ disk_tidy fs R
  end.
(** The directories asked for by a request for target [t] from [base]: by its path, or by the path it is
    rewritten to. *)
Inductive asked (o : options) (base : path) : str -> path -> Prop :=
| AskPath : forall t, get_target_kind t <> Normal -> get_target_kind t <> Internal ->
    asked o base t (if str_eqb t [] || str_eqb t s_dot then base else join base t)
| AskRewritten : forall t t' d, rewritten o t t' -> asked o base t' d -> asked o base t d.
(** A directory asked for that has no main file.  ([o_browser]: the browser fields on disk may lead
    elsewhere.  [o_tsconfig]: its "paths", and what it extends, are asked for too.) *)
Definition main_missing (fs : fsys) (R : resolver) (base : path) (t : str) (d : path) : Prop :=
  f_dir fs d = true /\ (o_browser (rv_opts R) = true \/
    no_file fs (main_file_paths R d (o_main_files (rv_opts R))) /\
    (asked (rv_opts R) base t d \/ o_tsconfig (rv_opts R) <> None /\ exists p t', asked (rv_opts R) p t' d /\
       (t' = [] \/ exists loc e, extends_text fs R loc e /\ parent loc = Some p /\ t' = r_target (parse e)))).
(** The only ways left to panic: [unreachable!()], when such a directory is asked for, and the
    slice, if there are texts that are not ASCII. *)
Definition left_panic (fs : fsys) (c : call) (m : str) : Prop :=
  exists R f base req, c = CResolve R f base req /\
    (m = p_unreachable /\ (exists d, main_missing fs R base (r_target (parse req)) d) \/ m = p_boundary /\ ascii = false).
Definition only_main_missing (fs : fsys) (c : call) (o : outcome answer) : Prop := forall m, o = Panicked m -> left_panic fs c m.

(** There is an answer, or one of these panics. *)
Definition answered (fs : fsys) (c : call) (o : outcome answer) : Prop :=
  (exists a, o = Done a) \/ exists m, o = Panicked m /\ left_panic fs c m.
(** Options under which a request is not rewritten. *)
Definition direct (o : options) : Prop := o_alias o = [] /\ o_prefer_relative o = false /\ o_browser o = false /\ o_tsconfig o = None.

(** Calls and changes of the file system: every call is tidy for the file system it is served on,
    and its outcome is as said. *)
Inductive served_tidy : fsys -> list event -> list (outcome answer) -> Prop :=
| SvNil : forall fs, served_tidy fs [] []
| SvFs : forall fs fs' h os, served_tidy fs' h os -> served_tidy fs (EFs fs' :: h) os
| SvCall : forall fs c h o os, only_main_missing fs c o -> served_tidy fs h os -> served_tidy fs (ECall c :: h) (o :: os).
Inductive history_tidy : fsys -> list event -> Prop :=
| HtNil : forall fs, history_tidy fs []
| HtFs : forall fs fs' h, history_tidy fs' h -> history_tidy fs (EFs fs' :: h)
| HtCall : forall fs c h, call_tidy fs c -> history_tidy fs h -> history_tidy fs (ECall c :: h).
End Ascii.
