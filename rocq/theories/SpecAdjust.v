(** * The bytes of a text, and what Windows paths name *)
From Coq Require Import String.
From Coq Require Import List Arith NArith Bool.
From Verif Require Import Str Adjust.
Import ListNotations.
Open Scope list_scope.
Open Scope N_scope.

(** Unicode scalar values; [utf8] (Adjust.v) is their UTF-8. *)
Definition scalar (c : char) : Prop := c < 55296 \/ 57344 <= c < 1114112.
Definition byte (x : N) : Prop := x < 256.
Definition is_utf8 (b : list N) : Prop := exists s, Forall scalar s /\ b = utf8 s.

(** [b] starts with a character; [t] is the beginning of a character, but not all of it. *)
Definition starts_char (b : list N) : Prop := exists c r, scalar c /\ b = utf8_char c ++ r.
Definition begins (t : list N) : Prop := exists c t', scalar c /\ t' <> [] /\ utf8_char c = t ++ t'.

(** Absolute Windows paths, without and with the prefix that switches off their interpretation, and what they name: a drive
    or a share, and the rest of the path.  [Path::canonicalize] gives paths of the two last forms. *)
Inductive win_root := Drive (letter : char) | Share (server share : str).
Definition name (s : str) : Prop := s <> [] /\ s <> lit "?" /\ s <> lit "." /\ ~ In c_bslash s.
Definition letter (c : char) : Prop := 65 <= c <= 90 \/ 97 <= c <= 122.
Inductive win_plain : str -> win_root -> str -> Prop :=
| PlainDrive : forall c rest, letter c -> win_plain (c :: lit ":\" ++ rest) (Drive c) rest
| PlainShare : forall a b rest, name a -> name b -> win_plain (lit "\\" ++ a ++ lit "\" ++ b ++ lit "\" ++ rest) (Share a b) rest.
Inductive win_canonical : str -> win_root -> str -> Prop :=
| CanonDrive : forall c rest, letter c -> win_canonical (lit "\\?\" ++ c :: lit ":\" ++ rest) (Drive c) rest
| CanonShare : forall a b rest, name a -> name b ->
    win_canonical (lit "\\?\UNC\" ++ a ++ lit "\" ++ b ++ lit "\" ++ rest) (Share a b) rest.
