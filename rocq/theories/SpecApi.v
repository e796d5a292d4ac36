(** * Specifications for the API-level properties. *)
From Coq Require Import String.
From Coq Require Import List Arith NArith Bool.
From Verif Require Import Str Path Json Types.
Import ListNotations.

(** The text of the generic failure for a request made in a directory. *)
Definition generic_failure (base : path) (req : str) : str :=
  lit "Resolve '" ++ req ++ lit "' failed in '" ++ base ++ lit "'".
Definition norm_failed : str := lit "Path normalized failed".

(** Errors that complain about a description file: it cannot be read or inspected, is not
    JSON, or has an ill-formed field. *)
Inductive desc_err : str -> Prop :=
| DEOpen : forall p, desc_err (lit "Open " ++ p ++ lit " failed")
| DENoTime : forall p, desc_err (lit "Get modified time of " ++ p ++ lit " failed")
| DETime : forall p, desc_err (lit "Compare SystemTime failed in " ++ p)
| DEParse : forall p, desc_err (lit "Parse " ++ p ++ lit " failed")
| DESide : forall p v, desc_err (lit "sideEffects in " ++ p ++ lit " had unexpected value " ++ to_string v)
| DEKeysMixed : desc_err (lit "Export field key can't mixed relative path and conditional object")
| DEExportKey : forall k, desc_err (lit "Export field key should be relative path and start with ""./"", but got " ++ k)
| DEImportKey : forall k, desc_err (lit "Imports field key should start with #, but got " ++ k)
| DEImportShort : forall k, desc_err (lit "Imports field key should have at least 2 characters, but got " ++ k)
| DEImportSlash : forall k, desc_err (lit "Import field key should not start with #/, but got " ++ k).
