(** * A description file that cannot be parsed *)
From Coq Require Import String.
From Coq Require Import List Arith NArith Bool.
From Verif Require Import Str Path Json Types Parse Map Prog Desc Resolve Top Run Posix Demo SpecLoad SpecCache SpecDesc SpecNode.
Import ListNotations.

Section Broken.
Variable js : str -> option json.
Variable name : str.
(** The directories [near] have no description file, and that of [d] is there and is no JSON. *)
Definition broken_at (near : list path) (d : path) (fs : fsys) : Prop :=
  Forall (fun q => f_file fs (join q name) = false) near /\ f_dir fs d = true /\ f_file fs (join d name) = true /\
  exists s t, f_read fs (join d name) = Some s /\ f_mtime fs (join d name) = MTime t /\ js s = None.
(** Calls that put into the cache [c] only what files called [name] say. *)
Definition fills (c : nat) (x : call) : Prop :=
  let R := call_resolver x in
  rv_cache R = c -> o_desc (rv_opts R) = None \/ (o_desc (rv_opts R) = Some name /\ rv_json R = js).
End Broken.
Definition parse_failed (p : path) : str := lit "Parse " ++ p ++ lit " failed".
(** The path whose description a call asks for first. *)
Definition asked (x : call) (p : path) : Prop :=
  match x with
  | CSide R f q => q = p
  | CResolve R f base req => o_tsconfig (rv_opts R) = None /\ o_alias (rv_opts R) = [] /\ o_prefer_relative (rv_opts R) = false /\
      first_place base (parse req) = p
  end.
Definition reports (x : call) (e : str) : answer := match x with CSide _ _ _ => ASide (Err e) | CResolve _ _ _ _ => AResolve (Err e) end.
