(** * Debug and release builds. *)
From Coq Require Import String.
From Coq Require Import List Arith NArith Bool.
From Verif Require Import Str Path Json Types Parse Map Prog Desc Resolve Top Run SpecLoad SpecChange.
Import ListNotations.

(** The same resolver in a release build. *)
Definition released (R : resolver) : resolver :=
  mkResolver (rv_opts R) (rv_cache R) (rv_id R) (rv_duration R) false (rv_json R) (rv_jsonc R).
Definition released_call (c : call) : call :=
  match c with
  | CResolve R f base req => CResolve (released R) f base req
  | CSide R f p => CSide (released R) f p
  end.
Definition released_event (e : event) : event := match e with ECall c => ECall (released_call c) | EFs fs => EFs fs end.
(** The panic of the check that no description is read twice  (src/description.rs:30-42). *)
Definition double_read (m : str) : Prop := exists p, m = lit "Had try to parse same package.json, " ++ p.
(** Equal except for the record of that check. *)
Definition same_tables (st st' : state) : Prop :=
  s_pkg st = s_pkg st' /\ s_exp st = s_exp st' /\ s_imp st = s_imp st' /\ s_file st = s_file st' /\ s_ord st = s_ord st'.
(** How far a call of a debug build got, and how far that of the release build: the same end, or
    the debug build stopped at the check. *)
Definition follows {A} (d r : prog A) : Prop :=
  match d with
  | Ret a => r = Ret a
  | Panic m => r = Panic m \/ double_read m
  | OutOfFuel => r = OutOfFuel
  | Do _ _ => True
  end.

(** [s] is [l] without some of its elements. *)
Inductive part {A} : list A -> list A -> Prop :=
| PNil : part [] []
| PSkip x s l : part s l -> part s (x :: l)
| PKeep x s l : part s l -> part (x :: s) (x :: l).

(** The resolvers of a history, on all its file systems: one cache and one description name for
    each resolver; the names are relative, and all descriptions can be read. *)
Definition orderly (Rs : list resolver) (fss : list fsys) : Prop :=
  (forall R R' n n', In R Rs -> In R' Rs -> rv_id R = rv_id R' -> o_desc (rv_opts R) = Some n -> o_desc (rv_opts R') = Some n' ->
     rv_cache R = rv_cache R' /\ n = n') /\
  (forall R name, In R Rs -> o_desc (rv_opts R) = Some name -> is_abs name = false /\ forall fs, In fs fss -> all_readable (rv_json R) name fs) /\
  (forall fs, In fs fss -> f_dir fs [] = false).
