(** * Specifications for whole exports/imports fields (properties C30-C36). *)
From Coq Require Import String.
From Coq Require Import List Arith NArith Bool.
From Verif Require Import Str Json Types Map SpecMap.
Import ListNotations.

(** The prefix of every request and subpath key of a field. *)
Definition pre_of (fk : field) : str := match fk with FExports => lit "./" | FImports => lit "#" end.
(** The field is a map of subpaths (an exports object may also be a map of conditions). *)
Definition subpaths (fk : field) (m : list (str * mv)) : Prop :=
  match fk with FExports => exists k v, In (k, v) m /\ subpath_key k | FImports => True end.
(** Requests [pre_of fk ++ sub] covered by the selection rule. *)
Definition good_sub (fk : field) (sub : str) : Prop :=
  Forall (fun c => (c < 128)%N) sub /\ sub <> [] /\ (forall r, sub <> r ++ lit "/") /\ (fk = FImports -> forall r, sub <> lit "/" ++ r).
(** The field accepts target [t] for a pattern [p]. *)
Definition target_valid (fk : field) (p : pattern) (t : str) : Prop :=
  (fk = FExports -> relative_target t) /\ ((exists r, t = r ++ lit "/") <-> is_folder p).
(** What the crate makes of target [t]: the rule of [substituted] except that '$' is doubled in the
    text replacing '*', and that the '*' of a target behind an exact key with a '/' is replaced
    by a tail of the subpath. *)
Inductive rewritten (sub : str) : pattern -> str -> str -> str -> Prop :=
| RwFolder : forall p x t, rewritten sub (PFolder p) x t (t ++ x)
| RwStar : forall p x t, rewritten sub (PStar p) x t (fill t (doubled x))
| RwExact : forall s x t, rewritten sub (PExact s) x t t
| RwExactDeep : forall s x t d f, sub = d ++ lit "/" ++ f -> ~ In 47%N f ->
    rewritten sub (PExact s) x t (fill t (doubled (skipn (length f + 1) sub))).
(** The answer [ans] is the one prescribed for the selected entry [o]. *)
Definition serves (fk : field) (names : list str) (sub : str) (o : option (mv * pattern * str)) (ans : pcomp (result (list str))) : Prop :=
  match o with
  | None => ans = PRet (Ok [])
  | Some (v, p, x) =>
      (exists e, targets names v (Err e) /\ exists e', ans = PRet (Err e')) \/
      exists l, targets names v (Ok l) /\
        ((exists t, In t l /\ ~ target_valid fk p t) /\ (exists e, ans = PRet (Err e)) \/
         (forall t, In t l -> target_valid fk p t) /\ exists out, ans = PRet (Ok out) /\ Forall2 (rewritten sub p x) l out)
  end.
Definition dot_only (m : list (str * mv)) : Prop := ~ In (lit "/") (map fst m).
(** Keys (C35) *)
Definition exports_key_ok (k : str) : Prop := k = lit "." \/ k = lit "/" \/ exists s, k = lit "./" ++ s.
Definition imports_key_ok (k : str) : Prop := (exists s, k = lit "#" ++ s) /\ k <> lit "#" /\ (forall s, k <> lit "#/" ++ s).
