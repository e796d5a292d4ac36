(** * Where a query or a fragment may come from (C48) *)
From Coq Require Import String.
From Coq Require Import List NArith Bool.
From Verif Require Import Str Json Types Parse Map Prog Resolve Exec.
Import ListNotations.

Definition field_key (fk : field) : str := match fk with FExports => lit "exports" | FImports => lit "imports" end.
Definition field_tree (fk : field) (pk : pkg) : option ptn := match fk with FExports => p_exports pk | FImports => p_imports pk end.
(** The trees of exports and imports fields that a call has met: with a recorded description, in the tables of trees, or
    built from a description file that it has read. *)
Inductive met (R : resolver) (tr : list ev) : field -> ptn -> Prop :=
| MetRecorded : forall fk c p pk t, In (mkev (OPkgGet c p) (Some (Some pk))) tr -> field_tree fk pk = Some t -> met R tr fk t
| MetExports : forall k t, In (mkev (OExpGet (rv_cache R) k) (Some t)) tr -> met R tr FExports t
| MetImports : forall k t, In (mkev (OImpGet (rv_cache R) k) (Some t)) tr -> met R tr FImports t
| MetRead : forall fk p s j v t, In (mkev (ORead p) (Some s)) tr -> rv_json R s = Some j -> jget j (field_key fk) = Some v ->
    build_field fk v = PRet (Ok t) -> met R tr fk t.
(** A target that one of them gives for some request. *)
Definition given (R : resolver) (tr : list ev) (c : str) : Prop :=
  exists fk t req l, met R tr fk t /\ field_process fk t req (o_conditions (rv_opts R)) = PRet (Ok l) /\ In c l.
(** The query and the fragment of [a] are those of [b]. *)
Definition same_tail_of (a b : request) : Prop := r_query a = r_query b /\ r_fragment a = r_fragment b.
