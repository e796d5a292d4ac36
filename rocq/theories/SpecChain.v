(** * The work of following main fields *)
From Coq Require Import String.
From Coq Require Import List Arith NArith Bool.
From Verif Require Import Str Path Json Types Parse Map Prog Run Exec Posix Demo.
Import ListNotations.

(** No directory with more than [D] components in its path was asked for. *)
Definition shallow (D : nat) (e : ev) : Prop :=
  match e with existT _ o x => match o with OIsDir p => length (components p) <= D | _ => True end end.
(** 1 + n + n^2 + ..., [f] terms: the directories of a search that goes on from each in [n] ways. *)
Fixpoint branches (n f : nat) : nat := match f with 0 => 0 | S f => 1 + n * branches n f end.
(** The request is a path. *)
Definition path_request (req : str) : Prop := r_kind (parse req) <> Normal /\ r_kind (parse req) <> Internal.
(** The operations of a run and their answers. *)
Fixpoint events {A} (fs : fsys) (p : prog A) (st : state) : list ev :=
  match p with
  | Do o k => mkev o (fst (step fs st o)) :: events fs (k (fst (step fs st o))) (snd (step fs st o))
  | _ => []
  end.
(** The descriptions taken from the table or put into it lie in absolute directories with at most [D] components, and their
    exports select at most [X] targets for a subpath. *)
Definition modest (D X : nat) (pk : pkg) : Prop :=
  is_abs (p_dir pk) = true /\ length (components (p_dir pk)) <= D /\
  forall tree sub conds l, p_exports pk = Some tree -> field_process FExports tree sub conds = PRet (Ok l) -> length l <= X.
Definition narrow (D X : nat) (e : ev) : Prop :=
  match e with
  | existT _ o x =>
      match o return ans o -> Prop with
      | OPkgGet _ _ => fun x => forall pk, x = Some (Some pk) -> modest D X pk
      | OPkgPut _ _ v => fun _ => forall pk, v = Some pk -> modest D X pk
      | _ => fun _ => True
      end x
  end.
(** The package /r/node_modules/p, whose exports name two files; the second one exists.  The package /r imports it. *)
Definition t70e : node := D [("r", D [("node_modules", D [("p", D [("package.json", PJ "E"); ("m.js", F)])]); ("package.json", PJ "I")])]%string.
Definition R70e : resolver := mkR dflt [("E", O [("exports", JArr [S_ "./a.js"; S_ "./m.js"])]); ("I", O [("imports", O [("#x", S_ "#y"); ("#y", S_ "p")])])]%string.
