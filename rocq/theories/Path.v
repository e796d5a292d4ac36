(** * [std::path] on Unix, as used by /repo/src.

    A [Path]/[PathBuf] is modelled by its raw spelling (assumed valid UTF-8, so that
    [display().to_string()] is the identity).  [components], [join], [parent] follow the
    documented behaviour and implementation of Rust's std. *)
From Coq Require Import List Arith NArith Bool.
From Verif Require Import Str.
Import ListNotations.

Definition path := str.

Inductive comp := CRoot | CCur | CParent | CNormal (s : str).

Definition s_dot : str := [c_dot].
Definition s_dotdot : str := [c_dot; c_dot].

(** [Path::is_absolute] / [has_root] *)
Definition is_abs (p : path) : bool := starts_with_char p c_slash.

(** The part of a path that is not "body": the root, or a leading "." component
    ([Components::len_before_body] / [include_cur_dir]). *)
Definition lead_cur (p : path) : bool :=
  match p with
  | [c] => N.eqb c c_dot
  | c :: d :: _ => N.eqb c c_dot && N.eqb d c_slash
  | [] => false
  end.
Definition path_head (p : path) : path :=
  if is_abs p then [c_slash] else if lead_cur p then s_dot else [].
Definition path_body (p : path) : path := skipn (length (path_head p)) p.

(** Segments that yield no component: empty ones and "." ([parse_single_component]). *)
Definition skip_seg (s : str) : bool := str_eqb s [] || str_eqb s s_dot.

Definition seg_comp (s : str) : comp :=
  if str_eqb s s_dotdot then CParent else CNormal s.

Definition head_comps (p : path) : list comp :=
  if is_abs p then [CRoot] else if lead_cur p then [CCur] else [].

(** [Path::components] *)
Definition components (p : path) : list comp :=
  head_comps p ++ map seg_comp (filter (fun s => negb (skip_seg s)) (split_on c_slash (path_body p))).

Definition comp_eqb (a b : comp) : bool :=
  match a, b with
  | CRoot, CRoot | CCur, CCur | CParent, CParent => true
  | CNormal s, CNormal t => str_eqb s t
  | _, _ => false
  end.
Fixpoint comps_eqb (a b : list comp) : bool :=
  match a, b with
  | [], [] => true
  | x :: a', y :: b' => comp_eqb x y && comps_eqb a' b'
  | _, _ => false
  end.

(** [Path == Path] (and [Hash] for map keys) compares components. *)
Definition path_eqb (p q : path) : bool := comps_eqb (components p) (components q).

(** [Path::join] / [PathBuf::push] *)
Definition join (p q : path) : path :=
  if is_abs q then q
  else match p with
       | [] => q
       | _ => if ends_with_char p c_slash then p ++ q else p ++ c_slash :: q
       end.

Fixpoint drop_while {A} (f : A -> bool) (l : list A) : list A :=
  match l with [] => [] | x :: r => if f x then drop_while f r else l end.

(** [Path::parent]: drop the last component; trailing separators and "." segments are
    trimmed before and after ([Components::next_back], [Components::as_path]). *)
Definition parent (p : path) : option path :=
  match drop_while skip_seg (rev (split_on c_slash (path_body p))) with
  | [] => if is_abs p then None else if lead_cur p then Some [] else None
  | _ :: r => Some (path_head p ++ join_on c_slash (rev (drop_while skip_seg r)))
  end.

(** The proper ancestors of a path, nearest first (iterated [parent]); [fuel] bounds the
    depth. *)
Fixpoint ancestors (fuel : nat) (p : path) : list path :=
  match fuel with
  | 0 => []
  | S f => match parent p with Some q => q :: ancestors f q | None => [] end
  end.
