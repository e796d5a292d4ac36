(** * Specification of description lookup without caches, and the assumptions on file systems
    under which paths may be compared by components. *)
From Coq Require Import String.
From Coq Require Import List Arith NArith Bool.
From Verif Require Import Str Path Json Types Parse Map Prog Desc Run.
Import ListNotations.

(** The same path in Rust's sense ([Path == Path]); the spelling may differ ("/a//b/", "/a/./b"). *)
Definition same_path (p q : path) : Prop := components p = components q.
(** The same text after two spellings of the same directory. *)
Definition same_tail (p q : path) : Prop :=
  p = q \/ exists p0 q0 t, ends_with_char p0 c_slash = true /\ ends_with_char q0 c_slash = true /\
    same_path p0 q0 /\ p = p0 ++ t /\ q = q0 ++ t.
(** Two texts that differ at most in the spelling of one path inside them. *)
Definition respelled (e e' : str) : Prop :=
  exists a b x y, same_path x y /\ e = a ++ x ++ b /\ e' = a ++ y ++ b.

(** What POSIX guarantees about spellings: [posix_sane] in PosixP.v. *)
Record sane_fs (fs : fsys) : Prop := {
  sf_dir : forall p q, same_path p q -> f_dir fs p = f_dir fs q;
  sf_file : forall p q, same_tail p q -> f_file fs p = f_file fs q;
  sf_exists : forall p q, same_tail p q -> f_exists fs p = f_exists fs q;
  sf_read : forall p q, same_tail p q -> f_read fs p = f_read fs q;
  sf_mtime : forall p q, same_tail p q -> f_mtime fs p = f_mtime fs q;
  sf_canon : forall p q, same_tail p q -> f_canon fs p = f_canon fs q;
  (* the spelling of the name of a file that can be read is unique up to that of its directory *)
  sf_plain : forall p q, same_path p q -> f_read fs p <> None -> f_file fs q = true -> f_mtime fs p = f_mtime fs q;
  (* a directory is not a regular file *)
  sf_kind : forall p, f_dir fs p = true -> f_file fs p = false;
  sf_empty : f_dir fs [] = false;
  (* what contains a directory is a directory *)
  sf_parent : forall p q, f_dir fs p = true -> parent p = Some q -> q <> [] -> f_dir fs q = true
}.

(** The path and its ancestors, nearest first. *)
Definition lineage (p : path) : list path := p :: ancestors (length (components p)) p.
(** Those from the first existing directory on. *)
Definition from_dir (fs : fsys) (p : path) : list path := drop_while (fun q => negb (f_dir fs q)) (lineage p).
(** The nearest of these that has a description file. *)
Definition nearest (fs : fsys) (name : str) (p : path) : option path :=
  find (fun q => f_file fs (join q name)) (from_dir fs p).

(** The content of a description file, read afresh.  [p_alias] is in document order. *)
Definition described (fs : fsys) (js : str -> option json) (name : str) (d : path) : pcomp (result pkg) :=
  let fp := join d name in
  match f_read fs fp, f_mtime fs fp with
  | Some s, MTime _ =>
      match js s with
      | None => PRet (Err (lit "Parse " ++ fp ++ lit " failed"))
      | Some j =>
          plet af := alias_fields_of j in
          plet ex := match jget j (lit "exports") with
                     | None => PRet (Ok None)
                     | Some v => plet r := build_exports v in
                                 PRet (match r with Ok t => Ok (Some t) | Err e => Err e end)
                     end in
          match ex with
          | Err e => PRet (Err e)
          | Ok ex =>
              plet im := match jget j (lit "imports") with
                         | None => PRet (Ok None)
                         | Some v => plet r := build_imports v in
                                     PRet (match r with Ok t => Ok (Some t) | Err e => Err e end)
                         end in
              match im with
              | Err e => PRet (Err e)
              | Ok im =>
                  PRet (match side_effects_of fp j with
                        | Err e => Err e
                        | Ok se => Ok (mkPkg d (opt_str (jget j (lit "name"))) (opt_str (jget j (lit "version")))
                                             af ex im se j)
                        end)
              end
          end
      end
  | _, _ => PRet (Err (open_failed fp))
  end.

(** What a lookup without any cache answers. *)
Definition lookup_desc (fs : fsys) (js : str -> option json) (name : option str) (p : path) : pcomp (result (option pkg)) :=
  match name with
  | None => PRet (Ok None)
  | Some name =>
      match from_dir fs p with
      | [] => PRet (Err TAG)
      | _ =>
          match nearest fs name p with
          | None => PRet (Ok None)
          | Some d => if f_dir fs d
                      then plet r := described fs js name d in
                           PRet (match r with Ok pk => Ok (Some pk) | Err e => Err e end)
                      else PRet (Err TAG)
          end
      end
  end.

(** [v] is the value of field [fld] of some description file. *)
Definition field_on (fs : fsys) (js : str -> option json) (name fld : str) (v : json) : Prop :=
  exists d s j, f_dir fs d = true /\ f_read fs (join d name) = Some s /\ js s = Some j /\ jget j fld = Some v.

(** An object all of whose keys begin with "#": the imports fields that are accepted are such. *)
Definition hash_keys (v : json) : Prop := exists l, v = JObj l /\ forall k x, In (k, x) l -> exists r, k = c_hash :: r.

(** [d] is the nearest existing directory, going up from [p] itself, that has a description file. *)
Definition is_nearest (fs : fsys) (name : str) (p d : path) : Prop :=
  exists l1 l2, lineage p = l1 ++ d :: l2 /\ f_dir fs d = true /\ f_file fs (join d name) = true /\
    Forall (fun q => f_dir fs q = true -> f_file fs (join q name) = false) l1.
