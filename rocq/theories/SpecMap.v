(** * Specifications for the exports/imports field (properties C28-C36), independent of the
    loops, stacks, tries and indices of [Map.v]. *)
From Coq Require Import String.
From Coq Require Import List Arith NArith ZArith Bool.
From Verif Require Import Str Json Types.
Import ListNotations.

(** ** Conditions (C28) *)
Definition enabled (names : list str) (k : str) : Prop := k = lit "default" \/ In k names.
Definition is_leaf (v : mv) : Prop := match v with MCond _ => False | _ => True end.

(** [choose names entries r]: reading the entries of a condition object from the left. *)
Inductive choose (names : list str) : list (str * mv) -> result (option mv) -> Prop :=
| ChNil : choose names [] (Ok None)
| ChDefaultNotLast : forall v rest, rest <> [] ->
    choose names ((lit "default", v) :: rest) (Err (lit "Default condition should be last one"))
| ChSkip : forall k v rest r, ~ enabled names k -> choose names rest r -> choose names ((k, v) :: rest) r
| ChLeaf : forall k v rest, enabled names k -> (k = lit "default" -> rest = []) -> is_leaf v ->
    choose names ((k, v) :: rest) (Ok (Some v))
| ChNested : forall k inner rest r, enabled names k -> (k = lit "default" -> rest = []) ->
    choose names inner r -> r <> Ok None -> choose names ((k, MCond inner) :: rest) r
| ChBacktrack : forall k inner rest r, enabled names k -> (k = lit "default" -> rest = []) ->
    choose names inner (Ok None) -> choose names rest r -> choose names ((k, MCond inner) :: rest) r.

(** No object below [v] has the same key twice. *)
Inductive distinct : mv -> Prop :=
| DsDirect : forall s, distinct (MDirect s)
| DsCond : forall m, NoDup (map fst m) -> (forall k v, In (k, v) m -> distinct v) -> distinct (MCond m)
| DsArray : forall a, (forall m, In (ACond m) a -> distinct (MCond m)) -> distinct (MArray a).

(** Condition names written anywhere below a value. *)
Inductive occurs (c : str) : mv -> Prop :=
| OccHere : forall m v, In (c, v) m -> occurs c (MCond m)
| OccBelow : forall m k v, In (k, v) m -> occurs c v -> occurs c (MCond m)
| OccArray : forall a m, In (ACond m) a -> occurs c (MCond m) -> occurs c (MArray a).

(** ** Subpath keys (C30) *)
(** The text after "./" (exports) or "#" (imports) of a key. *)
Inductive pattern :=
| PExact (s : str)       (* a single subpath *)
| PStar (p : str)        (* p* *)
| PFolder (p : str).     (* p, empty or ending in '/' *)
Inductive classify : str -> pattern -> Prop :=
| ClFolderEmpty : classify [] (PFolder [])
| ClFolder : forall p, classify (p ++ lit "/") (PFolder (p ++ lit "/"))
| ClStar : forall p, classify (p ++ lit "*") (PStar p)
| ClExact : forall s, s <> [] -> (forall p, s <> p ++ lit "/") -> (forall p, s <> p ++ lit "*") -> classify s (PExact s).
(** The part of the subpath a pattern leaves to its target. *)
Inductive leaves : pattern -> str -> str -> Prop :=
| LvExact : forall s, leaves (PExact s) s []
| LvStar : forall p x, leaves (PStar p) (p ++ x) x
| LvFolder : forall p x, leaves (PFolder p) (p ++ x) x.
(** Priorities among matching patterns: the longer prefix wins, a star beats a folder of the
    same length. *)
Definition prefix_of (p : pattern) : str := match p with PExact s | PStar s | PFolder s => s end.
Definition preferred (p q : pattern) : Prop :=
  length (prefix_of q) < length (prefix_of p) \/
  length (prefix_of q) = length (prefix_of p) /\ exists a b, p = PStar a /\ q = PFolder b.
(** [selects entries sub o]: which entry serves the subpath [sub], and the matched remainder. *)
Inductive selects (entries : list (str * mv)) (sub : str) : option (mv * pattern * str) -> Prop :=
| SelExact : forall v, In (sub, v) entries -> classify sub (PExact sub) ->
    selects entries sub (Some (v, PExact sub, []))
| SelPattern : forall k v p x,
    (forall v, In (sub, v) entries -> ~ classify sub (PExact sub)) ->
    In (k, v) entries -> classify k p -> leaves p sub x ->
    (forall k' v' p' x', In (k', v') entries -> classify k' p' -> leaves p' sub x' -> k' = k \/ preferred p p') ->
    selects entries sub (Some (v, p, x))
| SelNone : (forall k v p x, In (k, v) entries -> classify k p -> ~ leaves p sub x) ->
    selects entries sub None.

(** ** Targets (C31, C36) *)
(** The targets a value offers under the enabled conditions, in document order. *)
Inductive targets (names : list str) : mv -> result (list str) -> Prop :=
| TgDirect : forall t, targets names (MDirect t) (Ok [t])
| TgCondNone : forall m, choose names m (Ok None) -> targets names (MCond m) (Ok [])
| TgCondErr : forall m e, choose names m (Err e) -> targets names (MCond m) (Err e)
| TgCond : forall m v r, choose names m (Ok (Some v)) -> targets names v r -> targets names (MCond m) r
| TgArray : forall a r, array_targets names a r -> targets names (MArray a) r
with array_targets (names : list str) : list am -> result (list str) -> Prop :=
| AtNil : array_targets names [] (Ok [])
| AtDirect : forall t a l, array_targets names a (Ok l) -> array_targets names (ADirect t :: a) (Ok (t :: l))
| AtCond : forall m a l l', targets names (MCond m) (Ok l) -> array_targets names a (Ok l') ->
    array_targets names (ACond m :: a) (Ok (l ++ l'))
| AtErrHere : forall m a e, targets names (MCond m) (Err e) -> array_targets names (ACond m :: a) (Err e)
| AtErrLater : forall x a e, array_targets names a (Err e) -> array_targets names (x :: a) (Err e).

(** Every '*' (code point 42) of [t] replaced by [x]. *)
Definition fill (t x : str) : str := flat_map (fun c => if N.eqb c 42 then x else [c]) t.
(** The substitution rule: what the target [t] of a pattern becomes. *)
Inductive substituted : pattern -> str -> str -> str -> Prop :=
| SbFolder : forall p x t, substituted (PFolder p) x t (t ++ x)
| SbStar : forall p x t, substituted (PStar p) x t (fill t x)
| SbExact : forall s x t, substituted (PExact s) x t t.

(** The entries of a field whose keys start with [pre], without it. *)
Definition sub_entries (pre : str) (m : list (str * mv)) : list (str * mv) :=
  flat_map (fun kv => if starts_with (fst kv) pre then [(skipn (length pre) (fst kv), snd kv)] else []) m.

(** ** Fields *)
(** A name written as an object key anywhere in a JSON value (C29). *)
Inductive json_key (c : str) : json -> Prop :=
| JkHere : forall l x, In (c, x) l -> json_key c (JObj l)
| JkObj : forall l k x, In (k, x) l -> json_key c x -> json_key c (JObj l)
| JkArr : forall l x, In x l -> json_key c x -> json_key c (JArr l).

(** A target that would leave the package: absolute, "..", or starting with "../" (C32). *)
Definition leaves_package (t : str) : Prop :=
  (exists r, t = lit "/" ++ r) \/ t = lit ".." \/ (exists r, t = lit "../" ++ r).
(** An exports target is acceptable: it is package relative and has at least two bytes. *)
Definition relative_target (t : str) : Prop :=
  2 <= blen t /\ ~ (exists r, t = lit "/" ++ r) /\ ((exists r, t = lit "." ++ r) -> exists r, t = lit "./" ++ r).
Definition is_folder (p : pattern) : Prop := match p with PFolder _ => True | _ => False end.
(** '$' (code point 36) written twice. *)
Definition doubled (x : str) : str := flat_map (fun c => if N.eqb c 36 then [36; 36]%N else [c]) x.

(** An exports object whose keys are subpaths rather than conditions. *)
Definition subpath_key (k : str) : Prop := (exists r, k = lit "." ++ r) \/ exists r, k = lit "/" ++ r.
(** The value serving the package itself (request "."). *)
Inductive root_value : mv -> mv -> Prop :=
| RvPlain : forall v, (forall m, v = MCond m -> forall k w, In (k, w) m -> ~ subpath_key k) -> root_value v v
| RvDot : forall m w, (exists k v, In (k, v) m /\ subpath_key k) -> In (lit ".", w) m -> root_value (MCond m) w.

(** ** Staying inside a directory (C33) *)
(** Following the segments of a relative path from depth [n]; [None] once above the start. *)
Definition seg_move (n : option nat) (s : str) : option nat :=
  match n with
  | None => None
  | Some d =>
      match s with
      | [] => Some d
      | _ => if str_eqb s (lit ".") then Some d
             else if str_eqb s (lit "..") then match d with 0 => None | S e => Some e end
             else Some (S d)
      end
  end.
Definition stays_inside (p : str) : Prop := fold_left seg_move (split_on 47%N p) (Some 0) <> None.
(** How the check counts a segment: anything that begins with ".." as one step up, anything else that begins with "." as
    no step, everything else (the empty segment too) as one step down. *)
Definition counted (s : str) : Z :=
  match s with
  | 46%N :: 46%N :: _ => (-1)%Z
  | 46%N :: _ => 0%Z
  | _ => 1%Z
  end.
Definition count (segs : list str) : Z := fold_right Z.add 0%Z (map counted segs).
(** A segment counted as what it is. *)
Definition plain_segment (s : str) : Prop := s = lit "." \/ s = lit ".." \/ forall r, s <> lit "." ++ r.
(** A string value written anywhere in a JSON value. *)
Inductive json_string (t : str) : json -> Prop :=
| JsStr : json_string t (JStr t)
| JsArr : forall l x, In x l -> json_string t x -> json_string t (JArr l)
| JsObj : forall l k x, In (k, x) l -> json_string t x -> json_string t (JObj l).
