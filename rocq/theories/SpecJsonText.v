(** * JSON texts (RFC 8259), as a grammar. *)
From Coq Require Import String.
From Coq Require Import List Arith NArith Bool.
From Verif Require Import Str Json.
Import ListNotations.
Local Open Scope N_scope.

Definition blank (s : str) : Prop := Forall (fun c => In c [32; 9; 10; 13]) s.
Definition digit (c : char) : Prop := 48 <= c <= 57.
Definition all_digits (s : str) : Prop := s <> [] /\ Forall digit s.

(** A hexadecimal digit and its value. *)
Definition hex (c : char) (n : N) : Prop :=
  (digit c /\ c = 48 + n) \/ (97 <= c <= 102 /\ c = 87 + n) \/ (65 <= c <= 70 /\ c = 55 + n).
(** Backslash, "u", four hexadecimal digits. *)
Definition unit_of (s : str) (n : N) : Prop :=
  exists a b c d w x y z, s = [92; 117; a; b; c; d] /\ hex a w /\ hex b x /\ hex c y /\ hex d z /\ n = 4096 * w + 256 * x + 16 * y + z.
Definition high (n : N) : Prop := 55296 <= n < 56320.
Definition low (n : N) : Prop := 56320 <= n < 57344.
(** One character of a string as it may be written. *)
Inductive written : str -> char -> Prop :=
| WPlain : forall c, 32 <= c -> c <> 34 -> c <> 92 -> written [c] c
| WEscape : forall e c, In (e, c) [(34, 34); (92, 92); (47, 47); (98, 8); (102, 12); (110, 10); (114, 13); (116, 9)] -> written [92; e] c
| WUnit : forall s n, unit_of s n -> ~ high n -> ~ low n -> written s n
| WPair : forall s t n m, unit_of s n -> unit_of t m -> high n -> low m -> written (s ++ t) (65536 + (n - 55296) * 1024 + (m - 56320)).
Inductive contents : str -> str -> Prop :=
| CNil : contents [] []
| CCons : forall s c t u, written s c -> contents t u -> contents (s ++ t) (c :: u).
Definition quoted (s u : str) : Prop := exists t, s = 34 :: t ++ [34] /\ contents t u.

(** The digits before the dot, and what follows them. *)
Definition numeral (ds fx : str) : Prop :=
  all_digits ds /\ (ds = [48] \/ ~ exists r, ds = 48 :: r) /\
  exists fr ex, fx = fr ++ ex /\ (fr = [] \/ exists t, fr = 46 :: t /\ all_digits t) /\
    (ex = [] \/ exists e sg t, ex = e :: sg ++ t /\ In e [101; 69] /\ In sg [[]; [43]; [45]] /\ all_digits t).
Fixpoint number_of (ds : str) (acc : N) : N := match ds with [] => acc | c :: r => number_of r (10 * acc + (c - 48)) end.
(** What is printed for a number: integers of 64 bits as they are, all others as [float] says. *)
Definition prints (float : str -> option str) (neg : bool) (ds fx l : str) : Prop :=
  let t := (if neg then [45] else []) ++ ds ++ fx in
  let n := number_of ds 0 in
  let whole := fx = [] /\ if neg then 0 < n <= 2 ^ 63 else n < 2 ^ 64 in
  (whole /\ l = t) \/ (~ whole /\ float t = Some l).

(** [l] is what becomes of the members [ms]: keys in the order in which they come first, each
    with the value that comes last. *)
Fixpoint last_of (ms : list (str * json)) (k : str) : option json :=
  match ms with
  | [] => None
  | (k', v) :: r => match last_of r k with Some x => Some x | None => if str_eqb k' k then Some v else None end
  end.
Fixpoint firsts (seen : list str) (ks : list str) : list str :=
  match ks with [] => [] | k :: r => if mem k seen then firsts seen r else k :: firsts (k :: seen) r end.
Definition object_of (ms l : list (str * json)) : Prop :=
  map fst l = firsts [] (map fst ms) /\ forall k v, In (k, v) l -> last_of ms k = Some v.

Section Grammar.
Variable float : str -> option str.
(** [s] spells [v] with at most [d] arrays and objects around each other. *)
Inductive spells : nat -> str -> json -> Prop :=
| TNull : forall d, spells d (lit "null") JNull
| TTrue : forall d, spells d (lit "true") (JBool true)
| TFalse : forall d, spells d (lit "false") (JBool false)
| TNum : forall d (neg : bool) ds fx l, numeral ds fx -> prints float neg ds fx l -> spells d ((if neg then [45] else []) ++ ds ++ fx) (JNum l)
| TStr : forall d s u, quoted s u -> spells d s (JStr u)
| TArr0 : forall d b, blank b -> spells (S d) (91 :: b ++ [93]) (JArr [])
| TArr : forall d s l, list_of d s l -> spells (S d) (91 :: s ++ [93]) (JArr l)
| TObj0 : forall d b, blank b -> spells (S d) (123 :: b ++ [125]) (JObj [])
| TObj : forall d s ms l, members_of d s ms -> object_of ms l -> spells (S d) (123 :: s ++ [125]) (JObj l)
with list_of : nat -> str -> list json -> Prop :=
| LOne : forall d a s b v, blank a -> spells d s v -> blank b -> list_of d (a ++ s ++ b) [v]
| LMore : forall d a s b v t l, blank a -> spells d s v -> blank b -> list_of d t l -> list_of d ((a ++ s ++ b) ++ 44 :: t) (v :: l)
with members_of : nat -> str -> list (str * json) -> Prop :=
| MOne : forall d s k v, member_of d s k v -> members_of d s [(k, v)]
| MMore : forall d s k v t ms, member_of d s k v -> members_of d t ms -> members_of d (s ++ 44 :: t) ((k, v) :: ms)
with member_of : nat -> str -> str -> json -> Prop :=
| Member : forall d a q b c s e k v, blank a -> quoted q k -> blank b -> blank c -> spells d s v -> blank e ->
    member_of d (a ++ q ++ b ++ 58 :: c ++ s ++ e) k v.
(** A document: one value and white space around it. *)
Definition document (s : str) (v : json) : Prop := exists a t b, s = a ++ t ++ b /\ blank a /\ spells 127 t v /\ blank b.
End Grammar.

(** The text of a number. *)
Definition is_number (l : str) : Prop := exists (neg : bool) ds fx, l = (if neg then [45] else []) ++ ds ++ fx /\ numeral ds fx.
(** Printed numbers are numbers, and are printed again as they are. *)
Definition prints_numbers (float : str -> option str) : Prop := forall t l, float t = Some l -> is_number l.
Definition own_number (float : str -> option str) (l : str) : Prop :=
  exists (neg : bool) ds fx, l = (if neg then [45] else []) ++ ds ++ fx /\ numeral ds fx /\ prints float neg ds fx l.
Definition prints_once (float : str -> option str) : Prop := forall t l, float t = Some l -> own_number float l.
(** The values that a text can spell: at most [d] deep, keys differ, numbers print as they are. *)
Inductive readable (float : str -> option str) : nat -> json -> Prop :=
| RNull : forall d, readable float d JNull
| RBool : forall d b, readable float d (JBool b)
| RNum : forall d l, own_number float l -> readable float d (JNum l)
| RStr : forall d s, readable float d (JStr s)
| RArr : forall d l, Forall (readable float d) l -> readable float (S d) (JArr l)
| RObj : forall d l, NoDup (map fst l) -> Forall (fun kv => readable float d (snd kv)) l -> readable float (S d) (JObj l).
