(** * Rust strings.

    A Rust [str] is modelled as the list of its Unicode scalar values ([char]s).  Every
    operation below models the Rust std-library operation named in its comment, as used by
    /repo/src.  Byte lengths and byte offsets are computed through [utf8_len]. *)
From Coq Require Import String Ascii.
From Coq Require Import List Arith NArith Bool.
Import ListNotations.
Open Scope list_scope.

Definition char := N.
Definition str := list char.

(** ASCII literal; [lit "abc"] is the Rust literal ["abc"]. *)
Definition lit (s : string) : str := map N_of_ascii (list_ascii_of_string s).

(* Characters that occur in the code. *)
Definition c_slash : char := 47%N.   (* '/' *)
Definition c_bslash : char := 92%N.  (* '\' *)
Definition c_dot : char := 46%N.     (* '.' *)
Definition c_hash : char := 35%N.    (* '#' *)
Definition c_quest : char := 63%N.   (* '?' *)
Definition c_star : char := 42%N.    (* '*' *)
Definition c_dollar : char := 36%N.  (* '$' *)
Definition c_at : char := 64%N.      (* '@' *)
Definition c_colon : char := 58%N.   (* ':' *)
Definition c_quote : char := 34%N.   (* double quote *)

(** [char::len_utf8] *)
Definition utf8_len (c : char) : nat :=
  if (c <? 128)%N then 1 else if (c <? 2048)%N then 2 else if (c <? 65536)%N then 3 else 4.

(** [str::len]: length in bytes. *)
Fixpoint blen (s : str) : nat :=
  match s with [] => 0 | c :: r => utf8_len c + blen r end.

(** [==] on strings. *)
Fixpoint str_eqb (a b : str) : bool :=
  match a, b with
  | [], [] => true
  | x :: a', y :: b' => N.eqb x y && str_eqb a' b'
  | _, _ => false
  end.

(** [s.starts_with(p)] for a string [p]. *)
Fixpoint starts_with (s p : str) : bool :=
  match p, s with
  | [], _ => true
  | y :: p', x :: s' => N.eqb x y && starts_with s' p'
  | _ :: _, [] => false
  end.

(** [s.starts_with(c)] for a char [c]. *)
Definition starts_with_char (s : str) (c : char) : bool :=
  match s with x :: _ => N.eqb x c | [] => false end.

(** [s.ends_with(c)] for a char [c]. *)
Fixpoint ends_with_char (s : str) (c : char) : bool :=
  match s with [] => false | [x] => N.eqb x c | _ :: r => ends_with_char r c end.

(** [s.contains(p)] for a string [p]. *)
Fixpoint contains (s p : str) : bool :=
  starts_with s p || match s with [] => false | _ :: r => contains r p end.

(** Membership in a list/set of strings: [HashSet::contains], [slice::contains]. *)
Definition mem (s : str) (l : list str) : bool := existsb (str_eqb s) l.

(** [s.replace(c, to)] for a char [c]. *)
Definition replace_char (s : str) (c : char) (to : str) : str :=
  flat_map (fun x => if N.eqb x c then to else [x]) s.

(** [s.replacen(from, to, 1)]: replace the first occurrence of [from]. *)
Fixpoint replacen1 (s from to : str) : str :=
  if starts_with s from then to ++ skipn (length from) s
  else match s with [] => [] | c :: r => c :: replacen1 r from to end.

(** [s.find(c)] for a char, returned as the two sides of the hit: text before, text after. *)
Fixpoint find_char (s : str) (c : char) : option (str * str) :=
  match s with
  | [] => None
  | x :: r => if N.eqb x c then Some ([], r)
              else match find_char r c with Some (a, b) => Some (x :: a, b) | None => None end
  end.

(** Split at a byte offset; [None] when the offset is past the end or not on a char
    boundary, in which case Rust's slicing [&s[..n]], [&s[n..]] panics. *)
Fixpoint byte_split (s : str) (n : nat) : option (str * str) :=
  match n with
  | 0 => Some ([], s)
  | _ => match s with
         | [] => None
         | c :: r => if Nat.ltb n (utf8_len c) then None
                     else match byte_split r (n - utf8_len c) with
                          | Some (a, b) => Some (c :: a, b) | None => None end
         end
  end.

(** [&s[..n]], [&s[n..]], [&s[a..b]]; [None] is a panic. *)
Definition slice_to (s : str) (n : nat) : option str :=
  match byte_split s n with Some (a, _) => Some a | None => None end.
Definition slice_from (s : str) (n : nat) : option str :=
  match byte_split s n with Some (_, b) => Some b | None => None end.
Definition slice (s : str) (a b : nat) : option str :=
  match slice_to s b with
  | Some p => if Nat.leb a b then slice_from p a else None
  | None => None
  end.

(** [s.split(c)]: maximal [c]-free pieces; always non-empty. *)
Fixpoint split_on (c : char) (s : str) : list str :=
  match s with
  | [] => [[]]
  | x :: r => if N.eqb x c then [] :: split_on c r
              else match split_on c r with
                   | h :: t => (x :: h) :: t
                   | [] => [[x]]
                   end
  end.

(** pieces joined by [c]. *)
Fixpoint join_on (c : char) (l : list str) : str :=
  match l with
  | [] => []
  | [x] => x
  | x :: r => x ++ c :: join_on c r
  end.

(** ** Ordered maps with string keys ([indexmap::IndexMap], [serde_json::Map] with
    [preserve_order]): association lists in insertion order. *)
Definition imap (A : Type) := list (str * A).

Fixpoint imap_get {A} (m : imap A) (k : str) : option A :=
  match m with
  | [] => None
  | (k', v) :: r => if str_eqb k' k then Some v else imap_get r k
  end.

(** [IndexMap::insert]: overwrites in place when the key exists, else appends. *)
Fixpoint imap_insert {A} (m : imap A) (k : str) (v : A) : imap A :=
  match m with
  | [] => [(k, v)]
  | (k', v') :: r => if str_eqb k' k then (k', v) :: r else (k', v') :: imap_insert r k v
  end.

(** A [HashMap]'s iteration order: an arbitrary permutation, chosen by a list of insertion
    positions. *)
Definition insert_at {A} (n : nat) (x : A) (l : list A) : list A :=
  firstn n l ++ x :: skipn n l.
Fixpoint permute {A} (seed : list nat) (l : list A) : list A :=
  match l with
  | [] => []
  | x :: r => insert_at (hd 0 seed) x (permute (tl seed) r)
  end.
