(** * [serde_json::Value] (feature [preserve_order]) and [serde_json::to_string]. *)
From Coq Require Import String.
From Coq Require Import List Arith NArith Bool.
From Verif Require Import Str.
Import ListNotations.
Local Open Scope string_scope.
Local Open Scope list_scope.

(** Numbers are kept as their printed literal: the crate never computes with them. *)
Inductive json :=
| JNull
| JBool (b : bool)
| JNum (literal : str)
| JStr (s : str)
| JArr (l : list json)
| JObj (l : list (str * json)).

(** [Value::get(key)] *)
Definition jget (j : json) (k : str) : option json :=
  match j with JObj l => imap_get l k | _ => None end.
(** [Value::as_str], [as_bool], [as_array], [as_object] *)
Definition as_str (j : json) : option str := match j with JStr s => Some s | _ => None end.
Definition as_bool (j : json) : option bool := match j with JBool b => Some b | _ => None end.
Definition as_array (j : json) : option (list json) := match j with JArr l => Some l | _ => None end.
Definition as_object (j : json) : option (list (str * json)) :=
  match j with JObj l => Some l | _ => None end.

(** [opt.and_then(|v| v.as_str())] *)
Definition opt_str (o : option json) : option str :=
  match o with Some v => as_str v | None => None end.

(** serde_json's string escaping: the double quote, the backslash, \b \t \n \f \r, other control characters as \u00xx;
    everything else verbatim. *)
Definition hex_digit (n : N) : char := if (n <? 10)%N then (48 + n)%N else (87 + n)%N.
Definition esc_char (c : char) : str :=
  if (c =? 34)%N then [92; 34]%N
  else if (c =? 92)%N then [92; 92]%N
  else if (c =? 8)%N then [92; 98]%N
  else if (c =? 9)%N then [92; 116]%N
  else if (c =? 10)%N then [92; 110]%N
  else if (c =? 12)%N then [92; 102]%N
  else if (c =? 13)%N then [92; 114]%N
  else if (c <? 32)%N then [92; 117; 48; 48; hex_digit (c / 16); hex_digit (c mod 16)]%N
  else [c].
Definition quote_str (s : str) : str := c_quote :: flat_map esc_char s ++ [c_quote].

(** [serde_json::to_string] / [Display for Value]: compact form. *)
Fixpoint to_string (j : json) : str :=
  match j with
  | JNull => lit "null"
  | JBool true => lit "true"
  | JBool false => lit "false"
  | JNum l => l
  | JStr s => quote_str s
  | JArr l =>
      lit "[" ++
      (fix arr (l : list json) : str :=
         match l with
         | [] => []
         | [x] => to_string x
         | x :: r => to_string x ++ lit "," ++ arr r
         end) l ++ lit "]"
  | JObj l =>
      lit "{" ++
      (fix obj (l : list (str * json)) : str :=
         match l with
         | [] => []
         | [(k, x)] => quote_str k ++ lit ":" ++ to_string x
         | (k, x) :: r => quote_str k ++ lit ":" ++ to_string x ++ lit "," ++ obj r
         end) l ++ lit "}"
  end.
