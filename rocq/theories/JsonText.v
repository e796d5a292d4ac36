(** * [serde_json::from_str::<Value>]  (used in src/description.rs:51).

    The crate parses description files with serde_json 1.0.82 (default limits, feature
    [preserve_order]).  Everywhere else the parser is an arbitrary function; here it is spelt out. *)
From Coq Require Import String.
From Coq Require Import List Arith NArith Bool.
From Verif Require Import Str Json.
Import ListNotations.
Local Open Scope N_scope.

Definition is_ws (c : char) : bool := (c =? 32) || (c =? 10) || (c =? 9) || (c =? 13).
Definition is_digit (c : char) : bool := (48 <=? c) && (c <=? 57).
(** [parse_whitespace] *)
Fixpoint skip_ws (s : str) : str :=
  match s with c :: r => if is_ws c then skip_ws r else s | [] => [] end.
(** The longest prefix of digits, and the rest. *)
Fixpoint digits (s : str) : str * str :=
  match s with
  | c :: r => if is_digit c then let (a, b) := digits r in (c :: a, b) else ([], s)
  | [] => ([], [])
  end.
(** The rest after the character [c], if that is the next one. *)
Definition eat (c : char) (s : str) : option str :=
  match s with x :: r => if x =? c then Some r else None | [] => None end.
(** [parse_ident]: the text must begin with [w]. *)
Fixpoint ident (w s : str) : option str :=
  match w, s with
  | [], _ => Some s
  | x :: w', y :: s' => if x =? y then ident w' s' else None
  | _ :: _, [] => None
  end.

(** [decode_hex_escape]: four hexadecimal digits. *)
Definition hex_val (c : char) : option N :=
  if is_digit c then Some (c - 48)
  else if (97 <=? c) && (c <=? 102) then Some (c - 87)
  else if (65 <=? c) && (c <=? 70) then Some (c - 55)
  else None.
Definition hex4 (a b c d : char) : option N :=
  match hex_val a, hex_val b, hex_val c, hex_val d with
  | Some a, Some b, Some c, Some d => Some (((a * 16 + b) * 16 + c) * 16 + d)
  | _, _, _, _ => None
  end.
Definition simple_escape (c : char) : option char :=
  if c =? 34 then Some 34 else if c =? 92 then Some 92 else if c =? 47 then Some 47
  else if c =? 98 then Some 8 else if c =? 102 then Some 12 else if c =? 110 then Some 10
  else if c =? 114 then Some 13 else if c =? 116 then Some 9 else None.
Definition push (c : char) (o : option (str * str)) : option (str * str) :=
  match o with Some (t, z) => Some (c :: t, z) | None => None end.
(** The rest of a string literal after the opening quote ([parse_str], [parse_escape]). *)
Fixpoint string_body (s : str) : option (str * str) :=
  match s with
  | [] => None
  | c :: r =>
      if c =? 34 then Some ([], r)
      else if c =? 92 then
        match r with
        | [] => None
        | e :: r0 =>
            if e =? 117 then
              match r0 with
              | a1 :: a2 :: a3 :: a4 :: r1 =>
                  match hex4 a1 a2 a3 a4 with
                  | None => None
                  | Some n =>
                      if (56320 <=? n) && (n <=? 57343) then None
                      else if (55296 <=? n) && (n <=? 56319) then
                        match r1 with
                        | x :: y :: b1 :: b2 :: b3 :: b4 :: r2 =>
                            if (x =? 92) && (y =? 117) then
                              match hex4 b1 b2 b3 b4 with
                              | Some m =>
                                  if (56320 <=? m) && (m <=? 57343) then push (65536 + (n - 55296) * 1024 + (m - 56320)) (string_body r2)
                                  else None
                              | None => None
                              end
                            else None
                        | _ => None
                        end
                      else push n (string_body r1)
                  end
              | _ => None
              end
            else match simple_escape e with Some x => push x (string_body r0) | None => None end
        end
      else if c <? 32 then None
      else push c (string_body r)
  end.

(** The literal of a number and the rest ([parse_integer], [parse_decimal], [parse_exponent]). *)
Definition fraction (s : str) : option (str * str) :=
  match eat 46 s with
  | Some r => match digits r with ([], _) => None | (ds, z) => Some (46 :: ds, z) end
  | None => Some ([], s)
  end.
Definition exponent (s : str) : option (str * str) :=
  match s with
  | c :: r =>
      if (c =? 101) || (c =? 69) then
        let (sg, r') := match r with x :: r' => if (x =? 43) || (x =? 45) then ([x], r') else ([], r) | [] => ([], r) end in
        match digits r' with ([], _) => None | (ds, z) => Some (c :: sg ++ ds, z) end
      else Some ([], s)
  | [] => Some ([], s)
  end.
Definition integer (s : str) : option (str * str) :=
  match eat 48 s with
  | Some r => match digits r with ([], _) => Some ([48], r) | _ => None end
  | None => match digits s with ([], _) => None | (ds, z) => Some (ds, z) end
  end.

Section Text.
(** Numbers are read as [u64], [i64] or [f64]; a literal in the range of the former two is what
    is printed for it.  [float l] is what is printed for the [f64] nearest to the literal [l], or
    [None] if there is none ("number out of range"). *)
Variable float : str -> option str.

Definition decimal (ds : str) : N := fold_left (fun n c => n * 10 + (c - 48)) ds 0.
(** Sign, digits, and fraction with exponent. *)
Definition number_value (neg : bool) (ds fx : str) : option str :=
  let l := (if neg then [45] else []) ++ ds ++ fx in
  match fx with
  | [] => if neg then if (0 <? decimal ds) && (decimal ds <=? 9223372036854775808) then Some l else float l
          else if decimal ds <=? 18446744073709551615 then Some l else float l
  | _ => float l
  end.
Definition number (neg : bool) (s : str) : option (json * str) :=
  match integer s with
  | Some (ds, r) =>
      match fraction r with
      | Some (fr, r') =>
          match exponent r' with
          | Some (ex, z) => match number_value neg ds (fr ++ ex) with Some l => Some (JNum l, z) | None => None end
          | None => None
          end
      | None => None
      end
  | None => None
  end.

(** One or more values with commas between them, and the closing bracket; [val] reads a value.
    Here and below [f] only bounds the recursion. *)
Fixpoint elements (val : str -> option (json * str)) (f : nat) (s : str) : option (list json * str) :=
  match f with
  | O => None
  | S f' =>
      match val s with
      | None => None
      | Some (v, r) =>
          match eat 44 (skip_ws r) with
          | Some r' => match elements val f' r' with Some (l, z) => Some (v :: l, z) | None => None end
          | None => match eat 93 (skip_ws r) with Some z => Some ([v], z) | None => None end
          end
      end
  end.
(** One or more members; [m]: the members so far ([IndexMap::insert]). *)
Fixpoint members (val : str -> option (json * str)) (f : nat) (m : list (str * json)) (s : str) : option (json * str) :=
  match f with
  | O => None
  | S f' =>
      match eat 34 (skip_ws s) with
      | None => None
      | Some r1 =>
          match string_body r1 with
          | None => None
          | Some (k, r2) =>
              match eat 58 (skip_ws r2) with
              | None => None
              | Some r3 =>
                  match val r3 with
                  | None => None
                  | Some (v, r4) =>
                      match eat 44 (skip_ws r4) with
                      | Some r5 => members val f' (imap_insert m k v) r5
                      | None => match eat 125 (skip_ws r4) with Some z => Some (JObj (imap_insert m k v), z) | None => None end
                      end
                  end
              end
          end
      end
  end.
(** [d]: how many more arrays and objects may be opened ([check_recursion!]). *)
Fixpoint value (f d : nat) (s : str) : option (json * str) :=
  match f with
  | O => None
  | S f' =>
      match skip_ws s with
      | [] => None
      | c :: r =>
          if c =? 110 then match ident (lit "ull") r with Some z => Some (JNull, z) | None => None end
          else if c =? 116 then match ident (lit "rue") r with Some z => Some (JBool true, z) | None => None end
          else if c =? 102 then match ident (lit "alse") r with Some z => Some (JBool false, z) | None => None end
          else if c =? 45 then number true r
          else if is_digit c then number false (c :: r)
          else if c =? 34 then match string_body r with Some (t, z) => Some (JStr t, z) | None => None end
          else if c =? 91 then
            match d with
            | O => None
            | S d' =>
                match eat 93 (skip_ws r) with
                | Some z => Some (JArr [], z)
                | None => match elements (value f' d') f' r with Some (l, z) => Some (JArr l, z) | None => None end
                end
            end
          else if c =? 123 then
            match d with
            | O => None
            | S d' =>
                match eat 125 (skip_ws r) with
                | Some z => Some (JObj [], z)
                | None => members (value f' d') f' [] r
                end
            end
          else None
      end
  end.
(** A value with nothing but white space after it. *)
Definition from_str (s : str) : option json :=
  match value (S (length s)) 127 s with
  | Some (v, r) => match skip_ws r with [] => Some v | _ => None end
  | None => None
  end.
End Text.
