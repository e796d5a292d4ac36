(** * JSON values as a parser produces them: number literals are what can be printed for a number. *)
From Coq Require Import String.
From Coq Require Import List NArith Bool.
From Verif Require Import Str Json.
Import ListNotations.

(** digits, "+", "-", ".", "e", "E" *)
Definition num_char (c : char) : bool :=
  ((48 <=? c)%N && (c <=? 57)%N) || (c =? 43)%N || (c =? 45)%N || (c =? 46)%N || (c =? 101)%N || (c =? 69)%N.
Fixpoint wf_json (j : json) : Prop :=
  match j with
  | JNum n => n <> [] /\ Forall (fun c => num_char c = true) n
  | JArr l => fold_right (fun x P => wf_json x /\ P) True l
  | JObj l => fold_right (fun x P => wf_json (snd x) /\ P) True l
  | _ => True
  end.
