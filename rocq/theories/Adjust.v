(** * [adjust] (src/normalize.rs:6-22) on the names the operating system gives.

    In the rest of the model a path is a list of characters.  On Unix a path is a sequence of bytes, and [adjust] turns the
    canonical path into a [String] by [display().to_string()]; what it does to bytes that are not UTF-8 is modelled here, and
    [adjust] for Windows, where it removes a prefix.  The same conversion is made when an extension is appended. *)
From Coq Require Import String.
From Coq Require Import List Arith NArith Bool.
From Verif Require Import Str.
Import ListNotations.
Open Scope list_scope.
Open Scope N_scope.

(** The bytes of a [str]: UTF-8 (RFC 3629, section 3). *)
Definition utf8_char (c : char) : list N :=
  if c <? 128 then [c]
  else if c <? 2048 then [192 + c / 64; 128 + c mod 64]
  else if c <? 65536 then [224 + c / 4096; 128 + c / 64 mod 64; 128 + c mod 64]
  else [240 + c / 262144; 128 + c / 4096 mod 64; 128 + c / 64 mod 64; 128 + c mod 64].
Definition utf8 (s : str) : list N := flat_map utf8_char s.

Definition between (a b x : N) : bool := (a <=? x) && (x <=? b).
Definition cont : N -> bool := between 128 191.   (* a continuation byte *)
Definition replacement : char := 65533.           (* char::REPLACEMENT_CHARACTER *)

(** [Path::display] writes the text of the bytes with [replacement] for each maximal invalid piece
    (core::str::lossy::Utf8Chunks). *)
Fixpoint display (b : list N) : str :=
  match b with
  | [] => []
  | x :: r =>
      if x <? 128 then x :: display r
      else if between 194 223 x then
        match r with
        | y :: r1 => if cont y then ((x - 192) * 64 + (y - 128)) :: display r1 else replacement :: display r
        | [] => [replacement]
        end
      else if between 224 239 x then
        match r with
        | y :: r1 =>
            if (if x =? 224 then between 160 191 y else if x =? 237 then between 128 159 y else cont y) then
              match r1 with
              | z :: r2 => if cont z then ((x - 224) * 4096 + (y - 128) * 64 + (z - 128)) :: display r2 else replacement :: display r1
              | [] => [replacement]
              end
            else replacement :: display r
        | [] => [replacement]
        end
      else if between 240 244 x then
        match r with
        | y :: r1 =>
            if (if x =? 240 then between 144 191 y else if x =? 244 then between 128 143 y else cont y) then
              match r1 with
              | z :: r2 =>
                  if cont z then
                    match r2 with
                    | w :: r3 =>
                        if cont w then ((x - 240) * 262144 + (y - 128) * 4096 + (z - 128) * 64 + (w - 128)) :: display r3
                        else replacement :: display r2
                    | [] => [replacement]
                    end
                  else replacement :: display r1
              | [] => [replacement]
              end
            else replacement :: display r
        | [] => [replacement]
        end
      else replacement :: display r
  end.

(** [adjust] on Unix  (src/normalize.rs:6-9) *)
Definition adjust_unix (p : list N) : str := display p.

(** [append_ext_for_path] on Unix, from and to bytes  (src/resolve.rs:13-15) *)
Definition append_ext_unix (p : list N) (ext : str) : list N := utf8 (display p ++ ext).

(** [adjust] on Windows, on the displayed path; [None]: the slice panics  (src/normalize.rs:13-22) *)
Definition verbatim_prefix : str := lit "\\?\".
Definition adjust_windows (p : str) : option str :=
  if starts_with p verbatim_prefix then slice_from p (blen verbatim_prefix) else Some p.
