(** * Modification times, in nanoseconds *)
From Coq Require Import NArith.
Definition seconds (n : N) : N := (n * 1000000000)%N.
