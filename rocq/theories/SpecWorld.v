(** * What a call may be told about the disk

    For every question to the file system the answers that may be given to it.  [standing]: the disk
    stands still.  [among]: it changes while calls are under way, and each question is answered by
    one of the file systems there are meanwhile. *)
From Coq Require Import List NArith Bool.
From Verif Require Import Str Path Types Prog Desc Resolve Run.
Import ListNotations.

Record world := mkWorld {
  w_file : path -> bool -> Prop;
  w_dir : path -> bool -> Prop;
  w_exists : path -> bool -> Prop;
  w_read : path -> option str -> Prop;
  w_mtime : path -> meta_res -> Prop;
  w_canon : path -> option path -> Prop
}.
Definition standing (fs : fsys) : world :=
  mkWorld (fun p x => f_file fs p = x) (fun p x => f_dir fs p = x) (fun p x => f_exists fs p = x)
    (fun p x => f_read fs p = x) (fun p x => f_mtime fs p = x) (fun p x => f_canon fs p = x).
Definition among (seen : fsys -> Prop) : world :=
  mkWorld (fun p x => exists fs, seen fs /\ f_file fs p = x) (fun p x => exists fs, seen fs /\ f_dir fs p = x)
    (fun p x => exists fs, seen fs /\ f_exists fs p = x) (fun p x => exists fs, seen fs /\ f_read fs p = x)
    (fun p x => exists fs, seen fs /\ f_mtime fs p = x) (fun p x => exists fs, seen fs /\ f_canon fs p = x).
(** Whatever may be told in the first may be told in the second. *)
Definition within (w w' : world) : Prop :=
  (forall p x, w_file w p x -> w_file w' p x) /\ (forall p x, w_dir w p x -> w_dir w' p x) /\ (forall p x, w_exists w p x -> w_exists w' p x) /\
  (forall p x, w_read w p x -> w_read w' p x) /\ (forall p x, w_mtime w p x -> w_mtime w' p x) /\ (forall p x, w_canon w p x -> w_canon w' p x).
