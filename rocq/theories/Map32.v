(** * The parts of src/map.rs that compute with [i32], with 32 bits

    [Map.v] computes with unbounded integers.  Here every [as i32] wraps around, and additions, subtractions, negations and
    [abs] on [i32] do as in Rust: they panic in debug builds and wrap around in release builds.  [usize] is 64 bits wide.
    ([debug] is [rv_debug].) *)
From Coq Require Import String.
From Coq Require Import List Arith NArith ZArith Bool.
From Verif Require Import Str Json Types Map.
Import ListNotations.

Definition i32_limit : Z := (2 ^ 31)%Z.
(** [x as i32] *)
Definition wrap32 (x : Z) : Z := ((x + i32_limit) mod (2 * i32_limit) - i32_limit)%Z.
Definition fits32 (x : Z) : bool := (- i32_limit <=? x)%Z && (x <? i32_limit)%Z.
(** The result of an operation whose exact value is [x]. *)
Definition arith32 (debug : bool) (x : Z) : pcomp Z :=
  if fits32 x then PRet x else if debug then PPanic (lit "arithmetic operation overflowed") else PRet (wrap32 x).
(** [x as usize] for an [i32] *)
Definition as_usize (x : Z) : nat := Z.to_nat (x mod 2 ^ 64).

(** [Field::check_target]  (src/map.rs:83-103) *)
Fixpoint check_target_loop32 (debug : bool) (fuel : nat) (p : str) (lst : list (option nat)) (last : nat) (cd : Z) : pcomp bool :=
  match fuel with
  | 0 => PFuel
  | S f =>
      match next_slash lst last with
      | None => PRet true
      | Some slash_index =>
          match nth_error p last with
          | None => PPanic (lit "index out of bounds")
          | Some c0 =>
              if N.eqb c0 c_dot then
                match nth_error p (last + 1) with
                | None => PPanic (lit "index out of bounds")
                | Some c1 =>
                    if N.eqb c1 c_dot then
                      plet cd' := arith32 debug (cd - 1)%Z in
                      if (cd' <? 0)%Z then PRet false
                      else check_target_loop32 debug f p lst (slash_index + 1) cd'
                    else check_target_loop32 debug f p lst (slash_index + 1) cd
                end
              else plet cd' := arith32 debug (cd + 1)%Z in check_target_loop32 debug f p lst (slash_index + 1) cd'
          end
      end
  end.
Definition check_target32 (debug : bool) (p : str) : pcomp bool :=
  check_target_loop32 debug (S (length p)) p (get_next_list p c_slash) 0 0%Z.

(** [apply_folder_mapping]  (src/map.rs:404-414) *)
Definition apply_folder_mapping32 (debug : bool) (m : fmatch) (node : ptn) (last : nat) : pcomp fmatch :=
  match t_folder node with
  | Some v =>
      plet n := arith32 debug (- wrap32 (Z.of_nat last))%Z in
      plet i := arith32 debug (n - 1)%Z in
      PRet (Some (v, i))
  | None => PRet m
  end.
(** [apply_wildcard_mappings]  (src/map.rs:416-433) *)
Fixpoint apply_wildcards32 (m : fmatch) (wild : list (str * mv)) (remaining : str) (last : nat) : fmatch :=
  match wild with
  | [] => m
  | (key, target) :: r =>
      let m' :=
        if starts_with remaining key then
          let index := wrap32 (Z.of_nat (last + blen key)) in
          match m with
          | None => Some (target, index)
          | Some (_, i) => if (i <? index)%Z then Some (target, index) else m
          end
        else m in
      apply_wildcards32 m' r remaining last
  end.
Definition apply_wildcard_mappings32 (m : fmatch) (node : ptn) (remaining : str) (last : nat) : fmatch :=
  match t_wildcards node with
  | Some w => apply_wildcards32 m w remaining last
  | None => m
  end.
(** [find_match]  (src/map.rs:435-499) *)
Fixpoint find_match_loop32 (debug : bool) (fuel : nat) (request : str) (lst : list (option nat)) (node : ptn)
    (last : nat) (m : fmatch) : pcomp fmatch :=
  match fuel with
  | 0 => PFuel
  | S f =>
      match next_slash lst last with
      | Some slash_index =>
          plet m1 := apply_folder_mapping32 debug m node last in
          if is_none (t_wildcards node) && is_none (t_children node) then PRet m1
          else
            let folder := char_slice request last slash_index in
            let m2 := apply_wildcard_mappings32 m1 node folder last in
            match t_children node with
            | None => PRet m2
            | Some ch =>
                match imap_get ch folder with
                | Some node' => find_match_loop32 debug f request lst node' (slash_index + 1) m2
                | None => PRet m2
                end
            end
      | None =>
          let remaining := skipn last request in
          match imap_get (t_files node) remaining with
          | Some v => PRet (Some (v, wrap32 (Z.of_nat (blen remaining) + 1)))
          | None =>
              plet m1 := apply_folder_mapping32 debug m node last in
              PRet (apply_wildcard_mappings32 m1 node remaining last)
          end
      end
  end.
Definition find_match32 (debug : bool) (root : ptn) (request : str) : pcomp fmatch :=
  match request with
  | [] => PRet (match imap_get (t_files root) [] with Some v => Some (v, 1%Z) | None => None end)
  | _ =>
      if is_none (t_children root) && is_none (t_folder root) && is_none (t_wildcards root) then
        PRet (match imap_get (t_files root) request with
              | Some v => Some (v, wrap32 (Z.of_nat (length request) + 1))
              | None => None
              end)
      else find_match_loop32 debug (S (length request)) request (get_next_list request c_slash) root 0 None
  end.
(** [field_process]  (src/map.rs:215-246) *)
Definition remaining_of32 (debug : bool) (request : str) (index : Z) : pcomp (option str) :=
  plet n := arith32 debug (wrap32 (Z.of_nat (length request)) + 1)%Z in
  if (index =? n)%Z then PRet None
  else if (index <? 0)%Z then
    plet a := arith32 debug (Z.abs index) in
    plet b := arith32 debug (a - 1)%Z in
    PRet (Some (skipn (as_usize b) request))
  else PRet (Some (skipn (as_usize index) request)).
Definition field_process32 (debug : bool) (fk : field) (root : ptn) (target : str) (names : list str) : pcomp (result (list str)) :=
  match assert_request fk target with
  | Err e => PRet (Err e)
  | Ok request =>
      plet m := find_match32 debug root request in
      match m with
      | None => PRet (Ok [])
      | Some (v, index) =>
          plet rm := remaining_of32 debug request index in
          mapping (S (mv_size v)) fk rm (index <? 0)%Z v names
      end
  end.
