(** * src/map.rs: the exports/imports field. *)
From Coq Require Import String.
From Coq Require Import List Arith NArith ZArith Bool.
From Verif Require Import Str Path Json Types.
Import ListNotations.
Open Scope list_scope.

(** The two implementors of the trait [Field]: [ExportsField] and [ImportsField]. *)
Inductive field := FExports | FImports.

(** Number of nested values (used only as loop fuel). *)
Fixpoint mv_size (v : mv) : nat :=
  match v with
  | MDirect _ => 1
  | MCond m => S ((fix sz (l : list (str * mv)) : nat :=
                     match l with [] => 0 | (_, x) :: r => S (mv_size x + sz r) end) m)
  | MArray a => S ((fix sz (l : list am) : nat :=
                      match l with [] => 0 | x :: r => S (am_size x + sz r) end) a)
  end
with am_size (a : am) : nat :=
  match a with
  | ADirect _ => 1
  | ACond m => S ((fix sz (l : list (str * mv)) : nat :=
                     match l with [] => 0 | (_, x) :: r => S (mv_size x + sz r) end) m)
  end.
Definition cmap_size (m : cmap) : nat := mv_size (MCond m).

(** ** [conditional_mapping]  (src/map.rs:25-70) *)
Definition s_default : str := lit "default".

Inductive scan := ScanErr | ScanRet (v : mv) | ScanPush (i : nat) (inner : cmap) | ScanEnd.

(** The inner [for] loop over [conditions.iter().enumerate().skip(j)] (lines 34-65): [i] is
    the index of the head of [rest], [len] the number of conditions. *)
Fixpoint cond_for (names : list str) (mapping : cmap) (len i : nat) (rest : list str) : scan :=
  match rest with
  | [] => ScanEnd
  | c :: rest' =>
      if negb (Nat.eqb i (len - 1)) && str_eqb c s_default then ScanErr
      else
        let second :=
          if mem c names then
            match imap_get mapping c with
            | Some (MCond inner) => ScanPush i inner
            | Some v => ScanRet v
            | None => cond_for names mapping len (S i) rest'
            end
          else cond_for names mapping len (S i) rest' in
        if str_eqb c s_default then
          match imap_get mapping s_default with
          | Some (MCond inner) => ScanPush i inner
          | Some v => ScanRet v
          | None => second
          end
        else second
  end.

(** The outer [while !lookup.is_empty()] loop (lines 29-69); head of the list = top of the
    stack [lookup]. *)
Fixpoint cond_loop (fuel : nat) (names : list str) (lookup : list (cmap * list str * nat))
  : pcomp (result (option mv)) :=
  match fuel with
  | 0 => PFuel
  | S f =>
      match lookup with
      | [] => PRet (Ok None)
      | (mapping, conditions, j) :: below =>
          match cond_for names mapping (length conditions) j (skipn j conditions) with
          | ScanErr => PRet (Err (lit "Default condition should be last one"))
          | ScanRet v => PRet (Ok (Some v))
          | ScanPush i inner =>
              cond_loop f names ((inner, map fst inner, 0) :: (mapping, conditions, i + 1) :: below)
          | ScanEnd => cond_loop f names below
          end
      end
  end.

Definition conditional_mapping (m : cmap) (names : list str) : pcomp (result (option mv)) :=
  cond_loop (2 * cmap_size m + 2) names [(m, map fst m, 0)].

(** ** [PathTreeNode]  (src/map.rs:389-547) *)

(** [get_next_list]  (src/map.rs:390-402): for each position the index of the next [target]
    at or after it.  The loop runs from the right; [i] is the index of the head. *)
Fixpoint get_next_list_from (i : nat) (p : str) (target : char) : list (option nat) :=
  match p with
  | [] => []
  | c :: r =>
      let t := get_next_list_from (S i) r target in
      (if N.eqb c target then Some i else hd None t) :: t
  end.
Definition get_next_list (p : str) (target : char) : list (option nat) := get_next_list_from 0 p target.

(** [while let Some(&Some(slash_index)) = slash_index_list.get(i)] *)
Definition next_slash (lst : list (option nat)) (i : nat) : option nat :=
  match nth_error lst i with Some (Some k) => Some k | _ => None end.

(** [&path[a..b].iter().collect()] / [.iter().skip(a).take(b-a)] *)
Definition char_slice (p : str) (a b : nat) : str := firstn (b - a) (skipn a p).

(** [Field::check_target]  (src/map.rs:83-103).  [cd] is an [i32]; indexing past the end is a
    panic. *)
Fixpoint check_target_loop (fuel : nat) (p : str) (lst : list (option nat)) (last : nat) (cd : Z)
  : pcomp bool :=
  match fuel with
  | 0 => PFuel
  | S f =>
      match next_slash lst last with
      | None => PRet true
      | Some slash_index =>
          match nth_error p last with
          | None => PPanic (lit "index out of bounds")
          | Some c0 =>
              if N.eqb c0 c_dot then
                match nth_error p (last + 1) with
                | None => PPanic (lit "index out of bounds")
                | Some c1 =>
                    if N.eqb c1 c_dot then
                      let cd' := (cd - 1)%Z in
                      if (cd' <? 0)%Z then PRet false
                      else check_target_loop f p lst (slash_index + 1) cd'
                    else check_target_loop f p lst (slash_index + 1) cd
                end
              else check_target_loop f p lst (slash_index + 1) (cd + 1)%Z
          end
      end
  end.
Definition check_target (p : str) : pcomp bool :=
  check_target_loop (S (length p)) p (get_next_list p c_slash) 0 0%Z.

(** A match: the mapping and [remain_request_index] (an [i32]). *)
Definition fmatch := option (mv * Z).

(** [apply_folder_mapping]  (src/map.rs:404-414) *)
Definition apply_folder_mapping (m : fmatch) (node : ptn) (last : nat) : fmatch :=
  match t_folder node with
  | Some v => Some (v, (- Z.of_nat last - 1)%Z)
  | None => m
  end.

(** [apply_wildcard_mappings]  (src/map.rs:416-433) *)
Fixpoint apply_wildcards (m : fmatch) (wild : list (str * mv)) (remaining : str) (last : nat) : fmatch :=
  match wild with
  | [] => m
  | (key, target) :: r =>
      let m' :=
        if starts_with remaining key then
          let index := Z.of_nat (last + blen key) in
          match m with
          | None => Some (target, index)
          | Some (_, i) => if (i <? index)%Z then Some (target, index) else m
          end
        else m in
      apply_wildcards m' r remaining last
  end.
Definition apply_wildcard_mappings (m : fmatch) (node : ptn) (remaining : str) (last : nat) : fmatch :=
  match t_wildcards node with
  | Some w => apply_wildcards m w remaining last
  | None => m
  end.

Definition is_none {A} (o : option A) : bool := match o with None => true | Some _ => false end.

(** The loop and tail of [find_match]  (src/map.rs:449-497) *)
Fixpoint find_match_loop (fuel : nat) (request : str) (lst : list (option nat)) (node : ptn)
    (last : nat) (m : fmatch) : pcomp fmatch :=
  match fuel with
  | 0 => PFuel
  | S f =>
      match next_slash lst last with
      | Some slash_index =>
          let m1 := apply_folder_mapping m node last in
          if is_none (t_wildcards node) && is_none (t_children node) then PRet m1
          else
            let folder := char_slice request last slash_index in
            let m2 := apply_wildcard_mappings m1 node folder last in
            match t_children node with
            | None => PRet m2
            | Some ch =>
                match imap_get ch folder with
                | Some node' => find_match_loop f request lst node' (slash_index + 1) m2
                | None => PRet m2
                end
            end
      | None =>
          let remaining := skipn last request in
          match imap_get (t_files node) remaining with
          | Some v => PRet (Some (v, (Z.of_nat (blen remaining) + 1)%Z))
          | None =>
              PRet (apply_wildcard_mappings (apply_folder_mapping m node last) node remaining last)
          end
      end
  end.

(** [find_match]  (src/map.rs:435-499) *)
Definition find_match (root : ptn) (request : str) : pcomp fmatch :=
  match request with
  | [] => PRet (match imap_get (t_files root) [] with Some v => Some (v, 1%Z) | None => None end)
  | _ =>
      if is_none (t_children root) && is_none (t_folder root) && is_none (t_wildcards root) then
        PRet (match imap_get (t_files root) request with
              | Some v => Some (v, (Z.of_nat (length request) + 1)%Z)
              | None => None
              end)
      else find_match_loop (S (length request)) request (get_next_list request c_slash) root 0 None
  end.

Definition set_children (n : ptn) c := mkPtn c (t_folder n) (t_wildcards n) (t_files n).
Definition set_folder (n : ptn) v := mkPtn (t_children n) v (t_wildcards n) (t_files n).
Definition set_wildcards (n : ptn) w := mkPtn (t_children n) (t_folder n) w (t_files n).
Definition set_files (n : ptn) f := mkPtn (t_children n) (t_folder n) (t_wildcards n) f.

(** The tail of [walk], at the node reached  (src/map.rs:525-545) *)
Definition walk_leaf (p : str) (last : nat) (node : ptn) (target : mv) : ptn :=
  if Nat.leb (length p) last then set_folder node (Some target)
  else
    let file := skipn last p in
    if ends_with_char file c_star then
      let file := removelast file in
      match t_wildcards node with
      | Some w => set_wildcards node (Some (imap_insert w file target))
      | None => set_wildcards node (Some [(file, target)])
      end
    else set_files node (imap_insert (t_files node) file target).

(** The loop of [walk]  (src/map.rs:510-523).  The [&mut] cursor becomes a recursive
    function returning the updated node. *)
Fixpoint walk_loop (fuel : nat) (p : str) (lst : list (option nat)) (last : nat) (node : ptn)
    (target : mv) : pcomp ptn :=
  match fuel with
  | 0 => PFuel
  | S f =>
      match next_slash lst last with
      | Some slash_index =>
          let folder := char_slice p last slash_index in
          let ch := match t_children node with
                    | None => [(folder, ptn_default)]
                    | Some ch => match imap_get ch folder with
                                 | Some _ => ch
                                 | None => imap_insert ch folder ptn_default
                                 end
                    end in
          match imap_get ch folder with
          | None => PPanic (lit "called `Option::unwrap()` on a `None` value")
          | Some sub =>
              plet sub' := walk_loop f p lst (slash_index + 1) sub target in
              PRet (set_children node (Some (imap_insert ch folder sub')))
          end
      | None => PRet (walk_leaf p last node target)
      end
  end.

(** [walk]  (src/map.rs:502-546) *)
Definition walk (root : ptn) (p : str) (target : mv) : pcomp ptn :=
  match p with
  | [] => PRet (set_folder root (Some target))
  | _ => walk_loop (S (length p)) p (get_next_list p c_slash) 0 root target
  end.

(** ** trait [Field] *)

(** [Field::from_json]  (src/map.rs:108-137).  It never returns [Err]; null, booleans and
    numbers hit [unreachable!()], an array inside an array hits [panic!]. *)
Fixpoint from_json (j : json) : pcomp mv :=
  match j with
  | JStr s => PRet (MDirect s)
  | JArr l =>
      plet a := (fix arr (l : list json) : pcomp (list am) :=
                   match l with
                   | [] => PRet []
                   | x :: r =>
                       plet v := from_json x in
                       match v with
                       | MDirect s => plet t := arr r in PRet (ADirect s :: t)
                       | MCond m => plet t := arr r in PRet (ACond m :: t)
                       | MArray _ => PPanic (lit "Array mapping is not allowed nested in exports field")
                       end
                   end) l in
      PRet (MArray a)
  | JObj l =>
      plet m := (fix obj (l : list (str * json)) (acc : cmap) : pcomp cmap :=
                   match l with
                   | [] => PRet acc
                   | (k, x) :: r => plet v := from_json x in obj r (imap_insert acc k v)
                   end) l [] in
      PRet (MCond m)
  | _ => PPanic (lit "internal error: entered unreachable code")
  end.

(** [assert_request]  (exports: src/map.rs:250-267, imports: src/map.rs:335-349) *)
Definition assert_request (fk : field) (request : str) : result str :=
  match fk with
  | FExports =>
      if negb (starts_with_char request c_dot) then
        Err (lit "Request should be relative path and start with '.', but got " ++ request)
      else if Nat.eqb (blen request) 1 then Ok []
      else if negb (starts_with request (lit "./")) then
        Err (lit "Request should be relative path and start with '.', but got " ++ request)
      else if ends_with_char request c_slash then Err (lit "Only requesting file allowed")
      else Ok (skipn 2 request)
  | FImports =>
      if negb (starts_with_char request c_hash) then
        Err (lit "Request should start with #, but got " ++ request)
      else if Nat.eqb (blen request) 1 then Err (lit "Request should have at least 2 characters")
      else if starts_with request (lit "#/") then
        Err (lit "Import field key should not start with #/, but got " ++ request)
      else if ends_with_char request c_slash then Err (lit "Only requesting file allowed")
      else Ok (skipn 1 request)
  end.

(** [assert_target]  (exports: src/map.rs:269-280, imports: src/map.rs:351-358) *)
Definition assert_target (fk : field) (exp : str) (expect_folder : bool) : result bool :=
  match fk with
  | FExports =>
      if Nat.ltb (blen exp) 2 || starts_with_char exp c_slash
         || (starts_with_char exp c_dot && negb (starts_with exp (lit "./"))) then
        Err (lit "Export should be relative path and start with ""./"", but got " ++ exp)
      else if negb (Bool.eqb (ends_with_char exp c_slash) expect_folder) then Ok (negb expect_folder)
      else Ok true
  | FImports =>
      if negb (Bool.eqb (ends_with_char exp c_slash) expect_folder) then Ok (negb expect_folder)
      else Ok true
  end.

(** [target_mapping]  (src/map.rs:139-161) *)
Definition target_mapping (fk : field) (remaining : option str) (subpath : bool) (target : str)
  : result str :=
  match assert_target fk target true with
  | Err e => Err e
  | Ok is_folder =>
      match remaining with
      | Some request =>
          match subpath, is_folder with
          | true, true => Ok (target ++ request)
          | true, false => Err (lit "Expected " ++ target ++ lit " is folder mapping")
          | false, true => Err (lit "Expected " ++ target ++ lit " is file mapping")
          | false, false =>
              let to := replace_char request c_dollar (lit "$$") in
              Ok (replace_char target c_star to)
          end
      | None => if negb is_folder then Ok target else Err (target ++ lit " had some wrong")
      end
  end.

(** [mapping]  (src/map.rs:163-213) *)
Fixpoint mapping (fuel : nat) (fk : field) (remaining : option str) (subpath : bool) (m : mv)
    (names : list str) : pcomp (result (list str)) :=
  match fuel with
  | 0 => PFuel
  | S f =>
      match m with
      | MDirect target =>
          match target_mapping fk remaining subpath target with
          | Ok s => PRet (Ok [s])
          | Err e => PRet (Err e)
          end
      | MArray targets =>
          (fix go (l : list am) (acc : list str) : pcomp (result (list str)) :=
             match l with
             | [] => PRet (Ok acc)
             | ADirect target :: r =>
                 match target_mapping fk remaining subpath target with
                 | Ok s => go r (acc ++ [s])
                 | Err e => PRet (Err e)
                 end
             | ACond cm :: r =>
                 plet x := conditional_mapping cm names in
                 match x with
                 | Err e => PRet (Err e)
                 | Ok None => go r acc
                 | Ok (Some v) =>
                     plet y := mapping f fk remaining subpath v names in
                     match y with
                     | Err e => PRet (Err e)
                     | Ok inner => go r (acc ++ inner)
                     end
                 end
             end) targets []
      | MCond cm =>
          plet x := conditional_mapping cm names in
          match x with
          | Err e => PRet (Err e)
          | Ok (Some v) => mapping f fk remaining subpath v names
          | Ok None => PRet (Ok [])
          end
      end
  end.

(** [field_process]  (src/map.rs:215-246) *)
Definition remaining_of (request : str) (index : Z) : option str :=
  if (index =? Z.of_nat (length request) + 1)%Z then None
  else if (index <? 0)%Z then Some (skipn (Z.to_nat (Z.abs index - 1)) request)
  else Some (skipn (Z.to_nat index) request).

Definition field_process (fk : field) (root : ptn) (target : str) (names : list str)
  : pcomp (result (list str)) :=
  match assert_request fk target with
  | Err e => PRet (Err e)
  | Ok request =>
      plet m := find_match root request in
      match m with
      | None => PRet (Ok [])
      | Some (v, index) =>
          mapping (S (mv_size v)) fk (remaining_of request index) (index <? 0)%Z v names
      end
  end.

(** The key loop of the exports tree  (src/map.rs:307-318) *)
Fixpoint exports_keys (m : cmap) (root : ptn) : pcomp (result ptn) :=
  match m with
  | [] => PRet (Ok root)
  | (key, value) :: r =>
      if Nat.eqb (blen key) 1 then exports_keys r (set_files root (imap_insert (t_files root) [] value))
      else if negb (starts_with key (lit "./")) then
        PRet (Err (lit "Export field key should be relative path and start with ""./"", but got " ++ key))
      else plet root' := walk root (skipn 2 key) value in exports_keys r root'
  end.

Definition is_direct_key (k : str) : bool := starts_with_char k c_dot || starts_with_char k c_slash.

(** [ExportsField::build_field_path_tree]  (src/map.rs:284-331) *)
Definition build_exports (j : json) : pcomp (result ptn) :=
  plet fv := from_json j in
  match fv with
  | MCond m =>
      let all_conditional := forallb (fun kv => negb (is_direct_key (fst kv))) m in
      let all_direct := forallb (fun kv => is_direct_key (fst kv)) m in
      if negb all_conditional && negb all_direct then
        PRet (Err (lit "Export field key can't mixed relative path and conditional object"))
      else if all_conditional then
        PRet (Ok (set_files ptn_default [([], MCond m)]))
      else exports_keys m ptn_default
  | v => PRet (Ok (set_files ptn_default [([], v)]))
  end.

(** The key loop of the imports tree  (src/map.rs:368-384) *)
Fixpoint imports_keys (m : cmap) (root : ptn) : pcomp (result ptn) :=
  match m with
  | [] => PRet (Ok root)
  | (key, value) :: r =>
      if negb (starts_with_char key c_hash) then
        PRet (Err (lit "Imports field key should start with #, but got " ++ key))
      else if Nat.eqb (blen key) 1 then
        PRet (Err (lit "Imports field key should have at least 2 characters, but got " ++ key))
      else if starts_with key (lit "#/") then
        PRet (Err (lit "Import field key should not start with #/, but got " ++ key))
      else plet root' := walk root (skipn 1 key) value in imports_keys r root'
  end.

(** [ImportsField::build_field_path_tree]  (src/map.rs:362-386) *)
Definition build_imports (j : json) : pcomp (result ptn) :=
  plet fv := from_json j in
  match fv with
  | MCond m => imports_keys m ptn_default
  | _ => PPanic (lit "internal error: entered unreachable code")
  end.

Definition build_field (fk : field) (j : json) : pcomp (result ptn) :=
  match fk with FExports => build_exports j | FImports => build_imports j end.
