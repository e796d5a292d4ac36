(** * src/plugin/*.rs, src/resolve.rs, src/lib.rs, src/normalize.rs

    The functions take the description loader [load] ([Resolver::load_pkg_file]) as an
    argument; [Top.v] instantiates it. *)
From Coq Require Import String.
From Coq Require Import List Arith NArith Bool.
From Verif Require Import Str Path Json Types Parse Map Prog.
Import ListNotations.
Open Scope list_scope.

Definition not_exported (target : str) : str := lit "Package path " ++ target ++ lit " is not exported".

(** ** src/plugin/extensions.rs:18-30; [p] is the plugin's path. *)
Fixpoint extensions_loop (p : path) (i : info) (exts : list str) : prog stats :=
  match exts with
  | [] => Ret (Resolving i)
  | ext :: r =>
      let q := append_ext p ext in
      b <- act (OIsFile q) ;;
      if b then Ret (Success (RInfo (with_target (with_path i q) [])))
      else extensions_loop p i r
  end.
Definition extensions_apply (R : resolver) (p : path) (i : info) : prog stats :=
  extensions_loop p i (o_extensions (rv_opts R)).

Definition enforce (R : resolver) : bool :=
  match o_enforce (rv_opts R) with Some b => b | None => false end.

(** ** [resolve_as_file]  (src/resolve.rs:18-25) *)
Definition resolve_as_file (R : resolver) (i : info) : prog stats :=
  let p := get_path i in
  if negb (enforce R) then
    b <- act (OIsFile p) ;;
    if b then Ret (Success (RInfo (with_target (with_path i p) [])))
    else extensions_apply R p i
  else extensions_apply R p i.

(** ** src/plugin/alias_field.rs *)

(** [deal_with_alias_fields_recursive]  (lines 17-32) *)
Fixpoint chase (fuel : nat) (t : alias_map) (af : list (str * alias_map)) : pcomp alias_map :=
  match fuel with
  | 0 => PFuel
  | S f =>
      match t with
      | ATarget s => match imap_get af s with
                     | Some next => chase f next af
                     | None => PRet (ATarget s)
                     end
      | AIgnored => PRet AIgnored
      end
  end.

(** [request_path_is_equal_alias_key_path]  (lines 41-52) *)
Definition alias_key_path_matches (alias_path : path) (i : info) (exts : list str) : bool :=
  let rp := get_path i in
  path_eqb alias_path rp || existsb (fun ext => path_eqb alias_path (append_ext rp ext)) exts.

Definition should_deal_alias (R : resolver) (pk : pkg) (i : info) (alias_key : str) : bool :=
  match r_kind (i_req i) with
  | Normal => str_eqb (r_target (i_req i)) alias_key
  | _ => alias_key_path_matches (join (p_dir pk) alias_key) i (o_extensions (rv_opts R))
  end.

Section AliasField.
Variable R : resolver.
Fixpoint alias_field_loop (fuel : nat) (pk : pkg) (i : info) (l : list (str * alias_map))
  : prog stats :=
  match l with
  | [] => Ret (Resolving i)
  | (k, v) :: r =>
      if should_deal_alias R pk i k then
        x <- lift (chase fuel v (p_alias pk)) ;;
        match x with
        | ATarget converted => Ret (Resolving (with_target (with_path i (p_dir pk)) converted))
        | AIgnored => Ret (Success RIgnored)
        end
      else alias_field_loop fuel pk i r
  end.
End AliasField.

(** [AliasFieldPlugin::apply]  (lines 56-87) *)
Definition alias_field_apply (R : resolver) (fuel : nat) (opk : option pkg) (i : info) : prog stats :=
  if negb (o_browser (rv_opts R)) then Ret (Resolving i)
  else match opk with
       | Some pk => alias_field_loop R fuel pk i (p_alias pk)
       | None => Ret (Resolving i)
       end.

(** ** src/plugin/exports_field.rs *)

(** [is_in_module]  (lines 20-22) *)
Definition is_in_module (pk : pkg) : bool := contains (p_dir pk) MODULE.
(** [is_resolve_self]  (lines 24-30) *)
Definition is_resolve_self (pk : pkg) (i : info) : bool :=
  match p_name pk with Some n => starts_with (r_target (i_req i)) n | None => false end.

Definition opt_str_eqb (a : option str) (b : str) : bool :=
  match a with Some s => str_eqb s b | None => false end.

(** The subpath derived from the target  (lines 49-68); [None] is the [raise_tag] error. *)
Definition exports_subpath (pk : pkg) (i : info) : prog (option str) :=
  let target := r_target (i_req i) in
  chars <- (if starts_with_char target c_at then
              match find_char target c_slash with
              | Some (_, after) => Ret after
              | None => Panic (lit "called `Option::unwrap()` on a `None` value")
              end
            else Ret target) ;;
  match find_char chars c_slash with
  | Some (_, after) => Ret (Some (c_dot :: c_slash :: after))
  | None =>
      e <- act (OExists (join (i_path i) target)) ;;
      if e || opt_str_eqb (p_name pk) target then Ret (Some s_dot) else Ret None
  end.

(** query and fragment are appended  (lines 69-78) *)
Definition exports_remaining (i : info) (target : str) : str :=
  let q := r_query (i_req i) in
  let f := r_fragment (i_req i) in
  if negb (str_eqb q []) || negb (str_eqb f []) then
    (if str_eqb target s_dot then lit "./" else target) ++ q ++ f
  else target.

(** the candidate loop  (lines 92-100) *)
Fixpoint exports_loop (pk : pkg) (i : info) (l : list str) : prog stats :=
  match l with
  | [] => Ret (SError (not_exported (r_target (i_req i))) i)
  | item :: r =>
      let i' := mkInfo (p_dir pk) (parse item) in
      b <- act (OIsFile (get_path i')) ;;
      if b then
        ok <- lift (check_target (r_target (i_req i'))) ;;
        if ok then Ret (Resolving i') else exports_loop pk i r
      else exports_loop pk i r
  end.

(** [ExportsFieldPlugin::apply]  (lines 34-105) *)
Definition exports_apply (R : resolver) (opk : option pkg) (i : info) : prog stats :=
  match opk with
  | None => Ret (Resolving i)
  | Some pk =>
      if negb (kind_eqb (r_kind (i_req i)) Normal) then Ret (Resolving i)
      else if negb (is_in_module pk) && negb (is_resolve_self pk i) then Ret (Resolving i)
      else match p_exports pk with
           | None => Ret (Resolving i)
           | Some root =>
               sp <- exports_subpath pk i ;;
               match sp with
               | None => Ret (SError TAG i)
               | Some t =>
                   l <- lift (field_process FExports root (exports_remaining i t)
                                (o_conditions (rv_opts R))) ;;
                   match l with
                   | Err e => Ret (SError e i)
                   | Ok l => exports_loop pk i l
                   end
               end
           end
  end.

Section WithLoader.
Variable R : resolver.
Variable load : path -> prog (result (option pkg)).

(** ** src/plugin/imports_field.rs *)

(** [ImportsFieldPlugin::check_target]  (lines 20-26) *)
Definition imports_check (i : info) (target : str) : prog stats :=
  b <- act (OIsFile (get_path i)) ;;
  if b then
    ok <- lift (check_target (r_target (i_req i))) ;;
    if ok then Ret (Resolving i) else Ret (SError (not_exported target) i)
  else Ret (SError (not_exported target) i).

(** [ImportsFieldPlugin::apply]  (lines 30-88) *)
Fixpoint imports_apply (fuel : nat) (opk : option pkg) (i : info) : prog stats :=
  match fuel with
  | 0 => OutOfFuel
  | S f =>
      match opk with
      | None => Ret (Resolving i)
      | Some pk =>
          let target := r_target (i_req i) in
          if negb (starts_with_char target c_hash) then Ret (Resolving i)
          else match p_imports pk with
               | None => Ret (Resolving i)
               | Some root =>
                   l <- lift (field_process FImports root target (o_conditions (rv_opts R))) ;;
                   match l with
                   | Err e => Ret (SError e i)
                   | Ok [] => Ret (SError (not_exported target) i)
                   | Ok (item :: _) =>
                       let rq := parse item in
                       match r_kind rq with
                       | Normal =>
                           let i' := mkInfo (join (p_dir pk) MODULE) rq in
                           lp <- load (get_path i') ;;
                           match lp with
                           | Err e => Ret (SError e i')
                           | Ok opk' =>
                               let cont :=
                                 and_then (and_then (and_then
                                   (exports_apply R opk' i')
                                   (imports_apply f opk'))
                                   (alias_field_apply R fuel opk'))
                                   (fun i2 => imports_check i2 target) in
                               match opk' with
                               | Some pk' => if negb (contains (p_dir pk') MODULE)
                                             then Ret (Resolving i') else cont
                               | None => cont
                               end
                           end
                       | Internal => imports_apply f opk (mkInfo (p_dir pk) rq)
                       | _ => imports_check (mkInfo (p_dir pk) rq) target
                       end
                   end
               end
      end
  end.

(** ** src/plugin/main_field.rs:26-54.  [rad] is [resolve_as_dir]; [mi] is [main_field_info],
    [i] the original info. *)
Fixpoint main_field_loop (rad : info -> prog stats) (fuel : nat) (pk : pkg) (i : info)
    (fields : list str) (mi : info) : prog stats :=
  match fields with
  | [] => Ret (Resolving i)
  | fld :: r =>
      match opt_str (jget (p_raw pk) fld) with
      | None => main_field_loop rad fuel pk i r mi
      | Some main =>
          if str_eqb main s_dot || str_eqb main (lit "./") then Ret (Resolving i)
          else
            let mi' := if starts_with main (lit "./") then with_target mi main
                       else with_target mi (lit "./" ++ main) in
            s <- and_then (and_then (alias_field_apply R fuel (Some pk) mi') (resolve_as_file R)) rad ;;
            if is_success s then Ret s
            else mi'' <- extract_info s ;; main_field_loop rad fuel pk i r mi''
      end
  end.

(** [MainFieldPlugin::apply]  (src/plugin/main_field.rs:18-57) *)
Definition main_field_apply (rad : info -> prog stats) (fuel : nat) (opk : option pkg) (i : info)
  : prog stats :=
  match opk with
  | None => Ret (Resolving i)
  | Some pk =>
      if negb (path_eqb (i_path i) (p_dir pk)) then Ret (Resolving i)
      else main_field_loop rad fuel pk i (o_main_fields (rv_opts R)) (mkInfo (i_path i) (i_req i))
  end.

(** ** [MainFilePlugin::apply]  (src/plugin/main_file.rs:20-36) *)
Fixpoint main_file_loop (fuel : nat) (opk : option pkg) (i : info) (files : list str) (mi : info)
  : prog stats :=
  match files with
  | [] => Ret (Resolving i)
  | f :: r =>
      let mi' := with_target mi (lit "./" ++ f) in
      s <- and_then (and_then (and_then (exports_apply R opk mi')
             (imports_apply fuel opk)) (alias_field_apply R fuel opk)) (resolve_as_file R) ;;
      if is_success s then Ret s
      else mi'' <- extract_info s ;; main_file_loop fuel opk i r mi''
  end.
Definition main_file_apply (fuel : nat) (opk : option pkg) (i : info) : prog stats :=
  main_file_loop fuel opk i (o_main_files (rv_opts R)) (mkInfo (i_path i) (i_req i)).

(** ** [resolve_as_dir]  (src/resolve.rs:28-42) *)
Fixpoint resolve_as_dir (fuel : nat) (i : info) : prog stats :=
  match fuel with
  | 0 => OutOfFuel
  | S f =>
      let dir := get_path i in
      d <- act (OIsDir dir) ;;
      if negb d then Ret (SError TAG i)
      else
        lp <- load dir ;;
        match lp with
        | Err e => Ret (SError e i)
        | Ok opk =>
            let i' := with_target (with_path i dir) [] in
            and_then (main_field_apply (resolve_as_dir f) fuel opk i')
                     (main_file_apply fuel opk)
        end
  end.

(** Character indices of '/' in the target  (src/resolve.rs:52-57) *)
Fixpoint slash_indices (i : nat) (s : str) : list nat :=
  match s with
  | [] => []
  | c :: r => if N.eqb c c_slash then i :: slash_indices (S i) r else slash_indices (S i) r
  end.

(** [module_name]  (src/resolve.rs:51-64): a character index is used as a byte offset;
    [None] is the slicing panic. *)
Definition module_name (target : str) : option str :=
  let l := slash_indices 0 target in
  match (if starts_with_char target c_at then nth_error l 1 else nth_error l 0) with
  | None => Some target
  | Some index => slice_to target index
  end.

(** ** One level of [resolve_as_modules]: the value of [stats] before the step to the parent
    directory  (src/resolve.rs:46-112). [inl e] is the early [return]. *)
Definition modules_level (fuel : nat) (i : info) : prog (stats + stats) :=
  let module_root := join (i_path i) MODULE in
  d <- act (OIsDir module_root) ;;
  if negb d then Ret (inr (Resolving i))
  else
    let target := r_target (i_req i) in
    match module_name target with
    | None => Panic (lit "byte index is not a char boundary")
    | Some mname =>
        let module_path := join module_root mname in
        let mi := mkInfo module_root (i_req i) in
        lp <- load (join module_root target) ;;
        match lp with
        | Err e => Ret (inl (SError e i))
        | Ok opk =>
            let self := match opk with Some pk => is_resolve_self pk mi | None => false end in
            md <- act (OIsDir module_path) ;;
            if negb md && negb self then
              s <- resolve_as_file R mi ;;
              if is_success s then Ret (inr s) else Ret (inr (Resolving i))
            else
              s <- and_then (and_then (and_then (and_then
                     (exports_apply R opk mi)
                     (imports_apply fuel opk))
                     (fun i1 =>
                        let i2 := match r_kind (i_req i1) with
                                  | Normal => with_target i1 (lit "./" ++ r_target (i_req i1))
                                  | _ => i1
                                  end in
                        alias_field_apply R fuel opk i2))
                     (resolve_as_file R))
                     (resolve_as_dir fuel) ;;
              match s with
              | SError e ei => if str_eqb e TAG then Ret (inr (Resolving i)) else Ret (inr (SError e ei))
              | _ => Ret (inr s)
              end
        end
    end.

(** [resolve_as_modules]  (src/resolve.rs:45-126) *)
Fixpoint resolve_as_modules (fuel : nat) (i : info) : prog stats :=
  match fuel with
  | 0 => OutOfFuel
  | S f =>
      let original_dir := i_path i in
      x <- modules_level fuel i ;;
      match x with
      | inl s => Ret s
      | inr s =>
          s' <- and_then (Ret s) (fun i1 =>
                  match parent original_dir with
                  | Some q => resolve_as_modules f (with_path i1 q)
                  | None => Ret (Resolving i1)
                  end) ;;
          match s' with
          | Resolving i1 => Ret (SError TAG i1)
          | _ => Ret s'
          end
      end
  end.

(** ** src/plugin/alias.rs:10-40.  [rec] is [Resolver::_resolve]. *)
Fixpoint alias_loop (rec : info -> prog stats) (i : info) (l : list (str * alias_map)) : prog stats :=
  match l with
  | [] => Ret (Resolving i)
  | (from, to) :: r =>
      let inner := r_target (i_req i) in
      if starts_with inner from then
        match to with
        | ATarget t =>
            if str_eqb inner t || starts_with inner t then alias_loop rec i r
            else
              let nt := replacen1 inner from t in
              s <- rec (mkInfo (i_path i) (req_with_target (i_req i) nt)) ;;
              if is_success s then Ret s else alias_loop rec i r
        | AIgnored => Ret (Success RIgnored)
        end
      else alias_loop rec i r
  end.
Definition alias_apply (rec : info -> prog stats) (i : info) : prog stats :=
  if contains (i_path i) MODULE then Ret (Resolving i)
  else alias_loop rec i (o_alias (rv_opts R)).

(** ** src/plugin/prefer_relative.rs:8-25 *)
Definition prefer_relative_apply (rec : info -> prog stats) (i : info) : prog stats :=
  let t := r_target (i_req i) in
  if starts_with t (lit "../") || starts_with t (lit "./") then Ret (Resolving i)
  else if o_prefer_relative (rv_opts R) then
    s <- rec (mkInfo (i_path i) (req_with_target (i_req i) (lit "./" ++ t))) ;;
    if is_success s then Ret s else Ret (Resolving i)
  else Ret (Resolving i).

(** The description-driven step of [_resolve]  (src/lib.rs:219-232) *)
Definition pkg_step (fuel : nat) (i : info) : prog stats :=
  let request := match r_kind (i_req i) with
                 | Normal => join (join (i_path i) MODULE) (r_target (i_req i))
                 | _ => get_path i
                 end in
  lp <- load request ;;
  match lp with
  | Err e => Ret (SError e i)
  | Ok opk => and_then (imports_apply fuel opk i) (alias_field_apply R fuel opk)
  end.

(** The final step of [_resolve]  (src/lib.rs:233-243) *)
Definition final_step (fuel : nat) (i : info) : prog stats :=
  match r_kind (i_req i) with
  | AbsolutePosix | AbsoluteWin | Relative =>
      and_then (resolve_as_file R i) (resolve_as_dir fuel)
  | _ => resolve_as_modules fuel i
  end.

(** ** [_resolve]  (src/lib.rs:214-257) *)
Fixpoint resolve_ (fuel : nat) (i : info) : prog stats :=
  match fuel with
  | 0 => OutOfFuel
  | S f =>
      s <- and_then (and_then (and_then
             (alias_apply (resolve_ f) i)
             (prefer_relative_apply (resolve_ f)))
             (pkg_step fuel))
             (final_step fuel) ;;
      match s with
      | Success r => Ret (Success r)
      | SError e ei => Ret (SError (if str_eqb e TAG then resolve_failed_message i else e) ei)
      | Resolving _ => Panic p_unreachable
      end
  end.

(** ** src/tsconfig.rs *)

(** [merge]  (src/tsconfig.rs:79-92).  [a.entry(k).or_insert(Null)] then merge in place. *)
Fixpoint merge (a b : json) {struct b} : json :=
  match b with
  | JObj lb =>
      match a with
      | JObj la =>
          JObj ((fix go (lb : list (str * json)) (la : list (str * json)) : list (str * json) :=
                   match lb with
                   | [] => la
                   | (k, v) :: r =>
                       let cur := match imap_get la k with Some x => x | None => JNull end in
                       go r (imap_insert la k (merge cur v))
                   end) lb la)
      | JNull => b
      | _ => a
      end
  | _ => match a with JNull => b | _ => a end
  end.

(** [parse_file_to_value]  (src/tsconfig.rs:53-77).  [fs::read_to_string] is not cached here. *)
Fixpoint parse_file_to_value (fuel : nat) (location : path) : prog (result json) :=
  match fuel with
  | 0 => OutOfFuel
  | S f =>
      c <- act (ORead location) ;;
      match c with
      | None => Ret (Err (lit "Open " ++ location ++ lit " failed"))
      | Some s =>
          match rv_jsonc R s with
          | JCErr e => Ret (Err (lit "Parse " ++ location ++ lit " failed. Error: " ++ e))
          | JCNone => Panic (lit "Transfer " ++ location ++ lit " to serde value failed")
          | JCVal j =>
              match jget j (lit "extends") with
              | Some (JStr ext) =>
                  match parent location with
                  | None => Panic (lit "called `Option::unwrap()` on a `None` value")
                  | Some dir =>
                      st <- resolve_ fuel (mkInfo dir (parse ext)) ;;
                      match st with
                      | Success (RInfo i) =>
                          try_ (parse_file_to_value f (get_path i)) (fun base =>
                            Ret (Ok (merge j base)))
                      | Success RIgnored =>
                          Ret (Err (ext ++ lit " had been ignored in " ++ location))
                      | _ => Ret (Ok j)
                      end
                  end
              | _ => Ret (Ok j)
              end
          end
      end
  end.

Definition p_unwrap : str := lit "called `Option::unwrap()` on a `None` value".

(** the string list of one [paths] entry  (src/tsconfig.rs:33-38) *)
Fixpoint all_strings (l : list json) : pcomp (list str) :=
  match l with
  | [] => PRet []
  | v :: r => match as_str v with
              | Some s => plet t := all_strings r in PRet (s :: t)
              | None => PPanic p_unwrap
              end
  end.
(** the [paths] map  (src/tsconfig.rs:28-42) *)
Fixpoint paths_entries (l : list (str * json)) (acc : imap (list str)) : pcomp (imap (list str)) :=
  match l with
  | [] => PRet acc
  | (k, v) :: r =>
      match as_array v with
      | None => PPanic p_unwrap
      | Some a => plet t := all_strings a in paths_entries r (imap_insert acc k t)
      end
  end.

(** [TsConfigInfo]  (src/tsconfig_path.rs:10-14) *)
Record tsinfo := mkTs { ts_paths : option (imap (list str)); ts_base : option str }.

(** [TsConfig::parse_file] + [parse_tsconfig]  (src/tsconfig.rs:21-50,
    src/tsconfig_path.rs:41-49).  The unused [extends] text is dropped. *)
Definition ts_of_json (j : json) : pcomp tsinfo :=
  match jget j (lit "compilerOptions") with
  | None => PRet (mkTs None None)
  | Some opts =>
      plet base := match jget opts (lit "baseUrl") with
                   | None => PRet None
                   | Some v => match as_str v with Some s => PRet (Some s) | None => PPanic p_unwrap end
                   end in
      plet paths := match jget opts (lit "paths") with
                    | None => PRet None
                    | Some v => match as_object v with
                                | None => PPanic p_unwrap
                                | Some l => plet m := paths_entries l [] in PRet (Some m)
                                end
                    end in
      PRet (mkTs paths base)
  end.

(** ** src/tsconfig_path.rs *)

(** [match_star]  (src/tsconfig_path.rs:51-70).  Outer [None] = slicing panic. *)
Definition match_star (pattern search : str) : pcomp (option str) :=
  if Nat.ltb (blen search) (blen pattern) then PRet None
  else if str_eqb pattern [c_star] then PRet (Some search)
  else match find_char pattern c_star with
       | None => PRet None
       | Some (part1, part2) =>
           let star_index := blen part1 in
           let bad := PPanic (lit "byte index is not a char boundary") in
           match slice_to search star_index with
           | None => bad
           | Some s1 =>
               if negb (str_eqb s1 part1) then PRet None
               else match slice_from search (blen search - blen part2) with
                    | None => bad
                    | Some s2 =>
                        if negb (str_eqb s2 part2) then PRet None
                        else
                          let len := blen search - blen part2 - blen part1 in
                          match slice search star_index (star_index + len) with
                          | None => bad
                          | Some s => PRet (Some s)
                          end
                    end
           end
       end.

(** [create_match_list], [get_absolute_mapping_entries]  (src/tsconfig_path.rs:24-39,72-88);
    the [HashMap] is iterated in the order drawn. *)
Definition create_match_list (location : path) (t : tsinfo) : prog (list (str * list path)) :=
  match parent location with
  | None => Panic p_unwrap
  | Some dir =>
      match ts_base t with
      | None => Ret []
      | Some base =>
          let abs := join dir base in
          match ts_paths t with
          | None => Ret []
          | Some m =>
              seed <- act OOrder ;;
              Ret (map (fun kv => (fst kv, map (join abs) (snd kv))) (permute seed m))
          end
      end
  end.

(** the inner loop  (src/tsconfig_path.rs:112-123); [None] = continue with the next entry *)
Fixpoint ts_paths_loop (fuel : nat) (star : str) (l : list path) : prog (option stats) :=
  match l with
  | [] => Ret None
  | pat :: r =>
      let p := replace_char pat c_star star in
      s <- resolve_ fuel (mkInfo p empty_request) ;;
      if is_success s then Ret (Some s) else ts_paths_loop fuel star r
  end.

(** the outer loop  (src/tsconfig_path.rs:102-125) *)
Fixpoint ts_entries_loop (fuel : nat) (i : info) (l : list (str * list path)) : prog stats :=
  match l with
  | [] => resolve_ fuel i
  | (pattern, paths) :: r =>
      star <- (if str_eqb pattern (r_target (i_req i)) then Ret (Some [])
               else lift (match_star pattern (r_target (i_req i)))) ;;
      match star with
      | None => ts_entries_loop fuel i r
      | Some star =>
          x <- ts_paths_loop fuel star paths ;;
          match x with
          | Some s => Ret s
          | None => ts_entries_loop fuel i r
          end
      end
  end.

(** [_resolve_with_tsconfig]  (src/tsconfig_path.rs:90-126) *)
Definition resolve_with_tsconfig (fuel : nat) (i : info) (location : path) : prog stats :=
  j <- parse_file_to_value fuel location ;;
  match j with
  | Err e => Ret (SError e i)
  | Ok j =>
      t <- lift (ts_of_json j) ;;
      l <- create_match_list location t ;;
      ts_entries_loop fuel i l
  end.

(** ** src/normalize.rs *)

(** [normalize_path]  (src/normalize.rs:40-48; [adjust] is the identity on Unix) *)
Definition normalize_path (p : path) : prog (result path) :=
  if o_symlinks (rv_opts R) then
    c <- act (OCanon p) ;;
    match c with
    | None => Ret (Err (lit "Path normalized failed"))
    | Some q => Ret (Ok q)
    end
  else Ret (Ok (normalize_path_without_link p)).

(** [normalize_result]  (src/normalize.rs:50-63) *)
Definition normalize_result (r : rresult) : prog (result rresult) :=
  match r with
  | RIgnored => Ret (Ok RIgnored)
  | RInfo i =>
      if rv_debug R && negb (str_eqb (r_target (i_req i)) []) then
        Panic (lit "assertion failed: info.request.target.is_empty()")
      else try_ (normalize_path (i_path i)) (fun p => Ret (Ok (RInfo (with_path i p))))
  end.

(** ** [Resolver::resolve]  (src/lib.rs:187-211) *)
Definition resolve_with (fuel : nat) (base : path) (req : str) : prog (result rresult) :=
  let i := mkInfo base (parse req) in
  s <- match o_tsconfig (rv_opts R) with
       | Some location => resolve_with_tsconfig fuel i location
       | None => resolve_ fuel i
       end ;;
  match s with
  | Success r => normalize_result r
  | SError e _ => Ret (Err e)
  | Resolving _ => Panic p_unreachable
  end.
End WithLoader.
