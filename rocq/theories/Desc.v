(** * src/fs.rs, src/utils.rs (find_up), src/description.rs *)
From Coq Require Import String.
From Coq Require Import List Arith NArith Bool.
From Verif Require Import Str Path Json Types Parse Map Prog.
Import ListNotations.
Open Scope list_scope.

Definition open_failed (p : path) : str := lit "Open " ++ p ++ lit " failed".

(** [get_last_modified_time_from_file]  (src/fs.rs:26-33) *)
Definition get_last_modified (p : path) : prog (result N) :=
  m <- act (OMtime p) ;;
  match m with
  | MErr => Ret (Err (open_failed p))
  | MNoTime => Ret (Err (lit "Get modified time of " ++ p ++ lit " failed"))
  | MTime t => Ret (Ok t)
  end.

(** [CacheFile::need_update]  (src/fs.rs:36-53) *)
Definition need_update (R : resolver) (p : path) : prog (result bool) :=
  isf <- act (OIsFile p) ;;
  if negb isf then Ret (Ok false)
  else
    c <- act (OFileGet (rv_id R) p) ;;
    match c with
    | None => Ret (Ok true)
    | Some (_, stored) =>
        try_ (get_last_modified p) (fun now =>
          (* [SystemTime::duration_since] fails when [stored] is later *)
          if N.ltb now stored then Ret (Err (lit "Compare SystemTime failed in " ++ p))
          else Ret (Ok (N.leb (rv_duration R) (now - stored))))
    end.

(** What [load_pkg_file] does while it holds the guard of a table entry
    (src/description.rs:180-193): the guard lives to the end of the [if let]. *)
Definition check_entry (R : resolver) (dir dfp : path) : prog (result bool) :=
  u <- need_update R dfp ;;
  (match u with
   | Ok true => if rv_debug R then act (ODbgDel (rv_id R) dfp) else Ret tt
   | _ => Ret tt
   end) ;;;
  act (OPkgDrop (rv_cache R) dir) ;;; Ret u.

(** [CacheFile::read_to_string]  (src/fs.rs:56-67) *)
Definition read_to_string (R : resolver) (p : path) : prog (result str) :=
  s <- act (ORead p) ;;
  match s with
  | None => Ret (Err (open_failed p))
  | Some s =>
      try_ (get_last_modified p) (fun t =>
        act (OFilePut (rv_id R) p s t) ;;; Ret (Ok s))
  end.

(** The [browser] object  (src/description.rs:57-68): [assert!(!b)] panics on [true]; values
    that are neither booleans nor strings are skipped. *)
Fixpoint browser_fields (l : list (str * json)) (acc : imap alias_map) : pcomp (imap alias_map) :=
  match l with
  | [] => PRet acc
  | (k, v) :: r =>
      match v with
      | JBool b => if b then PPanic (lit "assertion failed: !b")
                   else browser_fields r (imap_insert acc k AIgnored)
      | JStr s => browser_fields r (imap_insert acc k (ATarget s))
      | _ => browser_fields r acc
      end
  end.
Definition alias_fields_of (j : json) : pcomp (imap alias_map) :=
  match jget j (lit "browser") with
  | Some v => match as_object v with Some l => browser_fields l [] | None => PRet [] end
  | None => PRet []
  end.

(** [sideEffects]  (src/description.rs:105-131) *)
Definition side_err (fp : path) (v : json) : str :=
  lit "sideEffects in " ++ fp ++ lit " had unexpected value " ++ to_string v.
Fixpoint side_strings (fp : path) (l : list json) : result (list str) :=
  match l with
  | [] => Ok []
  | v :: r =>
      match as_str v with
      | Some s => match side_strings fp r with Ok t => Ok (s :: t) | Err e => Err e end
      | None => Err (side_err fp v)
      end
  end.
Definition side_effects_of (fp : path) (j : json) : result (option side_effects) :=
  match jget j (lit "sideEffects") with
  | None => Ok None
  | Some v =>
      match as_bool v with
      | Some b => Ok (Some (SEBool b))
      | None =>
          match as_array v with
          | Some l => match side_strings fp l with
                      | Ok t => Ok (Some (SEArray t))
                      | Err e => Err e
                      end
          | None => Err (side_err fp v)
          end
      end
  end.

(** exports part  (src/description.rs:70-83) *)
Definition load_exports (R : resolver) (j : json) : prog (result (option ptn)) :=
  match jget j (lit "exports") with
  | None => Ret (Ok None)
  | Some value =>
      let key := to_string value in
      c <- act (OExpGet (rv_cache R) key) ;;
      match c with
      | Some t => Ret (Ok (Some t))
      | None =>
          try_ (lift (build_exports value)) (fun t =>
            act (OExpPut (rv_cache R) key t) ;;; Ret (Ok (Some t)))
      end
  end.

(** imports part  (src/description.rs:85-98).  Line 93 stores the tree in
    [exports_content_to_tree]. *)
Definition load_imports (R : resolver) (j : json) : prog (result (option ptn)) :=
  match jget j (lit "imports") with
  | None => Ret (Ok None)
  | Some value =>
      let key := to_string value in
      c <- act (OImpGet (rv_cache R) key) ;;
      match c with
      | Some t => Ret (Ok (Some t))
      | None =>
          try_ (lift (build_imports value)) (fun t =>
            act (OExpPut (rv_cache R) key t) ;;; Ret (Ok (Some t)))
      end
  end.

(** debug-only double-read check  (src/description.rs:30-42) *)
Definition dbg_check (R : resolver) (fp : path) : prog unit :=
  if rv_debug R then
    b <- act (ODbgHas (rv_id R) fp) ;;
    if b then Panic (lit "Had try to parse same package.json, " ++ fp)
    else act (ODbgAdd (rv_id R) fp)
  else Ret tt.

(** [parse_description_file]  (src/description.rs:29-148) *)
Definition parse_description_file (R : resolver) (dir : path) (fp : path) : prog (result pkg) :=
  dbg_check R fp ;;;
  s <- read_to_string R fp ;;
  match s with
  | Err _ => Ret (Err (open_failed fp))
  | Ok s =>
      match rv_json R s with
      | None => Ret (Err (lit "Parse " ++ fp ++ lit " failed"))
      | Some j =>
          af <- lift (alias_fields_of j) ;;
          seed <- act OOrder ;;
          try_ (load_exports R j) (fun ex =>
          try_ (load_imports R j) (fun im =>
          let name := opt_str (jget j (lit "name")) in
          match side_effects_of fp j with
          | Err e => Ret (Err e)
          | Ok se =>
              let version := opt_str (jget j (lit "version")) in
              Ret (Ok (mkPkg dir name version (permute seed af) ex im se j))
          end))
      end
  end.

(** [find_up]  (src/utils.rs:20-29) *)
Fixpoint find_up (fuel : nat) (now_dir : path) (file_name : str) : prog (option path) :=
  match fuel with
  | 0 => OutOfFuel
  | S f =>
      isf <- act (OIsFile (join now_dir file_name)) ;;
      if isf then Ret (Some now_dir)
      else match parent now_dir with
           | Some q => find_up f q file_name
           | None => Ret None
           end
  end.

(** The [loop] that caches [None] for all ancestors  (src/description.rs:206-217).  When
    [path] is not a directory it spins on the same path. *)
Section Loader.
Variable R : resolver.
Fixpoint none_loop (fuel : nat) (p : path) : prog (result (option pkg)) :=
  match fuel with
  | 0 => OutOfFuel
  | S f =>
      d <- act (OIsDir p) ;;
      if d then
        act (OPkgPut (rv_cache R) p None) ;;;
        match parent p with
        | Some q => none_loop f q
        | None => Ret (Ok None)
        end
      else none_loop f p
  end.

(** parse and cache  (src/description.rs:221-229) *)
Definition parse_and_store (p : path) (dfp : path) : prog (result (option pkg)) :=
  try_ (parse_description_file R p dfp) (fun pk =>
    act (OPkgPut (rv_cache R) p (Some pk)) ;;; Ret (Ok (Some pk))).

(** [load_pkg_file]  (src/description.rs:165-230) *)
Fixpoint load_pkg_file (fuel : nat) (p : path) : prog (result (option pkg)) :=
  match fuel with
  | 0 => OutOfFuel
  | S f =>
      match o_desc (rv_opts R) with
      | None => Ret (Ok None)
      | Some name =>
          d <- act (OIsDir p) ;;
          if negb d then
            match parent p with
            | Some dir => load_pkg_file f dir
            | None => Ret (Err TAG)
            end
          else
            let dfp := join p name in
            c <- act (OPkgGet (rv_cache R) p) ;;
            match c with
            | Some v =>
                try_ (check_entry R p dfp) (fun u =>
                  if negb u then Ret (Ok v) else parse_and_store p dfp)
            | None =>
                isf <- act (OIsFile dfp) ;;
                if isf then parse_and_store p dfp
                else
                  t <- find_up f p name ;;
                  match t with
                  | Some dir => load_pkg_file f dir
                  | None => none_loop f p
                  end
            end
      end
  end.
End Loader.
