(** * C56, C26: what loaded descriptions say.

    [run_moving] executes calls in any interleaving while the file system changes at any moment;
    [told seen js name pk] (SpecDesc.v): [pk] is what a file [name] in its directory said on one
    of the file systems [seen]. *)
From Coq Require Import String.
From Coq Require Import List Arith NArith Bool.
From Verif Require Import Str Path Json Types Parse Map Prog Desc Resolve Top Run Posix Demo SpecJson SpecRun LookupP SpecDesc DescP PropDescP.
Import ListNotations.

(** Every description in the tables, at any moment of any execution ... *)
Theorem C56_tables : forall seen js, (forall s j, js s = Some j -> wf_json j) -> forall nm calls sched seeds,
  Forall (call_reads js nm) calls -> Forall (fun x => seen (fst x)) sched -> forall c k pk,
  s_pkg (snd (run_moving sched (empty_state seeds) (map call_prog calls))) c k = Some (Some pk) -> told seen js (nm c) pk.
Proof. exact fin_56_tables. Qed.
Print Assumptions C56_tables.
(** ... every one that a lookup gives afterwards ... *)
Theorem C56_loaded : forall seen js, (forall s j, js s = Some j -> wf_json j) -> forall nm calls sched seeds,
  Forall (call_reads js nm) calls -> Forall (fun x => seen (fst x)) sched -> forall fs R f p pk st', seen fs -> reads_with js nm R ->
  run fs (load_pkg_file R f p) (snd (run_moving sched (empty_state seeds) (map call_prog calls))) = (Done (Ok (Some pk)), st') ->
  told seen js (nm (rv_cache R)) pk.
Proof. exact fin_56_loaded. Qed.
Print Assumptions C56_loaded.
(** ... and every answer of [load_side_effects] is what the named file said. *)
Theorem C56_side_effects : forall seen js, (forall s j, js s = Some j -> wf_json j) -> forall nm calls sched seeds,
  Forall (call_reads js nm) calls -> Forall (fun x => seen (fst x)) sched -> forall fs R f p q se st', seen fs -> reads_with js nm R ->
  run fs (load_side_effects R f p) (snd (run_moving sched (empty_state seeds) (map call_prog calls))) = (Done (Ok (Some (q, se))), st') ->
  exists fs' s j, seen fs' /\ f_read fs' q = Some s /\ js s = Some j /\ says_side j se.
Proof. exact fin_56_side. Qed.
Print Assumptions C56_side_effects.
Example C56_ex : ((forall s j, js_of T56 s = Some j -> wf_json j) /\ Forall (call_reads (js_of T56) (fun _ => lit "package.json")) calls56 /\
  Forall (fun x => seen56 (fst x)) sched56 /\ reads_with (js_of T56) (fun _ => lit "package.json") R56) /\
  out wA st0 (call_prog (CSide R56 10 (lit "/r"))) = Done (ASide (Ok (Some (lit "/r/package.json", None)))) /\
  s_pkg st56 0 (components (lit "/r")) = Some (Some pk56) /\
  fst (run wB (load_pkg_file R56 10 (lit "/r/no/such")) st56) = Done (Ok (Some pk56)) /\
  fst (run wB (load_side_effects R56 10 (lit "/r")) st56) = Done (Ok (Some (lit "/r/package.json", Some (SEArray [lit "*.css"])))).
Proof. exact ex56. Qed.

(** C26, from the browser object of the description: if one key only concerns the request, the
    request becomes the end of the chain that starts at its entry, whatever happened before. *)
Theorem C26_browser_object : forall seen js, (forall s j, js s = Some j -> wf_json j) -> forall nm calls sched seeds,
  Forall (call_reads js nm) calls -> Forall (fun x => seen (fst x)) sched ->
  let st := snd (run_moving sched (empty_state seeds) (map call_prog calls)) in
  forall fs R f0 i pk st1 k v e, seen fs -> reads_with js nm R -> no_remap R (i_path i) (r_target (i_req i)) ->
  r_kind (i_req i) = get_target_kind (r_target (i_req i)) -> starts_with_char (r_target (i_req i)) c_hash = false ->
  run fs (load_pkg_file R f0 (match r_kind (i_req i) with Normal => join (join (i_path i) MODULE) (r_target (i_req i)) | _ => get_path i end)) st = (Done (Ok (Some pk)), st1) ->
  o_browser (rv_opts R) = true ->
  browser_entry (p_raw pk) k v -> browser_key (rv_opts R) (p_dir pk) i k ->
  (forall k' v', browser_entry (p_raw pk) k' v' -> browser_key (rv_opts R) (p_dir pk) i k' -> k' = k) ->
  leads (p_raw pk) v e ->
  exists n, forall f, n <= f -> run fs (resolve_ R (load_pkg_file R f0) (S f) i) st =
    match e with
    | AIgnored => (Done (Success RIgnored), st1)
    | ATarget t => let (r, st') := run fs (final_step R (load_pkg_file R f0) (S f) (mkInfo (p_dir pk) (req_with_target (i_req i) t))) st1 in (settled i r, st')
    end.
Proof. exact fin_26_object. Qed.
Print Assumptions C26_browser_object.
Example C26_object_ex : (exists st1, run wB (load_pkg_file R56 40 (get_path i56)) st56 = (Done (Ok (Some pk56)), st1)) /\
  browser_entry (p_raw pk56) (lit "./a") (ATarget (lit "./b")) /\ browser_key (rv_opts R56) (p_dir pk56) i56 (lit "./a") /\
  (forall k v, browser_entry (p_raw pk56) k v -> browser_key (rv_opts R56) (p_dir pk56) i56 k -> k = lit "./a") /\
  leads (p_raw pk56) (ATarget (lit "./b")) (ATarget (lit "./c.js")) /\
  out wB st56 (resolve R56 40 (lit "/r") (lit "./a?q")) = found "/r/c.js" "?q" "" /\
  out wB st56 (resolve R56 40 (lit "/r") (lit "./x")) = Done (Ok RIgnored).
Proof. exact ex26. Qed.
