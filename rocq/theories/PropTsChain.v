(** * Where the baseUrl of a tsconfig chain counts from (C47)

    [ts_chain] gives the documents of a tsconfig file and of the files it extends, [merged] what they say together
    (SpecTsChain.v). *)
From Coq Require Import String.
From Coq Require Import List Arith NArith Bool.
From Verif Require Import Str Path Json Types Parse Map Prog Desc Resolve Top Run Posix Demo SpecRun WitnessP SpecTsChain PropTsChainP.
Import ListNotations.

(** Wanted (false, see C47_inherited_base_refuted): the same without "[dir' = dir \/ is_abs b = true]".  The effective baseUrl
    is that of the first document of the chain that sets one, and where this document is in the directory of the first, or
    the baseUrl is absolute, the locations tried are relative to the directory of the document that sets it. *)
Theorem C47_declared_partial : forall fs R fuel loc dir b m docs st st1, rv_debug R = false ->
  o_tsconfig (rv_opts R) = Some loc -> parent loc = Some dir ->
  ts_chain fs R (load_pkg_file R fuel) fuel st loc docs st1 -> Forall (fun d => json_nodup (snd d)) docs -> ts_sets (merged docs) b m ->
  exists l1 loc' j' l2, docs = l1 ++ (loc', j') :: l2 /\ sets_base j' b /\ Forall (fun d => forall b', ~ sets_base (snd d) b') l1 /\
  forall dir', parent loc' = Some dir' -> dir' = dir \/ is_abs b = true ->
  forall base req locs r st', Forall (fun e => splits (fst e) (r_target (parse req))) m ->
  ts_locations (r_target (parse req))
    (map (fun kv => (fst kv, map (join (join dir' b)) (snd kv))) (permute (s_ord st1 0) m)) locs ->
  run fs (resolve R fuel base req) st = (r, st') ->
  exists r0, first_of (map (fun p => run fs (resolve_ R (load_pkg_file R fuel) fuel (mkInfo p empty_request))) locs)
    (run fs (resolve_ R (load_pkg_file R fuel) fuel (mkInfo base (parse req))))
    (snd (step fs st1 OOrder)) r0 st' /\ r = final_answer fs R r0.
Proof. exact fin_47. Qed.
Print Assumptions C47_declared_partial.
(** Whenever the files can be read, there is such a chain. *)
Theorem C47_chain_exists : forall fs R load f st loc j st', run fs (parse_file_to_value R load f loc) st = (Done (Ok j), st') ->
  exists docs, ts_chain fs R load f st loc docs st' /\ merged docs = j.
Proof. exact chain_exists. Qed.
Print Assumptions C47_chain_exists.
Example C47_declared_ex : (exists st1, ts_chain (W t47) R47c (load_pkg_file R47c 40) 40 st0 (lit "/r/tsconfig.json")
    [(lit "/r/tsconfig.json", docT); (lit "/r/./mid.json", docM); (lit "/r/./base/in.json", docB)] st1) /\
  ts_sets (merged [(lit "/r/tsconfig.json", docT); (lit "/r/./mid.json", docM); (lit "/r/./base/in.json", docB)]) (lit "./lib") [(lit "~/*", [lit "*"])] /\
  sets_base docM (lit "./lib") /\ (forall b, ~ sets_base docT b) /\
  Forall json_nodup [docT; docM; docB] /\
  ends_at (res (W t47) R47c "/r" "~/x") "/r/lib/x.js".
Proof. exact ex47. Qed.
