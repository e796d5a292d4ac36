(** * Specifications for request parsing, classification and path normalisation
    (properties C01-C07).  Independent of the definitions in [Parse.v]. *)
From Coq Require Import String.
From Coq Require Import List Arith NArith Bool.
From Verif Require Import Str Path Types.
Import ListNotations.

(** C02: what a split of a request must look like.  '?' is 63, '#' is 35. *)
Definition canonical_split (t q f : str) : Prop :=
  (forall c r, t = c :: r -> c <> 63%N /\ ~ In 63%N r /\ ~ In 35%N r) /\
  (q = [] \/ exists r, q = 63%N :: r /\ ~ In 35%N r) /\
  (f = [] \/ exists r, f = 35%N :: r) /\
  (f <> [] -> t ++ q <> []).

(** C03: the decision table. *)
Definition ascii_letter (c : char) : Prop := (65 <= c <= 90)%N \/ (97 <= c <= 122)%N.
Definition looks_internal (t : str) : Prop := exists r, t = lit "#" ++ r.
Definition looks_posix (t : str) : Prop := exists r, t = lit "/" ++ r.
Definition looks_relative (t : str) : Prop :=
  t = [] \/ t = lit "." \/ t = lit ".." \/ (exists r, t = lit "./" ++ r) \/ (exists r, t = lit "../" ++ r).
Definition looks_win (t : str) : Prop :=
  exists d r, t = d :: 58%N :: r /\ ascii_letter d /\
    (r = [] \/ exists r', r = 47%N :: r' \/ r = 92%N :: r').

(** C04: Node's core module specifiers (Node 16/18 [module.builtinModules], minus the
    "node:"-only ones), i.e. what the table in src/kind.rs is meant to list. *)
Definition node_core_modules : list str := map lit [
  "_http_agent"; "_http_client"; "_http_common"; "_http_incoming"; "_http_outgoing";
  "_http_server"; "_stream_duplex"; "_stream_passthrough"; "_stream_readable";
  "_stream_transform"; "_stream_wrap"; "_stream_writable"; "_tls_common"; "_tls_wrap";
  "assert"; "assert/strict"; "async_hooks"; "buffer"; "child_process"; "cluster"; "console";
  "constants"; "crypto"; "dgram"; "diagnostics_channel"; "dns"; "dns/promises"; "domain";
  "events"; "fs"; "fs/promises"; "http"; "http2"; "https"; "inspector"; "module"; "net"; "os";
  "path"; "path/posix"; "path/win32"; "perf_hooks"; "process"; "punycode"; "querystring";
  "readline"; "repl"; "stream"; "stream/consumers"; "stream/promises"; "stream/web";
  "string_decoder"; "sys"; "timers"; "timers/promises"; "tls"; "trace_events"; "tty"; "url";
  "util"; "util/types"; "v8"; "vm"; "wasi"; "worker_threads"; "zlib" ]%string.

(** C05, C06: evaluation of a path's segments on a stack of names.  [up] counts the ".." that
    are left over at the bottom. *)
Fixpoint eval_segs (segs : list str) (up : nat) (stack : list str) : nat * list str :=
  match segs with
  | [] => (up, stack)
  | s :: r =>
      if str_eqb s [] || str_eqb s (lit ".") then eval_segs r up stack
      else if str_eqb s (lit "..") then
        match stack with
        | [] => eval_segs r (S up) []
        | _ :: b => eval_segs r up b
        end
      else eval_segs r up (s :: stack)
  end.
(** The location a path denotes: absolute or not, number of leading "..", names. *)
Definition denote (p : path) : bool * nat * list str :=
  let abs := starts_with_char p 47%N in
  let (up, stack) := eval_segs (split_on 47%N p) 0 [] in
  (abs, if abs then 0 else up, rev stack).

(** The normal spelling of a location without leading "..". *)
Definition spell (abs : bool) (names : list str) : path :=
  (if abs then lit "/" else []) ++ join_on 47%N names.

(** A normal-form path: no empty, "." or ".." segment. *)
Definition plain_name (s : str) : Prop :=
  s <> [] /\ s <> lit "." /\ s <> lit ".." /\ ~ In 47%N s.
