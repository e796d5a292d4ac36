(** * src/parse.rs, src/kind.rs and the request/info helpers of src/lib.rs. *)
From Coq Require Import String.
From Coq Require Import List Arith NArith Bool.
From Verif Require Import Str Path Json Types.
Import ListNotations.

(** ** src/kind.rs *)

(** [BUILT_IN_MODULE_SET]  (src/kind.rs:16-83) *)
Definition BUILT_IN_MODULE_SET : list str := map lit [
  "_http_agent"; "_http_client"; "_http_common"; "_http_incoming"; "_http_outgoing";
  "_http_server"; "_stream_duplex"; "_stream_passthrough"; "_stream_readable";
  "_stream_transform"; "_stream_wrap"; "_stream_writable"; "_tls_common"; "_tls_wrap";
  "assert"; "assert/,strict"; "async_hooks"; "buffer"; "child_process"; "cluster"; "console";
  "constants"; "crypto"; "dgram"; "diagnostics_channel"; "dns"; "dns/promises"; "domain";
  "events"; "fs"; "fs/promises"; "http"; "http2"; "https"; "inspector"; "module"; "net"; "os";
  "path"; "path/posix"; "path/win32"; "perf_hooks"; "process"; "punycode"; "querystring";
  "readline"; "repl"; "stream"; "stream/consumers"; "stream/promises"; "stream/web";
  "string_decoder"; "sys"; "timers"; "timers/promises"; "tls"; "trace_events"; "tty"; "url";
  "util"; "util/types"; "v8"; "vm"; "wasi"; "worker_threads"; "zlib" ]%string.

(** [Resolver::is_build_in_module]  (src/kind.rs:143-145) *)
Definition is_build_in_module (t : str) : bool := mem t BUILT_IN_MODULE_SET.

(** The 52 ASCII letters, lower case then upper case, as enumerated in the pattern tables. *)
Definition letters : list char :=
  map N.of_nat (seq 97 26) ++ map N.of_nat (seq 65 26).

(** [ABSOLUTE_WIN_PATTERN_LENGTH_TWO]  (src/kind.rs:85-90) *)
Definition WIN_TWO : list str := map (fun c => [c; c_colon]) letters.
(** [ABSOLUTE_WIN_PATTERN_REST]  (src/kind.rs:92-102) *)
Definition WIN_REST : list str :=
  map (fun c => [c; c_colon; c_bslash]) letters ++ map (fun c => [c; c_colon; c_slash]) letters.

(** The longest pattern matching at the current position ([MatchKind::LeftmostLongest]). *)
Fixpoint longest_here (pats : list str) (s : str) : option str :=
  match pats with
  | [] => None
  | p :: r =>
      match longest_here r s with
      | Some q => if starts_with s p && Nat.leb (length q) (length p) then Some p else Some q
      | None => if starts_with s p then Some p else None
      end
  end.

(** [PMA.leftmost_find_iter(target).next()]  (src/kind.rs:104-109,131): leftmost position
    with a match, in bytes, and the pattern matched there.  The external automaton is
    modelled by its specification. *)
Fixpoint leftmost_find (pats : list str) (start : nat) (s : str) : option (nat * str) :=
  match longest_here pats s with
  | Some p => Some (start, p)
  | None => match s with
            | [] => None
            | c :: r => leftmost_find pats (start + utf8_len c) r
            end
  end.

(** [Resolver::get_target_kind]  (src/kind.rs:112-141) *)
Definition get_target_kind (t : str) : kind :=
  match t with
  | [] => Relative
  | _ =>
      if starts_with_char t c_hash then Internal
      else if starts_with_char t c_slash then AbsolutePosix
      else if str_eqb t s_dot || starts_with t (lit "./") || starts_with t (lit "../")
              || str_eqb t s_dotdot then Relative
      else if Nat.eqb (blen t) 2 && mem t WIN_TWO then AbsoluteWin
      else match leftmost_find WIN_REST 0 t with
           | Some (start, p) =>
               (* [mat.end() - mat.start()] is the length of the matched pattern *)
               if Nat.eqb start 0 && Nat.eqb (blen p) (blen p) then AbsoluteWin else Normal
           | None => Normal
           end
  end.

(** ** src/parse.rs *)

(** [ParseStats]  (src/parse.rs:90-95) *)
Inductive pstate := PRequest | PQuery | PFragment | PStart.

(** The state update on one character  (src/parse.rs:37-58) *)
Definition pstep (st : pstate) (c : char) : pstate :=
  if N.eqb c c_hash then
    match st with PRequest | PQuery => PFragment | PStart => PRequest | PFragment => PFragment end
  else if N.eqb c c_quest then
    match st with PRequest | PQuery | PStart => PQuery | PFragment => PFragment end
  else match st with PStart => PRequest | _ => st end.

(** The loop of [Request::parse_identifier]  (src/parse.rs:36-66); [t], [q], [f] are the
    three accumulated strings.  After [pstep] the state is never [PStart], so the
    [unreachable!] arm (line 63) is not represented. *)
Fixpoint parse_loop (st : pstate) (t q f : str) (s : str) : str * str * str :=
  match s with
  | [] => (t, q, f)
  | c :: r =>
      let st' := pstep st c in
      match st' with
      | PRequest => parse_loop st' (t ++ [c]) q f r
      | PQuery => parse_loop st' t (q ++ [c]) f r
      | PFragment => parse_loop st' t q (f ++ [c]) r
      | PStart => (t, q, f)
      end
  end.
Definition parse_identifier (s : str) : str * str * str := parse_loop PStart [] [] [] s.

(** [Resolver::parse]  (src/parse.rs:79-87) *)
Definition parse (s : str) : request :=
  let '(t, q, f) := parse_identifier s in mkReq t q f (get_target_kind t).

(** [Request::empty]  (src/parse.rs:21-28) *)
Definition empty_request : request := mkReq [] [] [] Relative.

(** [Request::with_target]  (src/parse.rs:69-75) *)
Definition req_with_target (r : request) (t : str) : request :=
  mkReq t (r_query r) (r_fragment r) (get_target_kind t).

(** [Display for Request]  (src/parse.rs:14-18) *)
Definition request_display (r : request) : str := r_target r ++ r_query r ++ r_fragment r.

(** ** [ResolveInfo]  (src/lib.rs:90-121) *)

(** [ResolveInfo::get_path]  (src/lib.rs:95-101) *)
Definition get_path (i : info) : path :=
  if str_eqb (r_target (i_req i)) [] || str_eqb (r_target (i_req i)) s_dot then i_path i
  else join (i_path i) (r_target (i_req i)).
(** [with_path]  (src/lib.rs:103-105) *)
Definition with_path (i : info) (p : path) : info := mkInfo p (i_req i).
(** [with_target]  (src/lib.rs:107-110) *)
Definition with_target (i : info) (t : str) : info := mkInfo (i_path i) (req_with_target (i_req i) t).
(** [ResolveInfo::join]  (src/lib.rs:112-120) *)
Definition info_join (i : info) : path :=
  i_path i ++ r_query (i_req i) ++ r_fragment (i_req i).

(** [raise_resolve_failed_message]  (src/utils.rs:12-18) *)
Definition resolve_failed_message (i : info) : str :=
  lit "Resolve '" ++ request_display (i_req i) ++ lit "' failed in '" ++ i_path i ++ lit "'".

(** [append_ext_for_path]  (src/resolve.rs:13-15) *)
Definition append_ext (p : path) (ext : str) : path := p ++ ext.

(** ** src/normalize.rs *)

(** [PathBuf::pop] *)
Definition path_pop (p : path) : path := match parent p with Some q => q | None => p end.

(** One step of the fold (src/normalize.rs:26-37); no [Prefix] components on Unix. *)
Definition norm_step (acc : path) (c : comp) : path :=
  match c with
  | CNormal name => join acc name
  | CRoot => join acc [c_slash]
  | CCur => acc
  | CParent => path_pop acc
  end.
(** [Resolver::normalize_path_without_link]  (src/normalize.rs:24-38) *)
Definition normalize_path_without_link (p : path) : path :=
  fold_left norm_step (components p) [].
