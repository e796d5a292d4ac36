#!/usr/bin/env python3
"""Turn the repository's own tests into Coq checks evaluated by vm_compute.

Writes theories/MapTests.v (src/map.rs, src/parse.rs, src/kind.rs) and
theories/FixtureTests.v (tests/cases.rs on tests/fixtures)."""
import re, os, json, sys
REPO = '/repo'
OUT = os.path.join(os.path.dirname(os.path.abspath(__file__)), '..', 'rocq', 'theories')

# ---------- a tokenizer/parser for the subset of Rust expressions used in the tests ----------
TOK = re.compile(r'''\s+|//[^\n]*|(?P<str>"(?:[^"\\]|\\.)*")|(?P<num>\d+)|(?P<id>[A-Za-z_][A-Za-z_0-9]*)|(?P<op>::|\.\.|=>|.)''', re.S)
def tokenize(s):
    out = []; i = 0
    while i < len(s):
        m = TOK.match(s, i)
        i = m.end()
        if m.lastgroup: out.append((m.lastgroup, m.group(m.lastgroup)))
    return out
def unesc(s):
    return s[1:-1].replace("\\'", "'").replace('\\"', '"').replace('\\\\', '\\')

class P:
    def __init__(self, toks): self.t = toks; self.i = 0
    def peek(self, k=0): return self.t[self.i+k] if self.i+k < len(self.t) else ('eof', '')
    def next(self): x = self.peek(); self.i += 1; return x
    def eat(self, v):
        x = self.next()
        assert x[1] == v, (x, v, self.t[self.i-5:self.i+5])
    def args(self, close):
        l = []
        while self.peek()[1] != close:
            l.append(self.expr())
            if self.peek()[1] in (',', ';'): self.next()
        self.eat(close); return l
    def expr(self):
        while self.peek()[1] == '&': self.next()
        k, v = self.peek()
        if k == 'str': self.next(); e = ('str', unesc(v))
        elif k == 'num': self.next(); e = ('num', v)
        elif v == '[': self.next(); e = ('list', self.args(']'))
        elif v == '(':
            self.next(); l = self.args(')'); e = l[0] if len(l) == 1 else ('tuple', l)
        elif v == '{':     # json object
            self.next(); l = []
            while self.peek()[1] != '}':
                key = self.expr(); self.eat(':'); l.append((key, self.expr()))
                if self.peek()[1] == ',': self.next()
            self.eat('}'); e = ('obj', l)
        elif k == 'id':
            name = self.next()[1]
            while self.peek()[1] == '::': self.next(); name += '::' + self.next()[1]
            if self.peek()[1] == '!':
                self.next(); o = self.next()[1]
                e = ('macro', name, self.args({'(': ')', '[': ']'}[o]))
            elif name == 'ResolverOptions' and self.peek()[1] == '{':
                self.next(); f = {}
                while self.peek()[1] != '}':
                    if self.peek()[1] == '..':
                        self.next(); self.expr()
                    else:
                        fn = self.next()[1]; self.eat(':'); f[fn] = self.expr()
                    if self.peek()[1] == ',': self.next()
                self.eat('}'); e = ('opts', f)
            else: e = ('id', name)
        else: raise Exception((k, v, self.t[self.i-8:self.i+8]))
        while True:
            v = self.peek()[1]
            if v == '.':
                self.next(); m = self.next()[1]
                if self.peek()[1] == '(':
                    self.next(); e = ('meth', e, m, self.args(')'))
                else: e = ('field', e, m)
            elif v == '(':
                self.next(); e = ('call', e, self.args(')'))
            else: return e

# ---------- Coq output helpers ----------
def cstr(s):
    if all((32 <= ord(c) < 127 or c == "\n") for c in s): return '(lit "%s")' % s.replace('"', '""')
    return '[%s]%%N' % '; '.join(str(ord(c)) for c in s)
def clist(l): return '[' + '; '.join(l) + ']'
def cjson(e):
    if e is None: return 'JNull'
    if e is True: return '(JBool true)'
    if e is False: return '(JBool false)'
    if isinstance(e, (int, float)): return '(JNum %s)' % cstr(str(e))
    if isinstance(e, str): return '(JStr %s)' % cstr(e)
    if isinstance(e, list): return '(JArr %s)' % clist([cjson(x) for x in e])
    if isinstance(e, dict): return '(JObj %s)' % clist(['(%s, %s)' % (cstr(k), cjson(v)) for k, v in e.items()])
    raise Exception(e)

def ev_json(e):
    if e[0] == 'macro' and e[1] == 'json': return ev_json(e[2][0])
    if e[0] == 'str': return e[1]
    if e[0] == 'num': return int(e[1])
    if e[0] == 'list': return [ev_json(x) for x in e[1]]
    if e[0] == 'obj': return {k[1]: ev_json(v) for k, v in e[1]}
    if e == ('id', 'null'): return None
    if e == ('id', 'true'): return True
    if e == ('id', 'false'): return False
    raise Exception(e)

# ---------- map tests ----------
def fn_body(src, name):
    i = src.index('fn %s()' % name); i = src.index('{', i); d = 0; j = i
    instr = False
    while True:
        c = src[j]
        if instr:
            if c == '\\': j += 1
            elif c == '"': instr = False
        elif c == '"': instr = True
        elif src.startswith('//', j): j = src.index('\n', j)
        elif c == '{': d += 1
        elif c == '}':
            d -= 1
            if d == 0: return src[i+1:j]
        j += 1

def map_tests():
    src = open(REPO + '/src/map.rs').read()
    o = []
    o.append('''(** * Replay of the unit tests of src/map.rs, src/parse.rs and src/kind.rs.
    GENERATED by tools/mktests.py; every check is closed by [vm_compute]. *)
From Coq Require Import String.
From Coq Require Import List Arith NArith Bool.
From Verif Require Import Str Path Json Types Parse Map.
Import ListNotations.

Definition process (fk : field) (j : json) (request : str) (names : list str)
  : pcomp (result (list str)) :=
  plet t := build_field fk j in
  match t with
  | Err e => PRet (Err e)
  | Ok root => field_process fk root request names
  end.
''')
    n = 0
    for fk, fname in (('FExports', 'exports_field_map_test'), ('FImports', 'imports_field_map_test')):
        body = fn_body(src, fname)
        body = body[body.index('should_equal!(', body.rindex('macro_rules')):]
        # skip the macro bodies
        k = body.index('\n    should_equal!(') if not body.startswith('should_equal!(json') else 0
        body = body[k:]
        p = P(tokenize(body))
        checks = []
        while p.peek()[0] != 'eof':
            if p.peek()[1] == ';': p.next(); continue
            e = p.expr()
            assert e[0] == 'macro', e
            j, req, names, exp = e[2]
            j = ev_json(j); names = [x[1] for x in names[1]]
            lhs = 'process %s %s %s %s' % (fk, cjson(j), cstr(req[1]), clist([cstr(x) for x in names]))
            if e[1] == 'should_equal': rhs = 'PRet (Ok %s)' % clist([cstr(x[1]) for x in exp[1]])
            else: rhs = 'PRet (Err %s)' % cstr(exp[1])
            checks.append((lhs, rhs)); n += 1
        for i in range(0, len(checks), 10):
            o.append('Example %s_%d :\n  %s.\nProof. vm_compute. repeat split. Qed.\n' % (fname, i // 10,
                ' /\\\n  '.join('%s = %s' % c for c in checks[i:i+10])))
    print('map tests', n, file=sys.stderr)
    for m in re.finditer(r'assert!\((!?)ExportsField::check_target\("([^"]*)"\)\)', src):
        o.append('Example check_target_%d : check_target %s = PRet %s.\nProof. vm_compute. reflexivity. Qed.\n' % (
            m.start(), cstr(m.group(2)), 'false' if m.group(1) else 'true'))
    psrc = open(REPO + '/src/parse.rs').read()
    for i, m in enumerate(re.finditer(r'should_parsed!\(("(?:[^"\\]|\\.)*"); ("(?:[^"\\]|\\.)*"), ("(?:[^"\\]|\\.)*"), ("(?:[^"\\]|\\.)*")\);', psrc)):
        a, t, q, f = [unesc(x) for x in m.groups()]
        o.append('Example parse_%d : parse_identifier %s = (%s, %s, %s).\nProof. vm_compute. reflexivity. Qed.\n' % (i, cstr(a), cstr(t), cstr(q), cstr(f)))
    ksrc = open(REPO + '/src/kind.rs').read()
    for i, m in enumerate(re.finditer(r'assert!\(matches!\(\s*Resolver::get_target_kind\(("(?:[^"\\]|\\.)*")\),\s*PathKind::(\w+)\s*\)\)', ksrc)):
        o.append('Example kind_%d : get_target_kind %s = %s.\nProof. vm_compute. reflexivity. Qed.\n' % (i, cstr(unesc(m.group(1))), m.group(2)))
    o.append('''Example builtin_fs : is_build_in_module (lit "fs") = true /\\ is_build_in_module (lit "a") = false.
Proof. vm_compute. split; reflexivity. Qed.
''')
    open(OUT + '/MapTests.v', 'w').write('\n'.join(o))

# ---------- fixture tests ----------
CWD = '/r'
def pjoin(a, b):
    if b.startswith('/'): return b
    return a + ('' if a.endswith('/') else '/') + b
def p_helper(l):
    acc = CWD + '/tests/fixtures'
    for x in l: acc = pjoin(acc, x)
    return acc

class Skip(Exception): pass
class Ev:
    def __init__(self): self.env = {}
    def ev(self, e):
        k = e[0]
        if k == 'str': return e[1]
        if k == 'num': return int(e[1])
        if k == 'list': return [self.ev(x) for x in e[1]]
        if k == 'tuple': return tuple(self.ev(x) for x in e[1])
        if k == 'opts': return ('opts', {a: self.ev(b) for a, b in e[1].items()})
        if k == 'macro':
            if e[1] in ('vec',): return [self.ev(x) for x in e[2]]
            if e[1] == 'vec_to_set': return self.ev(e[2][0])
            if e[1] == 'format':
                f = self.ev(e[2][0]); args = [self.ev(x) for x in e[2][1:]]
                for a in args: f = f.replace('{}', a, 1)
                return f.replace('{{}}', '{}')
            raise Skip(e)
        if k == 'id':
            if e[1] in self.env: return self.env[e[1]]
            if e[1] == 'true': return True
            if e[1] == 'false': return False
            if e[1] == 'None': return None
            if e[1] == 'AliasMap::Ignored': return ('ignored',)
            raise Skip(e)
        if k == 'call':
            fn = e[1][1]
            if fn == 'p': return p_helper(self.ev(e[2][0]))
            if fn in ('String::from', 'Some', 'Path::new', 'PathBuf::from', 'Arc::new'): return self.ev(e[2][0])
            if fn == 'AliasMap::Target': return ('target', self.ev(e[2][0]))
            if fn == 'Resolver::new': return ('resolver', self.ev(e[2][0]), object())
            if fn == 'ResolverOptions::default': return ('opts', {})
            if fn == 'ResolverCache::default': return ('cache', object())
            raise Skip(e)
        if k == 'meth':
            if e[2] in ('display', 'to_string', 'to_path_buf', 'clone', 'to_str', 'unwrap'): return self.ev(e[1])
            if e[2] == 'join': return pjoin(self.ev(e[1]), self.ev(e[3][0]))
            raise Skip(e)
        raise Skip(e)

def copts(o):
    d = {'extensions': [".js", ".json", ".node"], 'enforce_extension': None, 'alias': [], 'prefer_relative': False,
         'symlinks': True, 'description_file': 'package.json', 'main_files': ['index'], 'main_fields': ['main'],
         'browser_field': False, 'condition_names': ['node'], 'tsconfig': None}
    for k, v in o.items():
        if k == 'external_cache': continue
        assert k in d, k
        d[k] = v
    b = lambda x: 'true' if x else 'false'
    sl = lambda l: clist([cstr(x) for x in l])
    opt = lambda f, x: 'None' if x is None else '(Some %s)' % f(x)
    al = clist(['(%s, %s)' % (cstr(a), 'AIgnored' if t[0] == 'ignored' else '(ATarget %s)' % cstr(t[1])) for a, t in d['alias']])
    return '(mkOpts %s %s %s %s %s %s %s %s %s %s %s)' % (sl(d['extensions']), opt(b, d['enforce_extension']), al,
        b(d['prefer_relative']), b(d['symlinks']), opt(cstr, d['description_file']), sl(d['main_files']), sl(d['main_fields']),
        b(d['browser_field']), sl(d['condition_names']), opt(cstr, d['tsconfig']))

def strip_jsonc(s):
    out = ''; i = 0; instr = False
    while i < len(s):
        c = s[i]
        if instr:
            out += c
            if c == '\\': out += s[i+1]; i += 1
            elif c == '"': instr = False
        elif c == '"': instr = True; out += c
        elif s.startswith('//', i):
            j = s.find('\n', i); i = len(s) if j < 0 else j; continue
        elif s.startswith('/*', i): i = s.index('*/', i) + 2; continue
        else: out += c
        i += 1
    return re.sub(r',(\s*[}\]])', r'\1', out)

def fixture_tests():
    contents = {}; strict = {}; loose = {}
    def node(path):
        if os.path.islink(path): return 'NLink %s' % cstr(os.readlink(path))
        if os.path.isdir(path):
            return 'NDir %s' % clist(['(%s, %s)' % (cstr(x), node(os.path.join(path, x))) for x in sorted(os.listdir(path))])
        if path.endswith('.json'):
            txt = open(path).read()
            if txt not in contents: contents[txt] = 'text%d' % len(contents)
            return 'NFile %s 5000000000%%N' % contents[txt]
        return 'NFile [] 5000000000%N'
    tree = node(REPO + '/tests/fixtures')
    for extra in ('{"main": "module.js"}', '{"main": "index.js"}'):
        if extra not in contents: contents[extra] = 'text%d' % len(contents)
    js = []; jc = []
    for txt, cid in contents.items():
        def try_(t):
            try: return json.loads(t)
            except Exception: return Ellipsis
        a = try_(txt)
        js.append('(%s, %s)' % (cid, 'None' if a is Ellipsis else 'Some ' + cjson(a)))
        b = try_(strip_jsonc(txt))
        if b is not Ellipsis: jc.append('(%s, %s)' % (cid, cjson(b)))
    src = open(REPO + '/tests/cases.rs').read()
    o = ['''(** * Replay of tests/cases.rs on a model of tests/fixtures.
    GENERATED by tools/mktests.py; every check is closed by [vm_compute].
    The working directory is "/r".  The files ending in .json have their texts, read by the JSON
    parser of JsonText.v ([texts_read]: it reads them as Python's does) and for tsconfig by the
    table below; the other files are empty.  Each test function runs its calls in order, in
    debug mode, each resolver keeping its caches between its calls. *)
From Coq Require Import String.
From Coq Require Import List Arith NArith Bool.
From Verif Require Import Str Path Json Types Parse Map Prog Desc Resolve Top Run Posix JsonText.
Import ListNotations.

%s
Definition fixtures : node := %s.
Definition root : node := NDir [(lit "r", NDir [(lit "tests", NDir [(lit "fixtures", fixtures)])])].
Definition fs0 : fsys := posix_fs 300 root [lit "r"].
Definition json_table : list (str * option json) := %s.
Definition jsonc_table : list (str * json) := %s.
Definition js : str -> option json := from_str (fun l => Some l).
Example texts_read : map (fun e => js (fst e)) json_table = map snd json_table.
Proof. vm_compute. reflexivity. Qed.
Definition jsc (s : str) : jsonc_res :=
  match imap_get jsonc_table s with Some j => JCVal j | None => JCErr (lit "x") end.
Definition FUEL := 60.

Inductive expect := XEq (p : path) | XIgnored | XErr (m : str).
Definition check_one (x : expect) (r : outcome (result rresult)) : bool :=
  match x, r with
  | XEq p, Done (Ok (RInfo i)) => path_eqb (info_join i) p
  | XIgnored, Done (Ok RIgnored) => true
  | XErr m, Done (Err e) => contains e m
  | _, _ => false
  end.
Fixpoint check (fs : fsys) (l : list (resolver * path * str * expect)) (st : state) : list bool :=
  match l with
  | [] => []
  | (R, base, req, x) :: r =>
      let (o, st') := run fs (resolve R FUEL base req) st in
      check_one x o :: check fs r st'
  end.
Definition all_ok (l : list (resolver * path * str * expect)) : bool :=
  forallb (fun b => b) (check fs0 l (empty_state (fun _ => []))).
''' % ('\n'.join('Definition %s : str := %s.' % (cid, cstr(txt)) for txt, cid in contents.items()),
       tree, clist(js), clist(jc))]
    total = 0; skipped = []
    for m in re.finditer(r'#\[test\]\nfn (\w+)\(\)', src):
        name = m.group(1); body = fn_body(src, name)
        if name in ('cache_fs', 'load_side_effects_test'): continue
        toks = tokenize(body)
        # split into statements at depth-0 semicolons
        stm = []; cur = []; d = 0
        for t in toks:
            if t[1] in '([{' and t[0] == 'op': d += 1
            if t[1] in ')]}' and t[0] == 'op': d -= 1
            if t == ('op', ';') and d == 0: stm.append(cur); cur = []
            else: cur.append(t)
        if cur: stm.append(cur)
        E = Ev(); rows = []; ids = {}; caches = {}; opts = {}
        def rname(r):
            _, op, uid = r
            if uid not in ids:
                i = len(ids); ids[uid] = i
                ext = op[1].get('external_cache')
                if ext is None: c = 1000 + i if False else 50 + i
                else: c = caches.setdefault(ext, len(caches))
                opts[i] = '(new_resolver %s %d %d true js jsc)' % (copts(op[1]), c, i)
            return 'R%d' % ids[uid]
        for s in stm:
            try:
                if s[0][1] == 'let':
                    k = 1
                    if s[k][1] == 'mut': k += 1
                    assert s[k+1][1] == '='
                    E.env[s[k][1]] = E.ev(P(s[k+2:]).expr())
                elif s[0][1] == 'use': pass
                elif s[0][1] in ('should_equal', 'should_ignored', 'should_error'):
                    e = P(s).expr(); a = [E.ev(x) for x in e[2]]
                    x = {'should_equal': lambda: 'XEq ' + cstr(a[3]), 'should_ignored': lambda: 'XIgnored',
                         'should_error': lambda: 'XErr ' + cstr(a[3])}[s[0][1]]()
                    rows.append('(%s, %s, %s, %s)' % (rname(a[0]), cstr(a[1]), cstr(a[2]), x)); total += 1
                else: raise Skip(s[:6])
            except Skip as ex: skipped.append((name, str(ex)[:200]))
        o.append('Definition %s_rows :=\n%s  [%s].\nExample %s : all_ok %s_rows = true.\nProof. vm_compute. reflexivity. Qed.\n' % (
            name, ''.join('  let R%d := %s in\n' % kv for kv in opts.items()), ';\n   '.join(rows), name, name))
    c1, c2 = contents['{"main": "module.js"}'], contents['{"main": "index.js"}']
    o.append(r'''(** [cache_fs] (tests/cases.rs:2119-2150): package.json rewritten three seconds later, twice. *)
Definition cache_fs_node (content : str) (t : N) : node :=
  NDir [(lit "r", NDir [(lit "tests", NDir [(lit "fixtures", NDir [(lit "cache-fs",
    NDir [(lit "index.js", NFile [] 0%%N); (lit "module.js", NFile [] 0%%N);
          (lit "package.json", NFile content t)])])])])].
Definition cache_fs_fs content t := posix_fs 300 (cache_fs_node content t) [lit "r"].
Example cache_fs :
  let R := new_resolver default_options 0 0 true js jsc in
  let d := lit "/r/tests/fixtures/cache-fs" in
  let c := ECall (CResolve R FUEL d (lit ".")) in
  let '(os, _, _) := run_history (cache_fs_fs %s 5000000000%%N) (empty_state (fun _ => []))
     [c; EFs (cache_fs_fs %s 8000000000%%N); c; EFs (cache_fs_fs %s 11000000000%%N); c] in
  map (fun o => match o with
                | Done (AResolve (Ok (RInfo i))) => i_path i
                | _ => [] end) os
  = [join d (lit "index.js"); join d (lit "module.js"); join d (lit "index.js")].
Proof. vm_compute. reflexivity. Qed.

(** [load_side_effects_test] (tests/cases.rs:2525-2620). *)
Definition side_of (p : path) :=
  out fs0 (empty_state (fun _ => []))
    (load_side_effects (new_resolver default_options 0 0 true js jsc) FUEL p).
Definition fx (p : string) : path := lit "/r/tests/fixtures/" ++ lit p.
Example load_side_effects_test :
  (match side_of (fx "exports-field/node_modules/@scope/import-require/dist/cjs/index.js") with
   | Done (Ok (Some (p, Some (SEArray _)))) =>
       path_eqb p (fx "exports-field/node_modules/@scope/import-require/package.json")
   | _ => false end = true) /\
  (match side_of (fx "exports-field/node_modules/exports-field/x.js") with
   | Done (Ok (Some (p, Some (SEBool false)))) =>
       path_eqb p (fx "exports-field/node_modules/exports-field/package.json")
   | _ => false end = true) /\
  side_of (fx "incorrect-package/sideeffects-map")
    = Done (Err (lit "sideEffects in " ++ fx "incorrect-package/sideeffects-map/package.json"
                 ++ lit " had unexpected value {}")) /\
  side_of (fx "incorrect-package/sideeffects-other-in-array")
    = Done (Err (lit "sideEffects in " ++ fx "incorrect-package/sideeffects-other-in-array/package.json"
                 ++ lit " had unexpected value 1")) /\
  side_of (lit "/r/tests/fixtures") = Done (Ok None).
Proof. vm_compute. repeat split. Qed.
''' % (c2, c1, c2))
    print('fixture tests', total, 'skipped', skipped, file=sys.stderr)
    open(OUT + '/FixtureTests.v', 'w').write('\n'.join(o))

map_tests()
fixture_tests()
