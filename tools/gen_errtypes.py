#!/usr/bin/env python3
"""Transcribe the error table of /repo/src/errors/types.rs into rocq/theories/ErrTable.v."""
import re
src = open('/repo/src/errors/types.rs').read()
lines = src.split('\n')
def body(start, end):
    i = src.index(start) + len(start)
    return src[i:src.index(end, i)]
# -- the error_types! invocation -------------------------------------------
inv = body('\nerror_types! {\n', '\nmacro_rules! render')
inv = re.sub(r'//[^\n]*', '', inv)
rows = []
for m in re.finditer(r'(\w+) \{((?:[^{}]|\{[^{}]*\})*)\},', inv):
    name, flds = m.group(1), m.group(2)
    fl = [(k, t.strip()) for k, t in re.findall(r'(\w+): \{ctx_type: (.*?), ctx_fn: ', flds)]
    rows.append((name, fl))
TY = {'String': 'TStr', "Cow<'static, str>": 'TStr', 'usize': 'TUsize', 'u64': 'TU64', 'i32': 'TI32',
      'Number': 'TNum', 'Option<usize>': 'TOptUsize', 'Option<PyObject>': 'TOptObj'}
# -- templates ------------------------------------------------------------------
tp = body('pub fn message_template_python', 'pub fn message_template_json')
py = dict(re.findall(r'Self::(\w+) ?\{ ?\.\. ?\} => "((?:[^"\\]|\\.)*)"', tp))
tj = body('pub fn message_template_json', 'pub fn valid_type')
js = {}
for m in re.finditer(r'((?:\|?\s*Self::\w+ \{ \.\. \}\s*)+)=> "([^"]*)"', tj):
    for n in re.findall(r'Self::(\w+)', m.group(1)):
        js[n] = m.group(2)
# -- render_message ---------------------------------------------------------------
rm = body('pub fn render_message', 'pub fn py_dict')
rend, plural = {}, {}
for m in re.finditer(r'Self::(\w+) \{([^}]*)\} => (\{?)', rm):
    rest = rm[m.end():]
    nxt = re.search(r'\n            (Self::|_ =>)', rest)
    arm = rest[:nxt.start()] if nxt else rest
    r = re.search(r'(?:to_string_)?render!\(tmpl, ([^)]*)\)', arm)
    if r:
        rend[m.group(1)] = [x.strip() for x in r.group(1).split(',') if x.strip()]
        p = re.search(r'plural_s\(\*(\w+)\)', arm)
        if p: plural[m.group(1)] = p.group(1)
assert len(rows) == len(py), (len(rows), len(py), set(n for n,_ in rows) ^ set(py))
rows = [r for r in rows if r[0] != 'CustomError']
for n in js: assert n in py
for n in rend: assert n in py
def lit(s): assert all(ord(c) < 128 for c in s) and '"' not in s; return f'(lit "{s}")'
def ls(l): return '[' + '; '.join(l) + ']'
out = ['''(** The table of error types, transcribed from /repo/src/errors/types.rs by
    tools/gen_errtypes.py (do not edit).  Rows: the enum variants of the
    [error_types!] invocation (types.rs:158-434) without [CustomError], their
    fields and types; the templates of [message_template_python] (477-582) and
    [message_template_json] (584-601); the keys that [render_message] (625-747)
    replaces, in its order, and the field its [expected_plural] is taken of.
    Simplification: [Cow<'static, str>] is [String]. *)
From Coq Require Import List NArith.
From Verif Require Import Base.
Import ListNotations.

Inductive ctx_ty := TStr | TUsize | TU64 | TI32 | TNum | TOptUsize | TOptObj.

Record row := {
  r_name : str;
  r_fields : list (str * ctx_ty);
  r_py : str;
  r_json : str;
  r_render : list str;
  r_plural : option str
}.

Definition mk name fields py js render plural : row :=
  {| r_name := name; r_fields := fields; r_py := py; r_json := js; r_render := render; r_plural := plural |}.

Definition table : list row :=''']
ents = []
for n, fl in rows:
    f = ls([f'({lit(k)}, {TY[t]})' for k, t in fl])
    pl = f'(Some {lit(plural[n])})' if n in plural else 'None'
    t = lit(py[n]); j = lit(js.get(n, py[n]))
    ents.append(f'  mk {lit(n)} {f}\n    {t}\n    {j}\n    {ls([lit(k) for k in rend.get(n, [])])} {pl}')
out.append('[\n' + ';\n'.join(ents) + '\n].')
open('/verif/rocq/theories/ErrTable.v', 'w').write('\n'.join(out) + '\n')
print(len(rows), 'rows', len(rend), 'rendered', len(plural), 'plural', len(js), 'json')
