"""Transcribe the space-group tables of /repo into rocq/theories/SgTables.v.

Reads the literals as text (ast), so none of the project's dependencies are
needed.  Run from anywhere; the output is committed.
"""
import ast
import os

REPO = '/repo/hexrd/core/'
OUT = os.path.join(os.path.dirname(__file__), '..', 'rocq', 'theories', 'SgTables.v')


def literal(path, name):
    for n in ast.parse(open(REPO + path).read()).body:
        t = getattr(n, 'target', None)
        if isinstance(n, ast.Assign):
            t = n.targets[0]
        if getattr(t, 'id', None) == name:
            v = n.value
            if isinstance(v, ast.Call):
                v = v.args[0]
            return ast.literal_eval(v), n.lineno, n.end_lineno
    raise KeyError(name)


def coq_list(items, per_line=1):
    lines = []
    for i in range(0, len(items), per_line):
        lines.append('   ' + '; '.join(items[i:i + per_line]))
    return '[\n' + ';\n'.join(lines) + ']'


def s(x):
    return '"' + x + '"'


gl, a1, b1 = literal('constants.py', 'SYM_GL')
ab, a2, b2 = literal('constants.py', 'SYS_AB')
pg, a3, b3 = literal('constants.py', 'SYM_GL_PG')
sy, a4, b4 = literal('constants.py', 'sgnum_symmorphic')
ps, a5, b5 = literal('material/symbols.py', 'pstr_spacegroup')

out = f'''(** Space-group tables, transcribed by tools/gen_sgtables.py from the literals
    in /repo. *)
From Coq Require Import String ZArith List.
Import ListNotations.
Local Open Scope string_scope.

(** hexrd/core/constants.py:{a4}-{b4} *)
Definition sgnum_symmorphic : list Z :=
{coq_list([str(x) for x in sy], 16)}%Z.

(** hexrd/core/constants.py:{a1}-{b1} *)
Definition SYM_GL : list string :=
{coq_list([s(x) for x in gl])}.

(** hexrd/core/constants.py:{a2}-{b2} *)
Definition SYS_AB : list (Z * (list string * list string)) :=
{coq_list([f'({k}%Z, ([' + '; '.join(map(s, v[0])) + '], [' + '; '.join(map(s, v[1])) + ']))' for k, v in ab.items()])}.

(** hexrd/core/constants.py:{a3}-{b3} *)
Definition SYM_GL_PG : list (string * string) :=
{coq_list([f'({s(k)}, {s(v)})' for k, v in pg.items()])}.

(** hexrd/core/material/symbols.py:{a5}-{b5} *)
Definition pstr_spacegroup : list string :=
{coq_list([s(x) for x in ps])}.
'''
open(OUT, 'w').write(out)
