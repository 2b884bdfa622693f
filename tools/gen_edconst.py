#!/usr/bin/env python3
"""Copies the constants of const.go into Coq (rocq/theories/EdConst.v).

Usage: gen_edconst.py const.go > EdConst.v
Every number is copied from the Go text in order; nothing is computed."""
import re, sys

src = open(sys.argv[1]).read().split('\n')

def block(name):
    """The lines (1-based numbers) of [var name = ...]."""
    i = next(k for k, l in enumerate(src) if l.startswith('var %s = ' % name))
    j = i
    if not src[i].rstrip().endswith('}'):
        while src[j] != '}':
            j += 1
    return i + 1, j + 1, '\n'.join(src[i:j + 1])

def nums(text):
    return [int(x) for x in re.findall(r'-?\d+', text)]

def zl(ns):
    return '[' + '; '.join(str(n) if n >= 0 else '(%d)' % n for n in ns) + ']'

def fes(text):
    return [nums(m) for m in re.findall(r'FieldElement\{([^{}]*)\}', text)]

out = []
out.append('(** The constants of crypto/internal/ed25519/edwards25519/const.go, copied by\n'
           '    tools/gen_edconst.py.  Do not edit. *)')
out.append('From Coq Require Import List ZArith.\nImport ListNotations.\nLocal Open Scope Z_scope.\n')
i, j, t = block('BasePointOrder')
out.append('(** const.go:%d *)\nDefinition BasePointOrder_c : list Z :=\n  %s.' % (i, zl(nums(t[t.index('{'):]))))
for n in ['d', 'd2', 'SqrtM1', 'A']:
    i, j, t = block(n)
    out.append('(** const.go:%d-%d *)\nDefinition %s_c : list Z :=\n  %s.' % (i, j, n, zl(nums(t[t.index('{'):]))))
i, j, t = block('extendedBaseEl')
out.append('(** const.go:%d-%d: X, Y, Z, T *)\nDefinition extendedBaseEl_c : list (list Z) :=\n  [%s].' % (i, j, ';\n   '.join(map(zl, fes(t)))))
def trip(fs):
    return '(%s,\n     %s,\n     %s)' % tuple(map(zl, fs))
i, j, t = block('bi')
f = fes(t); assert len(f) == 24
out.append('(** const.go:%d-%d: yPlusX, yMinusX, xy2d *)\nDefinition bi_c : list (list Z * list Z * list Z) :=\n  [ %s ].' % (i, j, ';\n    '.join(trip(f[k:k + 3]) for k in range(0, 24, 3))))
i, j, t = block('base')
f = fes(t); assert len(f) == 768
rows = ['[ %s ]' % ';\n    '.join(trip(f[k:k + 3]) for k in range(r, r + 24, 3)) for r in range(0, 768, 24)]
out.append('(** const.go:%d-%d *)\nDefinition base_c : list (list (list Z * list Z * list Z)) :=\n  [ %s ].' % (i, j, ';\n  '.join(rows)))
print('\n'.join(out))
