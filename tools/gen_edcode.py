#!/usr/bin/env python3
"""Translate the straight-line arithmetic of edwards25519.go into EdCode.v.

Every Go assignment becomes one assignment of the Coq program, in order; the
only things computed here are the types of the operands (Go's static types) and
constant folding of `1 << n`.  Usage: gen_edcode.py /repo/... > EdCode.v"""
import re, sys
SRC = '/repo/crypto/internal/ed25519/edwards25519/edwards25519.go'
lines = open(SRC).read().split('\n')

def func(name):
    i = next(k for k, l in enumerate(lines) if re.match(r'func %s\(' % name, l))
    j = next(k for k in range(i, len(lines)) if lines[k] == '}')
    return i + 1, j + 1, lines[i + 1:j]

TOK = re.compile(r'\s*(\d+|[A-Za-z_]\w*|<<|>>|[-+*&|()\[\]:,^])')
def tokens(s):
    out = []; k = 0
    s = s.strip()
    while k < len(s):
        m = TOK.match(s, k); assert m, s[k:]
        out.append(m.group(1)); k = m.end()
    return out

class P:
    def __init__(self, s, types): self.t = tokens(s); self.i = 0; self.ty = types
    def peek(self): return self.t[self.i] if self.i < len(self.t) else None
    def next(self): self.i += 1; return self.t[self.i - 1]
    def eat(self, x): assert self.next() == x, (x, self.t)
    def expr(self):   # + - |
        a = self.term()
        while self.peek() in ('+', '-', '|'):
            op = self.next(); a = self.mk(op, a, self.term())
        return a
    def term(self):   # * << >> &
        a = self.atom()
        while self.peek() in ('*', '<<', '>>', '&'):
            op = self.next(); a = self.mk(op, a, self.atom())
        return a
    def mk(self, op, a, b):
        (ta, ka, va), (tb, kb, vb) = a, b
        if op in ('<<', '>>'):
            assert kb == 'const'
            if ka == 'const': return (None, 'const', va << vb if op == '<<' else va >> vb)
            return (ta, 'op', (op, a, b))
        if ka == 'const' and kb == 'const':
            return (None, 'const', {'+': va + vb, '-': va - vb, '*': va * vb}[op])
        t = ta or tb
        assert ta is None or tb is None or ta == tb, (op, a, b)
        return (t, 'op', (op, a, b))
    def atom(self):
        x = self.next()
        if x == '(':
            a = self.expr(); self.eat(')'); return a
        if x.isdigit(): return (None, 'const', int(x))
        if x in ('int64', 'int32', 'byte'):
            self.eat('('); a = self.expr(); self.eat(')')
            t = {'int64': 'I64', 'int32': 'I32', 'byte': 'U8'}[x]
            if a[1] == 'const': return (t, 'const', a[2])
            return (t, 'conv', a)
        if x in ('load3', 'load4'):
            self.eat('('); arr = self.next(); self.eat('[')
            off = int(self.next()) if self.peek().isdigit() else 0
            self.eat(':'); self.eat(']'); self.eat(')')
            return ('I64', 'load', (int(x[4]), arr, off))
        if self.peek() == '[':
            self.eat('['); n = int(self.next()); self.eat(']')
            return (self.ty[x], 'arr', (x, n))
        return (self.ty[x], 'var', x)

def show(a, prec=0):
    t, k, v = a
    if k == 'const': return '#%d' % v
    if k == 'var': return '$"%s"' % v
    if k == 'arr': return '"%s"@%d' % v
    if k == 'conv': return '(Econv %s %s)' % (t, show(v, 9))
    if k == 'load': return '(Eload %d "%s" %d)' % v
    op, x, y = v
    q = "'" if t == 'I32' else ''
    if op in ('+', '-'):
        s, p = '%s %s%s %s' % (show(x, 1), op, q, show(y, 2)), 1
    elif op == '*':
        s, p = '%s *%s %s' % (show(x, 2), q, show(y, 3)), 2
    elif op == '<<':
        s, p = '%s <<%s %d' % (show(x, 9), q, y[2]), 0.5
    elif op == '>>':
        s, p = '%s >> %d' % (show(x, 9), y[2]), 0.5
    elif op == '&':
        s, p = 'Eand %s %s' % (show(x, 9), show(y, 9)), 0.5
    elif op == '|':
        s, p = 'Eor %s %s' % (show(x, 9), show(y, 9)), 0.5
    return s if p >= prec else '(' + s + ')'

def x_is_fold(s): return '#666643' in s

def translate(name, params, out=None, cut=None):
    """params: types of array parameters; out: the byte array packed at the
    end; cut: number of leading statements that go to a separate definition."""
    a, b, body = func(name)
    ty = dict(params); stm = []; pack = []; first_pack = None
    txt = re.sub(r'/\*.*?\*/', lambda m: '\n' * m.group(0).count('\n'), '\n'.join(body), flags=re.S)
    for off, l in enumerate(txt.split('\n')):
        ln = a + 1 + off
        l = re.sub(r'//.*', '', l).strip()
        if not l: continue
        m = re.match(r'var (\w+) \[\d+\](int32|int64)$', l)
        if m: ty[m.group(1)] = {'int32': 'I32', 'int64': 'I64'}[m.group(2)]; continue
        m = re.match(r'(\w+)(?:\[(\d+)\])? (:=|=|\+=|-=) (.*)$', l)
        assert m, l
        x, n, op, rhs = m.groups()
        e = P(rhs, ty); v = e.expr(); assert e.peek() is None, l
        if out and x == out and n is not None:
            assert op == '=' and int(n) == len(pack); pack.append((ln, show(v, 0)))
            first_pack = first_pack or ln
            continue
        assert not pack
        if op == ':=': ty[x] = v[0]; assert v[0], l
        t = ty[x]
        assert v[0] in (t, None), l
        if op in ('+=', '-='):
            self_ = (t, 'arr', (x, int(n))) if n is not None else (t, 'var', x)
            v = (t, 'op', (op[0], self_, v))
        lhs = '"%s"@%s' % (x, n) if n is not None else '$"%s"' % x
        stm.append((ln, '%s ::= %s' % (lhs if n is None else '"%s" @@ %s' % (x, n), show(v, 0)) if n is not None
                    else '"%s" ::= %s' % (x, show(v, 0))))
    parts = [(name + '_code', stm)]
    if cut == 'sc':   # loads | up to the last reductions | floor carries | fold | floor carries
        nl = next(i for i, x in enumerate(stm) if 'Eload' not in x[1])
        f = [i for i, x in enumerate(stm) if x[1] == '"carry" @@ 0 ::= $"s0" >> 21']
        assert len(f) == 2
        z = next(i for i in range(f[0], f[1]) if x_is_fold(stm[i][1]))
        cut = [0, nl, f[0], z, f[1], None]
    if cut:
        parts = [(name + '_code%d' % (i + 1), stm[cut[i]:cut[i + 1]]) for i in range(len(cut) - 1)]
    for nm, ss in parts:
        print('(** edwards25519.go:%d-%d [%s] (the function is at %d-%d) *)' % (ss[0][0], ss[-1][0], name, a, b))
        print('Definition %s : prog := [' % nm)
        print(';\n'.join('  ' + s for _, s in ss))
        print('].\n')
    if pack:
        print('(** edwards25519.go:%d-%d [%s]: the values written to %s[0], %s[1], ... *)' % (pack[0][0], pack[-1][0], name, out, out))
        print('Definition %s_pack : list expr := [' % name)
        print(';\n'.join('  ' + s for _, s in pack))
        print('].\n')

print('''(** The straight-line arithmetic of
    crypto/internal/ed25519/edwards25519/edwards25519.go as programs of GoInt.v:
    one assignment here for each assignment there, in the same order.
    Generated from the Go text by tools/gen_edcode.py; nothing is simplified
    except that constant expressions are folded.

    [+], [-], [*], [<<] are int64 operators, [+'], [-'], [*'], [<<'] int32
    operators; [$"x"] is a variable, ["a"@3] an array element, [#n] a
    constant.  [x += e] is written [x ::= x + e]. *)
From Coq Require Import List ZArith String.
From Verif Require Import GoInt.
Import ListNotations.
Local Open Scope Z_scope.

Declare Scope goexpr_scope.
Delimit Scope goexpr_scope with goexpr.
Bind Scope goexpr_scope with expr.
Local Open Scope goexpr_scope.
Local Notation "$ x" := (Ev (x%string, 0%nat)) (at level 1, x at level 0) : goexpr_scope.
Local Notation "a @ i" := (Ev (a%string, i%nat)) (at level 1, i at level 0) : goexpr_scope.
Local Notation "# z" := (Ec z%Z) (at level 1, z at level 0) : goexpr_scope.
Local Notation "a + b" := (Eadd I64 a b) : goexpr_scope.
Local Notation "a - b" := (Esub I64 a b) : goexpr_scope.
Local Notation "a * b" := (Emul I64 a b) : goexpr_scope.
Local Notation "a << k" := (Eshl I64 a k%Z) (at level 52, k at level 0) : goexpr_scope.
Local Notation "a +' b" := (Eadd I32 a b) (at level 50, left associativity) : goexpr_scope.
Local Notation "a -' b" := (Esub I32 a b) (at level 50, left associativity) : goexpr_scope.
Local Notation "a *' b" := (Emul I32 a b) (at level 40, left associativity) : goexpr_scope.
Local Notation "a <<' k" := (Eshl I32 a k%Z) (at level 52, k at level 0) : goexpr_scope.
Local Notation "a >> k" := (Eshr a k%Z) (at level 52, k at level 0) : goexpr_scope.
Local Notation "x ::= e" := (@pair var expr (x%string, 0%nat) e%goexpr) (at level 70).
Local Notation "x @@ i ::= e" := (@pair var expr (x%string, i%nat) e%goexpr) (at level 70, i at level 0).
''')
fe = {'f': 'I32', 'g': 'I32', 'h': 'I32', 'dst': 'I32'}
translate('FeFromBytes', fe, cut=[0, 10, None])
translate('FeToBytes', fe, out='s', cut=[0, 11, None])
translate('FeMul', fe)
translate('FeSquare', fe)
translate('FeSquare2', fe)
translate('ScMulAdd', {}, out='s', cut='sc')
translate('ScReduce', {}, out='out', cut='sc')
