#!/usr/bin/env python3
"""Translate runtime/abi/library.wat to Coq terms of theories/Wasm.v.

usage: wat2coq.py /repo/runtime/abi/library.wat > theories/GuestLib.v

Purely syntactic: local names become indexes (kept as comments), label names become depths."""
import re, sys

src = open(sys.argv[1]).read()

def tokens(s):
    line = 1
    for m in re.finditer(r';;[^\n]*|\n|"[^"]*"|[()]|[^\s()"]+|[ \t]+', s):
        t = m.group()
        if t == '\n': line += 1
        elif t[0] in ' \t' or t.startswith(';;'): pass
        else: yield t, line

def parse(it):
    for t, n in it:
        if t == '(':
            l = list(parse(it)); yield (n, l)
        elif t == ')': return
        else: yield t

def L(x): return x[1] if isinstance(x, tuple) else None

mod = L(list(parse(tokens(src)))[0])
RT = dict(debug='RtDebug', nop='RtNop', poll='RtPoll', random='RtRandom', read='RtRead', stop='RtStop', time='RtTime', write='RtWrite')
imports = {}
BIN = {'i32.add':'Add32','i32.sub':'Sub32','i32.and':'And32','i32.or':'Or32','i32.eq':'Eq32','i32.ne':'Ne32',
       'i32.lt_u':'LtU32','i32.ge_u':'GeU32','i32.ge_s':'GeS32','i64.and':'And64','i64.eq':'Eq64','i64.ne':'Ne64'}
LOAD = {'i32.load':4,'i32.load8_u':1,'i64.load':8}
STORE = {'i32.store':4,'i32.store8':1,'i32.store16':2,'i64.store':8}

def num(s): return str(int(s, 0))

class F:
    def __init__(self): self.names = {}; self.n = 0
    def add(self, items):
        k = 0
        if items and items[0].startswith('$'):
            self.names[items[0]] = self.n; self.n += 1; k = 1
        else:
            for _ in items: self.n += 1; k += 1
        return k
    def loc(self, x): return '%d (* %s *)' % (self.names[x], x[1:])

def tr(f, e, labels):
    x = L(e); op = x[0]; a = x[1:]
    r = lambda y: tr(f, y, labels)
    if op in ('i32.const', 'i64.const'): return '(Const %s)' % num(a[0])
    if op == 'get_local': return '(Get %s)' % f.loc(a[0])
    if op == 'set_local': return '(Set_ %s %s)' % (f.loc(a[0]), r(a[1]))
    if op in BIN: return '(Bin %s %s %s)' % (BIN[op], r(a[0]), r(a[1]))
    if op == 'i32.eqz': return '(Eqz %s)' % r(a[0])
    if op == 'i32.wrap/i64': return '(Wrap %s)' % r(a[0])
    if op in LOAD or op in STORE:
        off = '0'
        if isinstance(a[0], str) and a[0].startswith('offset='): off = a[0][7:]; a = a[1:]
        if op in LOAD: return '(Load %d %s %s)' % (LOAD[op], off, r(a[0]))
        return '(Store %d %s %s %s)' % (STORE[op], off, r(a[0]), r(a[1]))
    if op == 'call':
        args = [r(y) for y in a[1:]]
        return '(Call%d %s%s)' % (len(args), imports[a[0]], ''.join(' ' + y for y in args))
    if op in ('block', 'loop'):
        lab = None
        if a and isinstance(a[0], str): lab = a[0]; a = a[1:]
        return '(%s [%s])' % (op.capitalize(), ';\n  '.join(tr(f, y, [lab] + labels) for y in a))
    if op == 'if':
        if L(a[0]) and L(a[0])[0] == 'result': a = a[1:]
        c, rest = a[0], a[1:]
        lab = [None] + labels
        t, el = [], []
        if L(rest[0])[0] == 'then':
            t = [tr(f, y, lab) for y in L(rest[0])[1:]]
            if len(rest) > 1:
                assert L(rest[1])[0] == 'else'
                el = [tr(f, y, lab) for y in L(rest[1])[1:]]
        else:
            t = [tr(f, rest[0], lab)]
            if len(rest) > 1: el = [tr(f, rest[1], lab)]
            assert len(rest) <= 2
        return '(If %s [%s] [%s])' % (r(c), ';\n  '.join(t), ';\n  '.join(el))
    def depth(x): return str(labels.index(x)) if x.startswith('$') else x
    if op == 'br': return '(Br %s)' % depth(a[0])
    if op == 'br_if': return '(BrIf %s %s)' % (depth(a[0]), r(a[1]))
    if op == 'return': return '(Return %s)' % r(a[0])
    if op == 'drop': return '(Drop %s)' % r(a[0])
    raise Exception(op)

print('''(* GuestLib.v: the functions of runtime/abi/library.wat as terms of Wasm.v.
   Generated by tools/wat2coq.py from the file; not edited by hand. *)
From Verif Require Export Wasm.
''')
for d in mod[1:]:
    x = L(d)
    if x[0] == 'import':
        imports[L(x[3])[1]] = RT[x[2].strip('"')]
    elif x[0] == 'func':
        name = L(x[1])[1].strip('"')
        f = F(); np = 0; body = []; nl = 0; sig = []
        for y in x[2:]:
            h = L(y)[0]
            if h == 'param': n = f.add(L(y)[1:]); np += n
            elif h == 'local': nl += f.add(L(y)[1:])
            elif h == 'result': pass
            else: body.append(y)
        end = max(n for n in [d[0]])
        print('(* library.wat:%d *)' % d[0])
        print('Definition lib_%s : func := Func %d %d\n  [%s].\n' % (name, np, nl, ';\n  '.join(tr(f, y, []) for y in body)))
