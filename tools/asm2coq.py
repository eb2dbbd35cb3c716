#!/usr/bin/env python3
"""Translate runtime/loader/x86_64/runtime.S to Coq terms of theories/Asm.v.

usage: asm2coq.py /repo/runtime > theories/RuntimeAsm.v

Syntactic: macros are expanded, constants evaluated, labels become instruction indexes; the parts conditional on
Android are left out; the system call filter (data, included from seccomp.S) is replaced by an Int3."""
import re, sys
base = sys.argv[1]

# Constants: this project's headers, and the kernel's (x86-64)
const = dict(SYS_munmap=11, SYS_seccomp=317, SYS_mprotect=10, SYS_rt_sigreturn=15, SYS_ppoll=271, SYS_read=0, SYS_write=1,
             SYS_exit_group=231, SECCOMP_SET_MODE_FILTER=1, EAGAIN=11, EINTR=4, SIGSEGV=11, PROT_READ=1, PROT_WRITE=2,
             GATE_LOADER_ADDR=0x200000000, seccomp_filter_len=16)
for f in ['include/errors.h', 'include/runtime.h', 'loader/poll.S']:
    for m in re.finditer(r'^#define (\w+)\s+(.+?)\s*(?://.*)?$', open(f'{base}/{f}').read(), re.M):
        if m.group(1) in ('str', 'xstr'): continue
        const.setdefault(m.group(1), m.group(2))
path = f'{base}/loader/x86_64/runtime.S'
lines = open(path).read().split('\n')
for l in lines:
    m = re.match(r'#define (\w+)\s+(\S+)', l)
    if m: const[m.group(1)] = m.group(2)

def ev(e):
    e = e.strip()
    for _ in range(10):
        e2 = re.sub(r'\b([A-Za-z_]\w*)\b', lambda m: f"({const[m.group(1)]})" if m.group(1) in const else m.group(0), e)
        if e2 == e: break
        e = e2
    e = re.sub(r'(\d+|0x[0-9a-f]+)(LL|ULL)\b', r'\1', e)
    return eval(e)

# Macros
macros = {}; body = []; cur = None; skip = []
for n, l in enumerate(lines, 1):
    l = re.sub(r'\s*//.*', '', l).strip()
    if l.startswith('#ifdef __ANDROID__'): skip.append(True); continue
    if l.startswith('#else'): skip[-1] = not skip[-1]; continue
    if l.startswith('#endif'): skip.pop(); continue
    if any(skip) or not l: continue
    if l.startswith('#include "../seccomp.S"'): body.append((n, 'seccomp')); continue
    if l.startswith('#'): continue
    if l.startswith('.macro'):
        p = l.split(); cur = p[1]; macros[cur] = (p[2:], []); continue
    if l == '.endm': cur = None; continue
    if cur: macros[cur][1].append((n, l)); continue
    body.append((n, l))
def expand(n, l):
    p = l.split(None, 1)
    if p[0] in macros:
        params, b = macros[p[0]]
        args = [a.strip() for a in p[1].split(',')] if len(p) > 1 else []
        for k, x in b:
            for q, a in zip(params, args): x = x.replace('\\' + q, a)
            yield from expand(n, x)
    else: yield n, l
flat = [x for n, l in body for x in expand(n, l)]

R64 = ['rax', 'rcx', 'rdx', 'rbx', 'rsp', 'rbp', 'rsi', 'rdi'] + [f'r{i}' for i in range(8, 16)]
regs = {}
for r in R64: regs[r] = (r, 8)
for r in ['ax', 'cx', 'dx', 'bx', 'sp', 'bp', 'si', 'di']: regs['e' + r] = ('r' + r, 4); regs[r] = ('r' + r, 2)
for r in 'abcd': regs[r + 'l'] = (f'r{r}x', 1)
for i in range(8, 16): regs[f'r{i}d'] = (f'r{i}', 4)

labels = {}; code = []
for n, l in flat:
    m = re.match(r'^(\.?\w+):$', l)
    if m: labels[m.group(1)] = len(code); continue
    if l == 'seccomp': labels['.Lseccomp_filter'] = len(code); code.append((n, 'int3', [])); continue
    if l.startswith('.'): continue
    p = l.split(None, 1)
    args = re.findall(r'[^,(]*\([^)]*\)|[^,]+', p[1]) if len(p) > 1 else []
    code.append((n, p[0], [a.strip().lstrip(',').strip() for a in args]))

def z(v): return f'({v})' if v < 0 else str(v)
def size(a): return regs[a[1:]][1] if a.startswith('%') else None
def opnd(a, w):
    if a.startswith('$'): return f'(I {z(ev(a[1:]) % 2 ** (8 * w))})'
    if a.startswith('%'): return f'(R {regs[a[1:]][0]})'
    m = re.match(r'^(.*)\(([^)]*)\)$', a)
    off = ev(m.group(1)) if m.group(1).strip() else 0
    rs = [x.strip()[1:] for x in m.group(2).split(',')]
    idx = f'(Some {rs[1]})' if len(rs) > 1 else 'None'
    return f'(M {rs[0]} {idx} {z(off)})'
def lab(x): return 'L_' + x.replace('.', '')
alu = dict(add='Add', sub='Sub', xor='Xor'); alu['and'] = 'And'; alu['or'] = 'Or'
out = []
for n, op, args in code:
    suf = None
    if op in ('movl', 'orl', 'testl'): op, suf = op[:-1], 4
    if op in ('movq', 'pushq', 'popq'): op, suf = op[:-1], 8
    ws = [size(a) for a in args if size(a)]
    if op in ('shl', 'shr'): ws = [size(args[1])]
    w = suf or (ws[-1] if ws else 8)
    if op == 'mov': t = f'Mov {w} {opnd(args[0], w)} {opnd(args[1], w)}'
    elif op in alu: t = f'Alu {alu[op]} {w} {opnd(args[0], w)} {opnd(args[1], w)}'
    elif op == 'cmp': t = f'Cmp {w} {opnd(args[0], w)} {opnd(args[1], w)}'
    elif op == 'test': t = f'Test {w} {opnd(args[0], w)} {opnd(args[1], w)}'
    elif op == 'lea' and '(%rip)' in args[0]: t = f'LeaCode {lab(args[0].replace("(%rip)", ""))} {args[1][1:]}'
    elif op == 'lea': t = f'Lea {opnd(args[0], 8)} {args[1][1:]}'
    elif op == 'jmp': t = f'Jmp {lab(args[0])}'
    elif op in ('je', 'jne', 'jl', 'jg', 'jge'): t = f'Jcc {dict(je="CE", jne="CNE", jl="CL", jg="CG", jge="CGE")[op]} {lab(args[0])}'
    elif op == 'call': t = f'Call {lab(args[0])}'
    elif op == 'ret': t = 'Ret'
    elif op == 'push': t = f'Push {args[0][1:]}'
    elif op == 'pop': t = f'Pop {args[0][1:]}'
    elif op == 'xchg': t = f'Xchg {w} {regs[args[0][1:]][0]} {opnd(args[1], w)}'
    elif op == 'cmove': t = f'Cmove {w} {regs[args[0][1:]][0]} {regs[args[1][1:]][0]}'
    elif op == 'mul': t = f'Mul {args[0][1:]}'
    elif op == 'dec': t = f'Dec {w} {regs[args[0][1:]][0]}'
    elif op in ('shl', 'shr'): t = f'{op.capitalize()} {w} {ev(args[0][1:])} {regs[args[1][1:]][0]}'
    elif op == 'syscall': t = 'Syscall'
    elif op == 'int3': t = 'Int3'
    elif op == 'pause': t = 'Pause'
    else: raise Exception((n, op, args))
    out.append((n, t))
print('(* RuntimeAsm.v: runtime/loader/x86_64/runtime.S as terms of Asm.v (macros expanded; not Android).\n   Generated by tools/asm2coq.py from the file; not edited by hand. *)\nFrom Verif Require Export Asm.\n')
print('(* Indexes of labels *)')
for l, i in labels.items(): print(f'Notation {lab(l)} := {i}%nat (only parsing).')
inv = {}
for l, i in labels.items(): inv.setdefault(i, []).append(l)
print('\n(* runtime.S:71-586; the number of the line precedes each instruction *)\nDefinition runtime : list ins := [')
for i, (n, t) in enumerate(out):
    c = ' '.join(inv.get(i, []))
    print(f'  (* {n}{" " + c + ":" if c else ""} *) {t}{";" if i + 1 < len(out) else ""}')
print('].')
