#!/usr/bin/env python3
"""Print the Kconfig tables of /repo as Gallina lists (parsing the sources as text)."""
import ast, sys

SRC = '/repo/src/systrack/'
CONST = {'VERSION_ZERO': (2, 6, 12), 'VERSION_INF': (9999999999,)}

def val(n):
    if isinstance(n, ast.Name):
        return CONST[n.id]
    return ast.literal_eval(n)

def ver(v):
    if v == CONST['VERSION_ZERO']: return 'VERSION_ZERO'
    if v == CONST['VERSION_INF']: return 'VERSION_INF'
    return '[' + ';'.join(map(str, v)) + ']'

def s(x): return '$"' + x + '"'
def strs(l): return '[' + '; '.join(map(s, l)) + ']'

def table(elts, kind):
    out = []
    for e in elts:
        v = [val(x) for x in (e.elts if isinstance(e, ast.Tuple) else e)]
        if kind == 'dict':
            third = strs(v[3]) if isinstance(v[3], list) else s(v[3])
            out.append(f'({ver(v[0])}, {ver(v[1])}, {s(v[2])}, {third})')
        else:
            out.append(f'({ver(v[0])}, {ver(v[1])}, {strs(v[2])})')
    return '  [ ' + ';\n    '.join(out) + ' ].'

def tables(path, prefix):
    tree = ast.parse(open(SRC + path).read())
    for n in ast.walk(tree):
        if isinstance(n, ast.Assign) and isinstance(n.value, ast.Call) \
                and getattr(n.value.func, 'id', '') in ('VersionedDict', 'VersionedList') and n.value.args:
            kind = 'dict' if n.value.func.id == 'VersionedDict' else 'list'
            elts = n.value.args[0].elts
            t = 'list str' if kind == 'list' else ('str * list str' if isinstance(elts[0].elts[3], ast.List) else 'str * str')
            print(f'(** {path} {n.lineno}-{n.end_lineno} *)')
            print(f'Definition {prefix}{n.targets[0].id.lower()} : list (version * version * {t}) :=')
            print(table(elts, kind))
    def adds(body, cond):
        es = []
        for st in body:
            if isinstance(st, ast.Expr):
                c = st.value.elts[0] if isinstance(st.value, ast.Tuple) else st.value
                if isinstance(c, ast.Call) and getattr(c.func, 'attr', '') == 'add':
                    es.append((c, c.args))
        if es:
            print(f'(** {path} {es[0][0].lineno}-{es[-1][0].end_lineno}: {cond} *)')
            print(f'Definition {prefix}adds_{es[0][0].lineno} : list (version * version * str * list str) :=')
            print(table([a for _, a in es], 'dict'))
        for st in body:
            if isinstance(st, ast.If):
                adds(st.body, 'if ' + ast.unparse(st.test))
                adds(st.orelse, 'else of ' + ast.unparse(st.test))
    for n in ast.walk(tree):
        if isinstance(n, ast.FunctionDef) and n.name == '__init__':
            adds(n.body, 'always')

print("""(** Kconfig tables of /repo/src/systrack, transcribed by tools/gen_kconfig_tables.py *)
From Coq Require Import List Bool Ascii String ZArith.
From Verif Require Import PyBase.
Import ListNotations.
Open Scope Z_scope.
Open Scope list_scope.

(** kconfig_options.py 23-24 *)
Definition VERSION_ZERO : version := [2;6;12].
Definition VERSION_INF : version := [9999999999].
""")
for p, x in [('kconfig_options.py', 'tbl_'), ('arch/arm.py', 'arm_'), ('arch/arm64.py', 'arm64_'), ('arch/mips.py', 'mips_'),
             ('arch/powerpc.py', 'ppc_'), ('arch/riscv.py', 'riscv_'), ('arch/x86.py', 'x86_')]:
    tables(p, x)
    print()
