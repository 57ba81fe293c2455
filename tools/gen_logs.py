#!/usr/bin/env python3
"""Write the table of all logging calls of /repo/src/systrack as a Coq list.

The source is only parsed, not run.  The kind of each argument is given here, by hand, by what is
passed: int, obj (anything with a text: strings, paths, symbols, instructions), optint."""
import ast, glob, os
R = '/repo/src/systrack'
LEVELS = {'debug': 'Debug', 'info': 'Info', 'warn': 'Warning', 'warning': 'Warning', 'error': 'Error',
          'critical': 'Critical'}
INT = {'iteration', 'sym.real_vaddr', 'n_skipped', 'sym.size', 'vaddr', 'insn.ip', 'len(numbers)', 'ip', 'nr',
       'vaddrs[nr]', 'ei_data', 'tbl.size', 'tbl.size // self.__long_size', 'cur_idx_vaddr - tbl.vaddr',
       'len(vaddrs)', 'a', 'b', 'n', 'n_esoteric', 'idx', 'counts[0][1]', 'line', 'desc_vaddr', 'i + 1', 'offset',
       'sc.symbol.size - 1', 'sc.line', 'child.returncode'}
OBJ = {'VERSION', 'command_argv_to_string(sys.argv[1:])', 'sc.name', 'sc.symbol.name', 'code.hex()', 'ni_sym.name',
       "'s'[:iteration ^ 1]", 'sym.name', "'s'[:n_skipped ^ 1]", 'skipped', 'func_name', 'insn', 'func.name', 'magic',
       'tbl', 'self.arch', "', '.join(self.arch.config_targets)", 'tbl.name', 'self.arch.syscall_table_name', 'sym',
       'other', 'self.arch_name', "', '.join(prefixes)", "'s'[:n_esoteric ^ 1]",
       "', '.join(map(itemgetter(1), esoteric))", 'target_section.name', 'best.name', 'self.__rel(file)', 'file',
       'sc.origname', 'rel(file)', 'sc.file', 'command_argv_to_string(cmd)', 'cmd', 'err', 'cwd'}
# arguments whose kinds depend on the place, and starred ones
PLACE = {('kernel.py', 547, 'line'): ['optint'], ('kernel.py', 577, '*info'): ['obj'] * 5,
         ('kernel.py', 580, '*info'): ['obj'] * 2, ('kernel.py', 583, '*info'): ['obj'] * 2}
for l in (279, 283, 344, 349, 405): PLACE['location.py', l, '*loc'] = ['obj', 'optint']
COQ = {'int': 'KInt', 'obj': 'KObj', 'optint': 'KOptInt'}

def lit(s): return '$"' + s.replace('"', '""') + '"'

rows = []
for p in sorted(glob.glob(R + '/*.py') + glob.glob(R + '/arch/*.py')):
    f = os.path.relpath(p, R)
    for n in ast.walk(ast.parse(open(p).read())):
        if not (isinstance(n, ast.Call) and isinstance(n.func, ast.Attribute) and isinstance(n.func.value, ast.Name)
                and n.func.value.id == 'logging' and n.func.attr in LEVELS):
            continue
        fmt = n.args[0]
        assert not n.keywords
        if isinstance(fmt, ast.JoinedStr) or not isinstance(fmt, ast.Constant):
            # the text is made before logging sees it; without arguments it is not a format
            assert len(n.args) == 1, (f, n.lineno)
            print('no format:', f, n.lineno, ast.unparse(fmt))
            continue
        kinds, names = [], []
        for a in n.args[1:]:
            e = ast.unparse(a)
            k = PLACE.get((f, n.lineno, e)) or (['int'] if e in INT else ['obj'] if e in OBJ else None)
            assert k, (f, n.lineno, e)
            kinds += k
            names.append(e)
        rows.append((f, n.lineno, LEVELS[n.func.attr], fmt.value, kinds, names))
rows.sort(key=lambda r: (r[0], r[1]))
with open('/verif/rocq/theories/M_LogTable.v', 'w') as o:
    o.write('''(** Every call of the logging module in /repo/src/systrack that has a literal message, with the kinds of
    its arguments; written by tools/gen_logs.py.  The kinds are the result of reading the callers. *)
From Coq Require Import List Bool Ascii String ZArith.
From Verif Require Import PyBase M_Log.
Import ListNotations.
Open Scope Z_scope.
Open Scope list_scope.
Open Scope string_scope.

Definition calls : list call := [
''')
    o.write(';\n'.join('  (* %s *)\n  Call %s %d %s %s [%s]' % (', '.join(x.replace('"', "''").replace("'", '`') for x in nm) or 'no arguments', lit(f), l, lv, lit(s), '; '.join(COQ[k] for k in ks))
                       for f, l, lv, s, ks, nm in rows))
    o.write('\n].\n')
print(len(rows), 'calls')
