#!/usr/bin/env python3
"""Write the style sheet and the script of the HTML template as Coq strings."""
T = '/repo/src/systrack/templates/'
def lit(name):
    s = open(T + name, encoding='ascii').read()
    # jinja2 drops the last line end of a template; neither file has jinja2 syntax
    assert s.endswith('\n') and not any(x in s for x in ('{{', '{%', '{#'))
    assert not any(l.strip().startswith('#') for l in s.split('\n'))
    return '$"' + s[:-1].replace('"', '""') + '"'
with open('/verif/rocq/theories/M_Templates.v', 'w') as f:
    f.write('''(** The texts that the HTML template includes; written by tools/gen_templates.py *)
From Coq Require Import List Bool Ascii String ZArith.
From Verif Require Import PyBase.
Open Scope string_scope.

(** templates/syscall_table.css, without its last line end *)
Definition css : str := ''' + lit('syscall_table.css') + '''.

(** templates/syscall_table.js, without its last line end *)
Definition js : str := ''' + lit('syscall_table.js') + '''.
''')
