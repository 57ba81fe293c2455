#!/usr/bin/env python3
"""Transcribe SUPPORTED_ARCHS_HELP (arch/__init__.py 79-118) into rocq/theories/M_HelpText.v.
The Python file is read as text."""
lines = open('/repo/src/systrack/arch/__init__.py').read().split('\n')
start = next(i for i, l in enumerate(lines) if l.startswith("SUPPORTED_ARCHS_HELP = '''"))
end = next(i for i in range(start + 1, len(lines)) if lines[i] == "'''")
body = lines[start + 1:end]
assert all('\\' not in l for l in body)
out = ['(** Generated by tools/gen_help.py from /repo/src/systrack/arch/__init__.py %d-%d. *)' % (start + 1, end + 1),
       'From Coq Require Import List Ascii String.',
       'From Verif Require Import PyBase.',
       'Import ListNotations.',
       'Open Scope string_scope.',
       'Open Scope list_scope.',
       '',
       '(** The lines of the text; each is followed by a line end. *)',
       'Definition help_lines : list str :=',
       '  [ ' + ';\n    '.join('$"%s"' % l.replace('"', '""') for l in body) + ' ].']
open('/verif/rocq/theories/M_HelpText.v', 'w').write('\n'.join(out) + '\n')
