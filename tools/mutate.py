#!/usr/bin/env python3
"""Mutation tests of the model.

Each mutant in seeded/mutants.py is (id, file, old text, new text, claims it breaks, description).
The text is replaced in a scratch copy of rocq/, and everything that depends on the file is
compiled again. A lemma whose proof breaks is admitted in the scratch copy and compilation goes on,
so that Print Assumptions finally tells which property theorems rest on a broken lemma.

First only the files needed for the named claims are compiled; if no theorem fails, all the others.
ROCQ (environment) is a built copy of rocq/, by default /verif/rocq itself.

usage: mutate.py WORKDIR OUTPUT.jsonl ID...
"""
import json, os, re, shutil, subprocess, sys, time
ROCQ = os.environ.get('ROCQ', '/verif/rocq')
HEAD = re.compile(r'^\s*(?:#\[[^\]]*\]\s*)?(?:Local\s+|Global\s+)?(Lemma|Theorem|Example|Corollary|Fact|Remark|Definition|Fixpoint|Inductive|Record|Instance|Ltac|Notation)\s+([\w\']+)', re.M)

def deps(theories):
    out = subprocess.run(['coqdep', '-Q', '.', 'Verif'] + sorted(f for f in os.listdir(theories) if f.endswith('.v')),
                         cwd=theories, capture_output=True, text=True).stdout
    d = {}
    for line in out.splitlines():
        m = re.match(r'(\S+)\.vo\b[^:]*: (.*)', line)
        if m:
            d[m.group(1)] = [x[:-3] for x in m.group(2).split() if x.endswith('.vo')]
    return d

def order(d):
    seen, res = set(), []
    def go(x):
        if x in seen: return
        seen.add(x)
        for y in d[x]: go(y)
        res.append(x)
    for x in sorted(d): go(x)
    return res

def enclosing(text, pos):
    best = None
    for m in HEAD.finditer(text):
        if m.group(1) == 'Ltac' and m.group(0)[0].isspace() and m.group(0).lstrip('\n') != m.group(0).strip(): continue
        if m.start() <= pos: best = m
        else: break
    return best

def admit(text, m):
    """Admit the statement at m; None if it has no proof script."""
    nxt = HEAD.search(text, m.end())
    while nxt and nxt.group(1) in ('Ltac', 'Notation'): nxt = HEAD.search(text, nxt.end())
    end = nxt.start() if nxt else len(text)
    p = re.compile(r'\bProof\b[^.]*\.').search(text, m.end(), end)
    if not p: return None
    q = re.compile(r'\b(Qed|Defined)\.').search(text, p.end(), end)
    if not q: return None
    return text[:p.start()] + 'Admitted.' + text[q.end():]

def compile_file(theories, f, broken, timeout=400):
    path = os.path.join(theories, f + '.v')
    for _ in range(80):
        try:
            r = subprocess.run(['coqc', '-Q', '.', 'Verif', f + '.v'], cwd=theories, capture_output=True, text=True, timeout=timeout)
        except subprocess.TimeoutExpired:
            try:
                r = subprocess.run(['coqc', '-time', '-Q', '.', 'Verif', f + '.v'], cwd=theories, capture_output=True, text=True, timeout=timeout)
            except subprocess.TimeoutExpired as e:
                out = (e.stdout or b'').decode(errors='replace')
                ends = re.findall(r'^Chars \d+ - (\d+)', out, re.M)
                text = open(path).read()
                off = int(ends[-1]) + 1 if ends else 0
                pos = len(text.encode()[:off].decode(errors='replace'))
                m = enclosing(text, pos)
                new = admit(text, m) if m else None
                broken.append(f + '.' + (m.group(2) if m else '?'))
                if not new: return None
                open(path, 'w').write(new)
                continue
        if r.returncode == 0: return r.stdout
        m = re.search(r'File "[^"]*", line (\d+), characters (\d+)-(\d+):\s*\nError', r.stderr + r.stdout)
        if not m: return None
        text = open(path).read()
        lines = text.split('\n')
        pos = sum(len(l) + 1 for l in lines[:int(m.group(1)) - 1]) + int(m.group(2))
        h = enclosing(text, pos)
        if not h: return None
        new = admit(text, h)
        if not new:     # the error is in a tactic defined with Ltac: find the proof that runs it
            r = subprocess.run(['coqc', '-time', '-Q', '.', 'Verif', f + '.v'], cwd=theories, capture_output=True, text=True, timeout=timeout)
            ends = re.findall(r'^Chars \d+ - (\d+)', r.stdout, re.M)
            off = int(ends[-1]) + 1 if ends else 0
            h = enclosing(text, len(text.encode()[:off].decode(errors='replace')))
            new = admit(text, h) if h else None
        broken.append(f + '.' + h.group(2))
        if not new: return None
        open(path, 'w').write(new)
    return None

def run(work, mutant):
    mid, file, old, new, claims, what = mutant
    if os.path.exists(work): shutil.rmtree(work)
    shutil.copytree(ROCQ, work, symlinks=True)
    theories = os.path.join(work, 'theories')
    p = os.path.join(theories, file + '.v')
    text = open(p).read()
    if text.count(old) != 1:
        return {'id': mid, 'error': 'pattern occurs %d times' % text.count(old)}
    open(p, 'w').write(text.replace(old, new))
    d = deps(theories)
    wanted = set(d)
    if claims:      # only what the theorems about these claims need
        goals = [f for f in d if f.startswith('P_') and any(re.search(r'^Theorem %s_' % c, open(os.path.join(theories, f + '.v')).read(), re.M) for c in claims.split())]
        wanted = set()
        def need(x):
            if x not in wanted:
                wanted.add(x)
                for y in d[x]: need(y)
        for g in goals: need(g)
    dirty, broken, dead, failed, done = {file}, [], set(), [], set()
    t0 = time.time()
    def compile_all(wanted):
        for f in order(d):
            if f not in wanted or f in done: continue
            if f != file and not any(x in dirty for x in d[f]): continue
            dirty.add(f)
            done.add(f)
            if any(x in dead for x in d[f]):
                dead.add(f)
                continue
            out = compile_file(theories, f, broken)
            if out is None:
                dead.add(f)
                continue
            if f.startswith('P_'):
                names = re.findall(r'^Print Assumptions ([\w\']+)\.', open(os.path.join(theories, f + '.v')).read(), re.M)
                blocks = re.findall(r'^(Closed under the global context|Axioms:)', out, re.M)
                if len(names) != len(blocks):
                    failed.append('%s: %d names, %d results' % (f, len(names), len(blocks)))
                failed.extend(n for n, b in zip(names, blocks) if b == 'Axioms:')
    compile_all(wanted)
    if not failed and not dead: compile_all(set(d))
    r = {'id': mid, 'file': file, 'broken': broken, 'failed': failed, 'not_compiled': sorted(dead), 'seconds': round(time.time() - t0),
         'edit': '%s  ->  %s' % (old, new), 'claims': claims, 'what': what}
    if file in dead: r['error'] = 'the mutant itself does not compile'
    return r

if __name__ == '__main__':
    sys.path.insert(0, '/verif/seeded')
    from mutants import MUTANTS
    work, out, ids = sys.argv[1], sys.argv[2], sys.argv[3:]
    todo = [m for m in MUTANTS if m[0] in ids or any(m[0].startswith(i) for i in ids)]
    done = set()
    if os.path.exists(out): done = {json.loads(l)['id'] for l in open(out)}
    for m in todo:
        if m[0] in done: continue
        r = run(work, m)
        with open(out, 'a') as f: f.write(json.dumps(r) + '\n')
        print(m[0], 'failed' if r.get('failed') else 'dead' if r.get('not_compiled') else 'SURVIVED', len(r.get('failed', [])), r.get('error', ''), flush=True)
