#!/usr/bin/env python3
"""Seed one bug into a scratch copy of the model and find out which property
theorems no longer hold.

usage: mutate.py SPEC.json [scratch-dir [workers]]

SPEC.json: list of {"file", "definition", "old", "new", "edit", "claim"}, each
with an optional "only": the files whose theorems are looked at.
In the scratch copy a lemma whose proof breaks is admitted and the build goes
on, so that Print Assumptions tells which property theorems depend on a
broken proof.  One JSON object per attempt is printed.
"""
import json, multiprocessing, os, re, shutil, subprocess, sys

SRC = os.environ.get('MUTATE_SRC', '/verif/rocq')
START = re.compile(r'^(Lemma|Theorem|Example|Corollary|Fact|Remark)\s+(\w+)', re.M)

def order():
    """The files of _CoqProject, each after those it requires."""
    files = [l.strip() for l in open(SRC + '/_CoqProject') if l.startswith('theories/')]
    names = {os.path.basename(f)[:-2]: f for f in files}
    done = []
    def visit(f):
        if f not in done:
            for r in sorted(requires(SRC + '/' + f) & set(names)):
                visit(names[r])
            done.append(f)
    for f in files:
        visit(f)
    return done

def requires(path):
    t = open(path).read()
    out = set()
    for m in re.finditer(r'From Verif Require (?:Import |Export )?([\w\s]+)\.', t):
        out |= set(m.group(1).split())
    return out

def affected(files, changed):
    bad = {changed}
    res = []
    for f in files:
        n = os.path.basename(f)[:-2]
        if n in bad or requires(SRC + '/' + f) & bad:
            bad.add(n)
            res.append(f)
    return res

def needed(names):
    """The given files and those they require."""
    res = set()
    todo = list(names)
    while todo:
        n = todo.pop()
        if n not in res and os.path.exists(SRC + '/theories/' + n + '.v'):
            res.add(n)
            todo += requires(SRC + '/theories/' + n + '.v')
    return res

def admit(text, m):
    p = text.index('Proof.', m.start())
    q = re.compile(r'\b(Qed|Defined|Admitted)\.').search(text, p)
    return text[:p] + 'Proof. Admitted.' + text[q.end():]

def run(work, f, limit):
    try:
        p = subprocess.run(['timeout', str(limit), 'coqc', '-time', '-Q', 'theories', 'Verif', f],
                           cwd=work, capture_output=True, text=True)
    except Exception as e:
        return 1, str(e)
    return p.returncode, p.stdout + p.stderr

def broken_proofs(work, f, limit):
    """Names of all lemmas of f whose proof fails: run the file through the
    toplevel, which goes on after an error, with an Admitted after each Qed."""
    t = open(work + '/' + f).read()
    t = re.sub(r'\b(Qed|Defined)\.', r'\1. Admitted.', t)
    t = 'Set Default Timeout %d.\n' % limit + t + '\nQuit.\n'
    p = subprocess.run(['timeout', '1200', 'coqtop', '-q', '-Q', 'theories', 'Verif'],
                       cwd=work, input=t, capture_output=True, text=True)
    return re.findall(r'^(\w+) is declared$', p.stdout + p.stderr, re.M)

def at_error(full, out):
    """The lemma in which coqc stopped: the toplevel may go on after a failed
    tactic and still finish the proof."""
    m = re.search(r'^File "[^"]*", line (\d+), characters', out, re.M)
    if not m:
        return []
    t = open(full).read()
    pos = sum(len(l) + 1 for l in t.split('\n')[:int(m.group(1))])
    last = [e.group(2) for e in START.finditer(t) if e.start() < pos]
    return last[-1:]

def one(spec, work):
    if os.path.exists(work):
        shutil.rmtree(work)
    shutil.copytree(SRC, work)
    path = work + '/theories/' + spec['file']
    t = open(path).read()
    assert t.count(spec['old']) == 1, ('not unique', spec['file'], spec['old'], t.count(spec['old']))
    open(path, 'w').write(t.replace(spec['old'], spec['new']))
    broken, failed, notes = [], [], []
    files = affected(order(), spec['file'][:-2])
    if 'only' in spec:
        wanted = needed(spec['only'])
        files = [f for f in files if os.path.basename(f)[:-2] in wanted]
    for f in files:
        full = work + '/' + f
        if os.path.basename(f).startswith('Prop'):
            t = open(full).read()
            names = re.findall(r'^Theorem (C\d\d\w*)', t, re.M)
            t = re.sub(r'^Print Assumptions \w+\.\n', '', t, flags=re.M)
            t += ''.join('\nCheck %s.\nPrint Assumptions %s.' % (n, n) for n in names) + '\n'
            open(full, 'w').write(t)
        while True:
            rc, out = run(work, f, 600)
            if rc == 0:
                break
            names = [n for n in broken_proofs(work, f, spec.get('limit', 60)) if n not in broken]
            if not names:
                names = [n for n in at_error(full, out) if n not in broken]
            if not names:
                notes.append('%s: %s' % (f, out[-300:]))
                return broken, failed, notes
            decl = {m.group(2) for m in START.finditer(open(full).read())}
            names = [n for n in names if n in decl] or [n for n in at_error(full, out) if n not in broken]
            if not names:
                notes.append('%s: %s' % (f, out[-300:]))
                return broken, failed, notes
            for n in names:
                t = open(full).read()
                e = [m for m in START.finditer(t) if m.group(2) == n][0]
                open(full, 'w').write(admit(t, e))
            broken += names
        if os.path.basename(f).startswith('Prop'):
            cur = None
            for line in out.split('\n'):
                m = re.match(r'^(C\d\d\w*)$', line.strip()) or re.match(r'^(C\d\d\w*)\s*:?', line) if line.startswith('C') and not line.startswith('Chars') and not line.startswith('Closed') else None
                if m:
                    cur = m.group(1)
                elif line.startswith('Axioms:') and cur:
                    failed.append(cur)
    return broken, failed, notes

def attempt(job):
    s, work = job
    work = work + '.' + str(os.getpid())
    try:
        broken, failed, notes = one(s, work)
    except AssertionError as e:
        broken, failed, notes = [], [], [str(e)]
    r = {'definition': s['definition'], 'edit': s['edit'], 'claim': s['claim'],
         'failed': failed, 'broken_lemmas': broken[:8], 'tightened': []}
    if notes:
        r['notes'] = notes
    print(json.dumps(r), flush=True)

def main():
    specs = json.load(open(sys.argv[1]))
    work = sys.argv[2] if len(sys.argv) > 2 else '/tmp/mut'
    workers = int(sys.argv[3]) if len(sys.argv) > 3 else 1
    with multiprocessing.Pool(workers) as pool:
        for _ in pool.imap_unordered(attempt, [(s, work) for s in specs]):
            pass

main()
