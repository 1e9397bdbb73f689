#!/usr/bin/env python3
"""Systematic small edits of the model: which ones does no proof notice?

usage: automutate.py SCRATCH WORKERS SEED COUNT [file ...]

Every comparison, connective, boolean, negation, literal, sum and difference in
a definition of a model file is a place for one edit. COUNT places are drawn
at random, spread over the definitions. The scratch copy is compiled up to the
first failing proof. One JSON object per edit is printed: "killed" names the
file and the lemma; "invalid" means that the model itself no longer compiles;
"survived" that everything still compiles.
"""
import json, multiprocessing, os, random, re, shutil, subprocess, sys

SRC = os.environ.get('MUTATE_SRC', '/verif/rocq')
MODEL = ['Base', 'Addr', 'Socket', 'Range', 'Inet', 'AddrText', 'Parser', 'Unix', 'Route', 'Iface', 'IfaceCache',
         'Ostream', 'OstreamIndex', 'Validator', 'NameInfo', 'TableTools', 'ValidateTool']
START = re.compile(r'^(Lemma|Theorem|Example|Corollary|Fact|Remark)\s+(\w+)', re.M)
DEF = re.compile(r'^(Definition|Fixpoint|Inductive|Record|Notation|Section|Variables?|Hypothes[ie]s|End|Local|Lemma|From|Import|Arguments|Set|with)\b\s*(\w*)', re.M)
EDITS = [(r'(?<=\s)<\?(?=\s)', '<=?'), (r'(?<=\s)<=\?(?=\s)', '<?'), (r'(?<=\s)>\?(?=\s)', '>=?'), (r'(?<=\s)>=\?(?=\s)', '>?'),
         (r'(?<=\s)=\?(?=\s)', '<=?'), (r'&&', '||'), (r'\|\|', '&&'), (r'\btrue\b', 'false'), (r'\bfalse\b', 'true'),
         (r'\bnegb\b', 'id'), (r'(?<= )\+(?= )', '-'), (r'(?<= )-(?= )', '+'), (r'(?<![\w.])\d+(?![\w.])', None)]

def order():
    """The files of _CoqProject, each after those it requires."""
    files = [l.strip() for l in open(SRC + '/_CoqProject') if l.startswith('theories/')]
    names = {os.path.basename(f)[:-2]: f for f in files}
    done = []
    def visit(f):
        if f not in done:
            for r in sorted(requires(SRC + '/' + f) & set(names)):
                visit(names[r])
            done.append(f)
    for f in files:
        visit(f)
    return done

def requires(path):
    out = set()
    for m in re.finditer(r'From Verif Require (?:Import |Export )?([\w\s]+)\.', open(path).read()):
        out |= set(m.group(1).split())
    return out

def affected(changed):
    bad, res = {changed}, []
    for f in order():
        n = os.path.basename(f)[:-2]
        if n in bad or requires(SRC + '/' + f) & bad:
            bad.add(n)
            res.append(f)
    return res

def blank_comments(t):
    out, depth, i, quoted = list(t), 0, 0, False
    while i < len(t):
        if not quoted and t.startswith('(*', i):
            depth += 1; out[i] = out[i + 1] = ' '; i += 2; continue
        if not quoted and depth and t.startswith('*)', i):
            depth -= 1; out[i] = out[i + 1] = ' '; i += 2; continue
        if t[i] == '"' and not depth:
            quoted = not quoted; i += 1; continue
        if (depth or quoted) and t[i] != '\n':
            out[i] = ' '
        i += 1
    return ''.join(out)

def places(name):
    t = blank_comments(open('%s/theories/%s.v' % (SRC, name)).read())
    defs = [(m.start(), m.group(1), m.group(2)) for m in DEF.finditer(t)]
    res = []
    for rx, new in EDITS:
        for m in re.finditer(rx, t):
            own = [d for d in defs if d[0] <= m.start()]
            if not own or own[-1][1] not in ('Definition', 'Fixpoint', 'with'):
                continue
            rep = new if new is not None else str(int(m.group(0)) + 1)
            res.append({'file': name, 'definition': own[-1][2], 'at': m.start(), 'end': m.end(),
                        'line': t.count('\n', 0, m.start()) + 1, 'old': m.group(0), 'new': rep})
    return res

def draw(files, seed, count):
    rnd = random.Random(seed)
    by = {}
    for f in files:
        for p in places(f):
            by.setdefault((f, p['definition']), []).append(p)
    for v in by.values():
        rnd.shuffle(v)
    out = []
    while len(out) < count and by:
        keys = list(by)
        rnd.shuffle(keys)
        for k in keys:
            out.append(by[k].pop())
            if not by[k]:
                del by[k]
    return out[:count]

def attempt(job):
    s, work = job
    work = work + '.' + str(os.getpid())
    if not os.path.exists(work):
        shutil.copytree(SRC, work)
    path = '%s/theories/%s.v' % (work, s['file'])
    orig = open(path).read()
    t = orig[:s['at']] + s['new'] + orig[s['end']:]
    open(path, 'w').write(t)
    s['text'] = t[t.rfind('\n', 0, s['at']) + 1:t.find('\n', s['at'])].strip()
    done, verdict = [], 'survived'
    for f in affected(s['file']):
        done.append(f)
        p = subprocess.run(['timeout', '300', 'coqc', '-q', '-w', 'none', '-Q', 'theories', 'Verif', f],
                           cwd=work, capture_output=True, text=True)
        if p.returncode == 0:
            continue
        m = re.search(r'^File "[^"]*", line (\d+), characters', p.stderr, re.M)
        base = os.path.basename(f)[:-2]
        if p.returncode == 124:
            verdict = 'killed'; s['by'] = base + ' (time)'
        elif not m:
            verdict = 'unknown'; s['by'] = p.stderr[-200:]
        else:
            src = open(work + '/' + f).read()
            pos = sum(len(l) + 1 for l in src.split('\n')[:int(m.group(1))])
            last = [e for e in START.finditer(src) if e.start() < pos]
            verdict = 'invalid' if base in MODEL else 'killed'
            s['by'] = '%s.%s' % (base, last[-1].group(2) if last else '?')
        break
    open(path, 'w').write(orig)
    for f in done:
        for ext in ('.vo', '.vok', '.vos', '.glob'):
            a, b = SRC + '/' + f[:-2] + ext, work + '/' + f[:-2] + ext
            if os.path.exists(a):
                shutil.copy2(a, b)
    s['verdict'] = verdict
    for k in ('at', 'end'):
        del s[k]
    print(json.dumps(s), flush=True)

def main():
    work, workers, seed, count = sys.argv[1], int(sys.argv[2]), int(sys.argv[3]), int(sys.argv[4])
    jobs = draw(sys.argv[5:] or MODEL, seed, count)
    with multiprocessing.Pool(workers) as pool:
        for _ in pool.imap_unordered(attempt, [(s, work) for s in jobs]):
            pass

main()
