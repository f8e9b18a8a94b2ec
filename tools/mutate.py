#!/usr/bin/env python3
"""Mutation test of the theorems.  mutate.py MUTANTS.json [name ...]: each mutant is
{"name","file","def","old","new","claim"}.  The edit is made in a copy of rocq/ (outside the repository).  The statements are
compiled without proofs (coqc -vos), then every file that depends on the edited one is checked (coqc -vok); a statement whose
proof breaks is replaced by Admitted and the file is checked again, until a property theorem (Cnn_*) is broken or rests on
a broken lemma, or nothing is left to check.  One JSON line per mutant: "broken" are the proofs that failed, "failed" the property theorems among
them and those resting on them."""
import json, os, re, subprocess, sys, shutil
from concurrent.futures import ThreadPoolExecutor
ROOT = os.path.dirname(os.path.dirname(os.path.abspath(__file__)))
W = os.environ.get("MUTW", "/tmp/mut/w")
J = int(os.environ.get("MUTJ", "2"))
STMT = re.compile(r'^\s*(?:Local |Global )?(Lemma|Theorem|Example|Corollary|Fact|Remark|Proposition|Ltac|Definition|Fixpoint|Inductive|Tactic Notation)\s+"?(\w+)', re.M)
PROVED = ('Lemma', 'Theorem', 'Example', 'Corollary', 'Fact', 'Remark', 'Proposition')

def files():
    return [l.strip()[9:-2] for l in open(ROOT + '/rocq/_CoqProject') if l.startswith('theories/')]
def imports(f):
    t = open(ROOT + '/rocq/theories/%s.v' % f).read()
    return set(w for m in re.finditer(r'From Verif Require (?:Import |Export )?([\w\s]*?)\.\s', t) for w in m.group(1).split())
FILES = files()
IMP = {f: imports(f) for f in FILES}
def downstream(f):
    d = {f}
    for g in FILES:
        if IMP[g] & d: d.add(g)
    return [g for g in FILES if g in d]

# name -> names used in its statement and proof
USES, KIND = {}, {}
for f in FILES:
    t = open(ROOT + '/rocq/theories/%s.v' % f).read()
    ms = list(STMT.finditer(t))
    for a, b in zip(ms, ms[1:] + [None]):
        USES.setdefault(a.group(2), set()).update(re.findall(r'\w+', t[a.end():b.start() if b else len(t)]))
        KIND.setdefault(a.group(2), a.group(1))
USES = {n: {u for u in us if u in USES and u != n and KIND[u] in PROVED + ('Ltac',)} for n, us in USES.items()}
PROPS = [n for n in USES if re.match(r'C\d{2,3}_', n) and KIND[n] == 'Theorem']
def closure(n, seen):
    for u in USES.get(n, ()):
        if u not in seen: seen.add(u); closure(u, seen)
    return seen
CLOS = {n: closure(n, {n}) for n in PROPS}
def failing(broken):
    b = set(x.split('.')[1] for x in broken)
    return [n for n in PROPS if CLOS[n] & b]

def admit(path, line, tail=''):
    t = open(path).read()
    q = re.search(r'\(in proof (\w+)\)', tail)
    if q:
        for m in STMT.finditer(t):
            if m.group(2) == q.group(1): line = t.count('\n', 0, m.start(1)) + 1
    off = 0
    for _ in range(line - 1): off = t.index('\n', off) + 1
    best = None
    for m in STMT.finditer(t):
        if m.group(1) in PROVED and t.count('\n', 0, m.start(1)) + 1 <= line: best = m
    if not best: return None
    m2 = re.compile(r'\bProof\b').search(t, best.end())
    m3 = re.compile(r'\b(Qed|Defined)\.').search(t, best.end())
    if not m2 or not m3 or m2.start() > m3.start(): return None
    if line > t.count('\n', 0, m3.end()) + 1: return None
    open(path, 'w').write(t[:m2.start()] + 'Admitted.' + '\n' * t.count('\n', m2.start(), m3.end()) + t[m3.end():])
    return best.group(2)

ERR = re.compile(r'^File "\./?theories/(\w+)\.v", line (\d+), characters [\d-]+:\n(?:Error|.*\nError)', re.M)
def coqc(mode, f):
    r = subprocess.run('timeout 900 coqc -q -w -all -Q theories Verif -set "Default Timeout=120" %s ./theories/%s.v' % (mode, f), shell=True, cwd=W,
                       stdout=subprocess.PIPE, stderr=subprocess.STDOUT, text=True)
    m = ERR.search(r.stdout)
    return f, r.returncode, int(m.group(2)) if m else None, r.stdout[-400:]

def run(mu):
    if not os.path.isdir(W):
        shutil.copytree(ROOT + '/rocq', W, copy_function=shutil.copy2)
    for f in FILES:
        s, d = ROOT + '/rocq/theories/%s.v' % f, W + '/theories/%s.v' % f
        shutil.copy2(s, d)
        for e in ('.vo', '.vos', '.vok'):
            if os.path.exists(s[:-2] + e): shutil.copy2(s[:-2] + e, d[:-2] + e)
    p = W + '/theories/' + mu['file']
    t = open(p).read()
    if t.count(mu['old']) != 1: return {'name': mu['name'], 'error': 'old text occurs %d times' % t.count(mu['old'])}
    open(p, 'w').write(t.replace(mu['old'], mu['new']))
    down = downstream(mu['file'][:-2])
    for f in down:
        for e in ('.vo', '.vos', '.vok', '.glob'):
            q = W + '/theories/' + f + e
            if os.path.exists(q): os.remove(q)
    # the files that name the edited definition first, everything else only if they still check
    word = re.compile(r'\b%s\b' % re.escape(mu['def']))
    first = [f for f in down if f != mu['file'][:-2] and word.search(open(ROOT + '/rocq/theories/%s.v' % f).read())] + mu.get('first', [])
    need = set(first) | {mu['file'][:-2]}
    for f in reversed(down):
        if f in need: need |= IMP[f]
    stages = [[f for f in down if f in need], down] if first else [down]
    broken, done = [], set(FILES) - set(down)
    checked = set()
    with ThreadPoolExecutor(J) as ex:
        for stage in stages:
            todo = [f for f in stage if f not in done]
            while todo:
                ready = [f for f in todo if IMP[f] <= done]
                for f, rc, line, tail in ex.map(lambda f: coqc('-vos', f), ready):
                    while rc:
                        n = admit(W + '/theories/%s.v' % f, line, tail) if line else None
                        if n is None: return {'name': mu['name'], 'error': 'model error at %s:%s %s' % (f, line, tail), 'broken': broken}
                        broken.append(f + '.' + n)
                        f, rc, line, tail = coqc('-vos', f)
                    done.add(f); todo.remove(f)
            chk = [f for f in stage if f in first and f not in checked] + [f for f in stage if f not in first and f not in checked]
            if len(stages) > 1 and stage is stages[0]: chk = [f for f in chk if f in first]
            checked |= set(chk)
            for rnd in range(60):
                if not chk or failing(broken): break
                again = []
                for k in range(0, len(chk), J):
                    if failing(broken): break
                    for f, rc, line, tail in ex.map(lambda f: coqc('-vok', f), chk[k:k + J]):
                        if rc:
                            n = admit(W + '/theories/%s.v' % f, line, tail) if line else None
                            if n is None: return {'name': mu['name'], 'error': 'model error at %s:%s %s' % (f, line, tail), 'broken': broken}
                            broken.append(f + '.' + n); again.append(f)
                chk = again
            if failing(broken): break
    return {'name': mu['name'], 'broken': broken, 'failed': failing(broken)}

if __name__ == '__main__':
    mus = json.load(open(sys.argv[1]))
    for mu in mus:
        if len(sys.argv) > 2 and mu['name'] not in sys.argv[2:]: continue
        print(json.dumps(run(mu)), flush=True)
