#!/usr/bin/env python3
"""Generates mutants of the model mechanically: genauto.py > mutants.json.  Operators: negate a condition, drop a
statement, swap the branches of a two-way match, shift a comparison, change an index, misspell a text.  The sample is
fixed by the seed."""
import json, os, re, random
T = os.path.join(os.path.dirname(os.path.dirname(os.path.abspath(__file__))), 'rocq/theories/')
DEF = re.compile(r'^\s*(?:Definition|Fixpoint|with)\s+(\w+)', re.M)
def blank(t):
    out, d, i = [], 0, 0
    while i < len(t):
        if t.startswith('(*', i): d += 1; out.append('  '); i += 2
        elif t.startswith('*)', i) and d: d -= 1; out.append('  '); i += 2
        else: out.append(t[i] if not d or t[i] == '\n' else ' '); i += 1
    return ''.join(out)
def defn(t, o):
    r = None
    for m in DEF.finditer(t):
        if m.start() > o: break
        r = m.group(1)
    return r
def mk(f, t, a, b, new, op, k):
    """edit t[a:b] -> new with enough context to be unique"""
    lo, hi = a, b
    while t.count(t[lo:hi]) != 1:
        lo, hi = max(0, lo - 10), min(len(t), hi + 10)
    d = defn(t, a)
    if d is None: return None
    return {'name': 'auto_%s_%s_%d' % (op, d, k), 'file': f, 'def': d, 'old': t[lo:hi], 'new': t[lo:a] + new + t[b:hi],
            'claim': 'behaviour of %s: %s' % (d, op), 'was': t[a:b].strip(), 'op': op}
def muts(f):
    t = open(T + f).read(); c = blank(t); k = 0; R = []
    def add(a, b, new, op):
        nonlocal k
        k += 1
        m = mk(f, t, a, b, new, op, k)
        if m: R.append(m)
    for m in re.finditer(r'\bif\b', c):
        # condition up to the matching then
        d, i = 0, m.end()
        while i < len(c):
            w = re.compile(r'\b(if|then)\b').match(c, i)
            if w and (i == 0 or not (c[i-1].isalnum() or c[i-1] == '_')):
                if w.group(1) == 'if': d += 1
                elif d == 0: break
                else: d -= 1
                i = w.end(); continue
            i += 1
        cond = t[m.end():i]
        if len(cond) < 400: add(m.end(), i, ' negb (' + cond.strip() + ') ', 'negate')
    for m in re.finditer(r'^([ \t]+)((?:modS|modI|modB|create_schema|create_block|set_\w+|reject_\w+|extract_\w+|log\w*|ask_\w+)[^\n;]*);;;', c, re.M):
        add(m.start(2), m.end(), '', 'drop')
    for a, b in (('<=?', '<?'), ('<?', '<=?'), ('||', '&&'), ('&&', '||')):
        for m in re.finditer(re.escape(a), c):
            if a == '<?' and c[m.start()-1] == '=': continue
            add(m.start(), m.end(), b, 'operator')
    for m in re.finditer(r'\b(nth_arg|arg|nth|skipn|firstn)\s+(\d)\b', c):
        add(m.start(2), m.end(2), str(int(m.group(2)) + 1), 'index')
    for m in re.finditer(r'\b(true|false)\b', c):
        add(m.start(), m.end(), 'false' if m.group(1) == 'true' else 'true', 'constant')
    for m in re.finditer(r'B "([A-Za-z_-]{3,})"', c):
        add(m.start(1), m.end(1), m.group(1)[:-1], 'text')
    return R
random.seed(7)
sel = []
for f, n in (('Engine.v', 150), ('Utils.v', 35), ('Template.v', 35), ('State.v', 12), ('Bytes.v', 12), ('Json.v', 6), ('FastCgi.v', 8), ('PhpExec.v', 8), ('PyExec.v', 8)):
    R = muts(f); random.shuffle(R)
    by = {}
    for m in R: by.setdefault(m['op'], []).append(m)
    # half conditions, the rest spread over the other operators
    pick = []
    order = ['negate', 'drop', 'negate', 'operator', 'negate', 'constant', 'negate', 'index', 'text']
    while len(pick) < n and any(by.values()):
        for o in order:
            if by.get(o) and len(pick) < n: pick.append(by[o].pop())
    sel += pick
random.shuffle(sel)
print(json.dumps(sel, indent=1))
