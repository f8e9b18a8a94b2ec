#!/usr/bin/env python3
"""logmut.py MUTANTS.json RESULTS.out: append to seeded/LOG.jsonl one line per finished mutant not logged yet.
The mutant's "claim" says what the edit breaks; "tightened" (optional) which theorems were strengthened because of it."""
import json, sys, os
ROOT = os.path.dirname(os.path.dirname(os.path.abspath(__file__)))
LOG = ROOT + '/seeded/LOG.jsonl'
done = set()
if os.path.exists(LOG):
    for l in open(LOG):
        if l.strip(): done.add(json.loads(l)['name'])
mus = {m['name']: m for m in json.load(open(sys.argv[1]))}
out = open(LOG, 'a')
for l in open(sys.argv[2]):
    r = json.loads(l)
    m = mus[r['name']]
    if r['name'] in done: continue
    if 'error' in r: print('ERR', r['name'], r['error'][:200]); continue
    if not r['failed'] and not m.get('tightened') and not m.get('verdict'): print('SURVIVOR', r['name']); continue
    e = {'name': r['name'], 'definition': m['file'] + ': ' + m['def'], 'edit': 'replace `%s` by `%s`' % (m['old'], m['new']),
         'claim': m['claim'], 'failed': r['failed'], 'tightened': m.get('tightened', [])}
    if m.get('verdict'): e['verdict'] = m['verdict']
    out.write(json.dumps(e) + '\n')
