#!/usr/bin/env python3
"""Turn the results of mutate.py into seeded/LOG.jsonl.

usage: log.py RESULTS...   A later result for the same edit replaces an earlier one.
tightened.json says which theorems were added or strengthened after an edit went unnoticed."""
import json, os, sys, re
here = os.path.dirname(os.path.abspath(__file__))
tight = json.load(open(here + '/tightened.json'))
res = {}
for f in sys.argv[1:]:
    for l in open(f):
        r = json.loads(l)
        if 'error' in r: print('error', r); continue
        res[(r['definition'], r['old'], r['new'])] = r
out = []; missed = []
for k, r in res.items():
    want = set(re.findall(r'C\d\d', r['claim']))
    hit = bool(want & set(r['properties']))
    key = f"{r['definition']}: {r['old']} -> {r['new']}"
    t = tight.get(key, {})
    if not hit and not t: missed.append((r['index'], key, r['claim'], r['properties'], r.get('note', '')))
    e = dict(definition=f"{r['file']}: {r['definition']}", edit=f"{r['old']}  ==>  {r['new']}", claim=r['claim'],
             theorems_failed=r['theorems_failed'], lemmas_failed=[x for x in r['lemmas_failed'] if '<' not in x],
             theorems_tightened=t.get('theorems', []))
    n = t.get('note') or r.get('note')
    if n: e['note'] = n
    if not hit and not t and r['properties']: e['note'] = 'caught by other claims than the one expected'
    out.append(e)
with open(here + '/../seeded/LOG.jsonl', 'w') as o:
    for e in out: o.write(json.dumps(e) + '\n')
print(len(out), 'edits;', len(missed), 'to look at')
for m in missed: print(m)
