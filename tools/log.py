#!/usr/bin/env python3
"""Merge the outputs of mutate.py into seeded/LOG.jsonl, with the theorems that were tightened because of an edit.

usage: log.py out.jsonl ...   (later files win for the same definition and edit, and are logged as a second attempt)
"""
import json, os, sys
HERE = os.path.dirname(os.path.abspath(__file__))
T = json.load(open(os.path.join(HERE, 'tightened.json')))
out = []
for f in sys.argv[1:]:
    for l in open(f):
        j = json.loads(l)
        key = j['definition'] + ': ' + j['edit']
        failed = j.get('failed_theorems', [])
        e = dict(definition=j['file'] + '.' + j['definition'].split('.')[-1], edit=j['edit'], old=j.get('old'), new=j.get('new'), claim=j['claim'],
                 failed_theorems=failed, failed_lemmas=j.get('failed_lemmas', []), tightened=[])
        if j.get('error'): e['note'] = 'not applied: ' + str(j['error'])[:200]
        if not failed and not j.get('error'):
            t = T.get(key)
            if t is None:
                print('survivor without entry:', key, '|', os.path.basename(f))
                e['note'] = 'no theorem failed'
            else:
                e['tightened'] = t.get('theorems', [])
                e['note'] = t['note']
        out.append(e)
open(os.path.join(HERE, '..', 'seeded', 'LOG.jsonl'), 'w').write(''.join(json.dumps(e) + '\n' for e in out))
print(len(out), 'lines')
