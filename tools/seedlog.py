#!/usr/bin/env python3
"""Append the outcomes of seeded bugs to seeded/LOG.jsonl.

usage: seedlog.py MUTANTS.json RESULTS TIGHTENED.json [id ...]

TIGHTENED maps ids to the theorems added or strengthened because of that attempt.
"""
import json, os, re, sys
muts, res, tight = json.load(open(sys.argv[1])), sys.argv[2], json.load(open(sys.argv[3]))
only = sys.argv[4:]
here = os.path.dirname(os.path.dirname(os.path.abspath(__file__)))

def definition(f, old):
    src = open(f'{here}/rocq/theories/{f}.v').read()
    k = src.find(old)
    if k < 0: return f
    k += len(old) // 2
    names = [m for m in re.finditer(r'^\s*(?:Definition|Fixpoint|Inductive|with|Record)\s+([\w\']+)', src, re.M) if m.start() <= k]
    return f'{f}.{names[-1][1]}' if names else f

with open(f'{here}/seeded/LOG.jsonl', 'a') as out:
    for m in muts:
        if only and m['id'] not in only: continue
        p = f'{res}/{m["id"]}.json'
        if not os.path.exists(p): continue
        r = json.load(open(p))
        edits = m.get('edits') or [m]
        e = {'id': m['id'], 'definition': ', '.join(definition(x['file'], x['old']) for x in edits),
             'edit': m['what'] + ': ' + '; '.join(f'`{x["old"]}` -> `{x["new"]}`' for x in edits),
             'claim_broken': (', '.join(m['claims']) + ': ' if m['claims'] else '') + m['breaks'],
             'failed_proofs': r['direct'], 'theorems_failed': r['theorems'],
             'claimed_but_not_failed': r['missed'], 'theorems_tightened': tight.get(m['id'], [])}
        out.write(json.dumps(e) + '\n')
