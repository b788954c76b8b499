#!/usr/bin/env python3
"""Append to seeded/LOG.jsonl one line for every result of mutate.py that is not there yet.

usage: log.py [RESULTS_DIR]"""
import glob, json, os, sys
HERE = os.path.dirname(os.path.abspath(__file__))
LOG = os.path.join(HERE, '..', 'seeded', 'LOG.jsonl')
RES = sys.argv[1] if len(sys.argv) > 1 else '/tmp/mut/results'
# what a mutant that passed a claim led to
NOTES = json.load(open(os.path.join(HERE, 'mutants_notes.json')))
seen = {json.loads(l)['id'] for l in open(LOG)} if os.path.exists(LOG) else set()
with open(LOG, 'a') as out:
    for p in sorted(glob.glob(RES + '/*.json'), key=os.path.getmtime):
        r = json.load(open(p))
        if r['id'] in seen:
            continue
        sp, note = r['spec'], NOTES.get(r['id'], {})
        hit = [c for c in sp['claims'] if any(t.startswith(c + '_') for t in r['failed'])]
        out.write(json.dumps({
            'id': r['id'],
            'definition': 'rocq/theories/%s.v: %s' % (sp['file'], sp['definition']),
            'edit': sp['edit'],
            'replaced': [{'old': a, 'new': b} for a, b in sp['edits']],
            'breaks': sp['claims'],
            'failed': r['failed'],
            'not_failed_for': [c for c in sp['claims'] if c not in hit],
            'tightened': note.get('tightened', []),
            **({'note': note['note']} if 'note' in note else {}),
        }) + '\n')
