#!/usr/bin/env python3
"""Append the results of a mutation run (FILE.json.out of the scratch harness) to seeded/LOG.jsonl."""
import json, sys, os
root = os.path.dirname(os.path.dirname(os.path.abspath(__file__)))
with open(root + '/seeded/LOG.jsonl', 'a') as out:
    for m in json.load(open(sys.argv[1])):
        fails = sorted({'%s (%s)' % (b, a.replace('theories/', '')) for a, b in m.get('fails', [])})
        out.write(json.dumps({'definition': m['def'], 'file': 'rocq/theories/' + m['file'], 'edit': m['old'] + '  -->  ' + m['new'],
                              'claim': m['claim'], 'failed': fails if fails else 'none: survived',
                              'tightened': m.get('tightened', [])}) + '\n')
