#!/usr/bin/env python3
"""Writes rocq/theories/Prop_*.v (the property theorems and nothing else) from
the lemmas named Cnn_*_proof in rocq/theories/ProofC*.v, and MANIFEST.json."""
import re, os, json, glob
root = os.path.dirname(os.path.dirname(os.path.abspath(__file__)))
th = os.path.join(root, 'rocq', 'theories')
pat = re.compile(r'(\(\*\*(?:(?!\*\)).)*\*\)\n)?Lemma (C\d\d_\w+)_proof :(.*?)\nProof\.', re.S)
found = {}
for f in sorted(glob.glob(os.path.join(th, 'ProofC*.v'))):
    base = os.path.basename(f)[:-2]
    if not re.fullmatch(r'ProofC\d+[a-z]?', base): continue
    src = open(f).read()
    scopes = [l for l in src.split('\n') if l.startswith('Local Open Scope')]
    out = ['(** Property theorems; the proofs are in %s.v. *)' % base, 'From Verif Require Import %s.' % base] + scopes + ['']
    ms = list(pat.finditer(src))
    if not ms: continue
    for m in ms:
        com, nm, st = m.group(1), m.group(2), m.group(3)
        assert com, nm
        kind = 'Example' if nm.endswith('_ex') else 'Theorem'
        out.append(com + '%s %s :%s\nProof. exact %s_proof. Qed.\nPrint Assumptions %s.\n' % (kind, nm, st, nm, nm))
        if kind == 'Theorem': found.setdefault(nm[:3], []).append(nm)
    path = os.path.join(th, 'Prop_%s.v' % base[5:])
    if not os.path.exists(path) or open(path).read() != '\n'.join(out):
        open(path, 'w').write('\n'.join(out))
status = json.load(open(os.path.join(root, 'tools', 'status.json')))
claims = []
for l in open(os.path.join(root, 'properties.jsonl')):
    i = json.loads(l)['id']
    s = status.get(i)
    if s is None or i not in found: 
        if i in found: print('no status for', i)
        continue
    claims.append(dict(property=i, status=s[0], theorems=found[i], note=s[1]))
json.dump(dict(claims=claims), open(os.path.join(root, 'MANIFEST.json'), 'w'), indent=1, ensure_ascii=False)
print(len(claims), 'claims;', sum(len(v) for v in found.values()), 'theorems')
