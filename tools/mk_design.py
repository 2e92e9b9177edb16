#!/usr/bin/env python3
"""Writes DESIGN.md from design_head.md, methods.json, the property list, the
manifest and the comments above the theorems in rocq/theories/Prop_*.v."""
import re, os, json, glob
root = os.path.dirname(os.path.dirname(os.path.abspath(__file__)))
tools = os.path.join(root, 'tools')
com = {}
for f in sorted(glob.glob(os.path.join(root, 'rocq', 'theories', 'Prop_*.v'))):
    for m in re.finditer(r'\(\*\*((?:(?!\*\)).)*)\*\)\n(?:Theorem|Example) (\w+)', open(f).read(), re.S):
        t = re.sub(r'\s+', ' ', m.group(1)).strip()
        com[m.group(2)] = (re.sub(r'^C\d\d\b[,.:]?\s*', '', t), os.path.basename(f))
man = {c['property']: c for c in json.load(open(os.path.join(root, 'MANIFEST.json')))['claims']}
meth = json.load(open(os.path.join(tools, 'methods.json')))
out = [open(os.path.join(tools, 'design_head.md')).read()]
for l in open(os.path.join(root, 'properties.jsonl')):
    p = json.loads(l); c = man.get(p['id'])
    out.append('### %s — %s\n' % (p['id'], p['title']))
    if c is None:
        out.append('Not expressible: %s\n' % meth.get(p['id'], '')); continue
    out.append('Status: **%s**. %s\n' % (c['status'], c['note']))
    out.append('Modelled and proved how: %s\n' % meth[p['id']])
    for t in c['theorems']:
        out.append('* `%s` (`%s`): %s' % (t, com[t][1], com[t][0]))
    ex = [e for e in com if e.startswith(p['id'] + '_') and e.endswith('_ex')]
    if ex: out.append('* examples: ' + ', '.join('`%s`' % e for e in ex))
    out.append('')
open(os.path.join(root, 'DESIGN.md'), 'w').write('\n'.join(out))
