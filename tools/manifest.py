#!/usr/bin/env python3
"""Regenerate MANIFEST.json and the 'Assumptions per theorem' section of DESIGN.md.

Theorems are the `Theorem Cxx_...` of rocq/theories/Prop*.v; notes come from
tools/notes.json.  Usage: tools/manifest.py  (after a full build in rocq/)."""
import json, re, glob, os, subprocess, sys
root = os.path.dirname(os.path.dirname(os.path.abspath(__file__)))
th = os.path.join(root, 'rocq', 'theories')
notes = json.load(open(os.path.join(root, 'tools', 'notes.json')))
props = [json.loads(l) for l in open(os.path.join(root, 'properties.jsonl'))]
by = {}
files = sorted(glob.glob(os.path.join(th, 'Prop*.v')))
order = []
for f in files:
    for m in re.finditer(r'^Theorem (C\d+)_(\w+)', open(f).read(), re.M):
        by.setdefault(m.group(1), []).append('%s_%s' % m.groups())
        order.append((os.path.basename(f)[:-2], '%s_%s' % m.groups()))
claims = []
for p in props:
    i = p['id']
    ths = by.get(i, [])
    n = notes.get(i, {})
    st = n.get('status')
    if st is None:
        if not ths: st = 'not_applicable'
        elif any(x.endswith('_refuted') or x.endswith('_partial') for x in ths): st = 'partial'
        else: st = 'proved'
    claims.append(dict(property=i, status=st, theorems=ths, note=n.get('note', '' if ths else 'not yet modelled')))
json.dump(dict(claims=claims), open(os.path.join(root, 'MANIFEST.json'), 'w'), indent=1)
print({s: sum(c['status'] == s for c in claims) for s in ('proved', 'partial', 'not_applicable')})
# assumptions
if '-a' in sys.argv:
    src = ''.join('From Verif Require %s.\n' % os.path.basename(f)[:-2] for f in files)
    for mod, t in order:
        src += 'Goal True. idtac "@@%s". Abort.\nPrint Assumptions Verif.%s.%s.\n' % (t, mod, t)
    os.makedirs('/tmp/asm', exist_ok=True)
    open('/tmp/asm/asm.v', 'w').write(src)
    out = subprocess.run(['coqc', '-Q', th, 'Verif', '/tmp/asm/asm.v'], capture_output=True, text=True)
    if out.returncode: print(out.stderr); sys.exit(1)
    groups = {}
    for part in out.stdout.split('@@')[1:]:
        name, rest = part.split('\n', 1)
        if 'Closed under' in rest: key = ('closed under the global context',)
        else: key = tuple(sorted(set(re.findall(r'^([A-Za-z_][\w.]*)(?=\s*:|\s*$)', rest, re.M)) - {'Axioms'}))
        groups.setdefault(key, []).append(name)
    sec = '## Assumptions per theorem\n\nAs printed by `Print Assumptions` (generated by `tools/manifest.py -a`).\n'
    for k, v in sorted(groups.items()):
        sec += '\n* ' + ', '.join('`%s`' % x if x[0].isupper() else x for x in k) + ':\n  ' + ', '.join(v) + '\n'
    d = os.path.join(root, 'DESIGN.md')
    s = open(d).read()
    s = re.sub(r'## Assumptions per theorem.*?(?=\n## |\Z)', '', s, flags=re.S).rstrip() + '\n\n' + sec
    open(d, 'w').write(s)
    print({k: len(v) for k, v in groups.items()})
