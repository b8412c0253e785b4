"""Writes rocq/theories/Assumed{1,2,3}.v: Print Assumptions of the theorems named in MANIFEST.json
whose own files do not have it."""
import json, re, glob, os
root = '/verif/rocq/theories/'
names = {}
for f in sorted(glob.glob(root + '*.v')):
    for n in re.findall(r'(?:Theorem|Lemma) (\w+)', open(f).read()):
        names.setdefault(n, []).append(os.path.basename(f)[:-2])
said = set()
for f in sorted(glob.glob(root + '*.v')):
    if not os.path.basename(f).startswith('Assumed'):
        said |= {(os.path.basename(f)[:-2], n) for n in re.findall(r'Print Assumptions (\w+)', open(f).read())}
m = json.load(open('/verif/MANIFEST.json'))
ths = sorted({(f, t) for c in m['claims'] for t in c['theorems'] for f in names[t]} - said)
k = -(-len(ths) // 3)
for i in range(3):
    part = ths[i * k:(i + 1) * k]
    with open(root + 'Assumed%d.v' % (i + 1), 'w') as out:
        out.write('(** What theorems named in MANIFEST.json rest on (written by tools/assumptions.py) *)\n')
        out.write('From Verif Require ' + ' '.join(sorted({f for f, _ in part})) + '.\n')
        for f, t in part:
            out.write('Print Assumptions %s.%s.\n' % (f, t))
