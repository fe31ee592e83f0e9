#!/usr/bin/env python3
"""Writes DESIGN.md: tools/design_head.md, then one entry per property from properties.jsonl,
MANIFEST.json and tools/plan.txt, with what Print Assumptions lists for each theorem.
Needs a finished build in rocq/."""
import json, glob, re, os, subprocess, tempfile, collections
root = os.path.dirname(os.path.dirname(os.path.abspath(__file__)))
props = [json.loads(l) for l in open(root + '/properties.jsonl')]
claims = {c['property']: c for c in json.load(open(root + '/MANIFEST.json'))['claims']}
plan = dict(l.rstrip('\n').split(' ', 1) for l in open(root + '/tools/plan.txt') if l.strip())
where = {}
for f in sorted(glob.glob(root + '/rocq/theories/Properties_*.v')):
    for x in re.findall(r'^\s*(?:Theorem|Lemma|Corollary|Example)\s+(\w+)', open(f).read(), re.M):
        where.setdefault(x, os.path.basename(f)[:-2])
ths = []
for p in props:
    for t in claims.get(p['id'], {'theorems': []})['theorems']:
        if t not in ths: ths.append(t)
d = tempfile.mkdtemp()
with open(d + '/pa.v', 'w') as o:
    for x in sorted({where[t] for t in ths}): o.write('From Verif Require %s.\n' % x)
    for t in ths:
        o.write('Goal True. idtac "@@ %s". exact I. Qed.\nPrint Assumptions %s.%s.\n' % (t, where[t], t))
out = subprocess.run(['coqc', '-Q', root + '/rocq/theories', 'Verif', 'pa.v'], cwd=d,
                     capture_output=True, text=True).stdout
ax = {}
for blk in out.split('@@ ')[1:]:
    t = blk.split()[0]
    rest = blk.split('\n', 1)[1]
    a = frozenset(re.findall(r'^([A-Za-z_]\w*(?:\.\w+)+)\s*(?::|$)', rest, re.M))
    if not a: assert 'Closed under the global context' in rest, t
    ax[t] = a
FD = 'ClassicalDedekindReals.sig_forall_dec'; ND = 'ClassicalDedekindReals.sig_not_dec'
FE = 'FunctionalExtensionality.functional_extensionality_dep'; CL = 'Classical_Prop.classic'
classes = collections.OrderedDict([
    (frozenset(), ('0', 'closed under the global context: no axioms at all')),
    (frozenset([FD, FE]), ('R0', '`%s`, `%s`' % (FD, FE))),
    (frozenset([FD, ND, FE]), ('R', '`%s`, `%s`, `%s`' % (FD, ND, FE))),
    (frozenset([FD, ND, FE, CL]), ('RC', '`%s`, `%s`, `%s`, `%s`' % (FD, ND, FE, CL)))])
count = collections.Counter(ax.values())
res = open(root + '/tools/design_head.md').read()
table = ''.join('* **[%s]** (%d theorems) %s\n' % (classes[k][0], count[k], classes[k][1]) for k in classes)
res = res.replace('@ASSUMPTIONS@\n', table)
for p in props:
    i = p['id']; c = claims.get(i)
    res += '* **%s %s** — %s' % (i, p['title'], plan.get(i, '(to do)'))
    if c:
        byfile = collections.OrderedDict()
        for t in c['theorems']: byfile.setdefault(where[t], []).append('`%s` [%s]' % (t, classes[ax[t]][0]))
        res += '\n  *%s*: %s.' % (c['status'].capitalize(),
            '; '.join('%s: %s' % (f + '.v', ', '.join(v)) for f, v in byfile.items()))
        if c.get('note'): res += '\n  %s' % c['note']
    res += '\n'
open(root + '/DESIGN.md', 'w').write(res)
missing = [p['id'] for p in props if p['id'] not in plan]
print('theorems', len(ths), 'no plan:', missing)
