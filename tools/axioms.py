"""Write AXIOMS.md: what Print Assumptions lists for every theorem in rocq/theories/Props. Needs a finished build."""
import glob, os, re, subprocess, tempfile
from collections import defaultdict

root = os.path.dirname(os.path.dirname(os.path.abspath(__file__)))
theories = os.path.join(root, 'rocq', 'theories')
groups = defaultdict(list)
for f in sorted(glob.glob(os.path.join(theories, 'Props', '*.v'))):
    names = re.findall(r"^\s*Theorem\s+([A-Za-z0-9_']+)", open(f).read(), flags=re.M)
    lines = ['From Verif Require Import Props.%s.' % os.path.basename(f)[:-2]]
    for x in names:
        lines += ['Goal True. idtac "@@%s". exact I. Qed.' % x, 'Print Assumptions %s.' % x]
    with tempfile.TemporaryDirectory() as d:
        q = os.path.join(d, 'q.v')
        open(q, 'w').write('\n'.join(lines) + '\n')
        out = subprocess.run(['coqc', '-Q', theories, 'Verif', q], capture_output=True, text=True)
        assert out.returncode == 0, f + out.stderr
        out = out.stdout
    current, axioms = None, {}
    for l in out.split('\n'):
        if l.startswith('@@'):
            current = l[2:].strip()
            axioms[current] = set()
        else:
            m = re.match(r"^([A-Za-z0-9_.']+)\s*:", l) or re.match(r"^([A-Z][A-Za-z0-9_']+\.[A-Za-z0-9_.']+)\s*$", l)
            if m and not l.startswith('Axioms'):
                axioms[current].add(m.group(1))
    for x in names:
        groups[tuple(sorted(axioms[x]))].append(x)
with open(os.path.join(root, 'AXIOMS.md'), 'w') as o:
    o.write('# What `Print Assumptions` lists for each theorem\n\nGenerated by `tools/axioms.py` from a finished build.\n')
    for k in sorted(groups, key=len):
        o.write('\n## %s\n\n' % (', '.join('`%s`' % a for a in k) or 'Closed under the global context'))
        o.write('%d theorems: %s.\n' % (len(groups[k]), ', '.join(groups[k])))
