"""Write ASSUMPTIONS.md: what Print Assumptions reports for every property
theorem. Needs a finished build in rocq/."""
import collections, glob, os, re, subprocess, tempfile
here = os.path.dirname(os.path.abspath(__file__))
root = os.path.dirname(here)
theories = os.path.join(root, 'rocq', 'theories')
result = {}
for f in sorted(glob.glob(os.path.join(theories, 'P_*.v'))):
    mod = os.path.basename(f)[:-2]
    names = re.findall(r'^Theorem (C\d\d\w*)', open(f).read(), re.M)
    if not names:
        continue
    text = f'From Verif Require {mod}.\n'
    for n in names:
        text += f'Check "###{n}"%string.\nPrint Assumptions {mod}.{n}.\n'
    text = 'Require Import Coq.Strings.String.\n' + text
    with tempfile.NamedTemporaryFile('w', suffix='.v', delete=False, dir='/tmp') as t:
        t.write(text)
    out = subprocess.run(['coqc', '-Q', theories, 'Verif', t.name], capture_output=True, text=True)
    if out.returncode:
        raise SystemExit(mod + out.stderr)
    for part in re.split(r'"###', out.stdout)[1:]:
        n = part[:part.index('"')]
        axioms = re.findall(r'^([A-Za-z_][\w.]*)\s*(?::|$)', part, re.M)
        axioms = [a for a in axioms if a not in ('Axioms', 'Closed', 'Section')]
        result[n] = (mod, tuple(sorted(set(axioms))))
groups = collections.OrderedDict()
for n in sorted(result):
    groups.setdefault(result[n][1], []).append(n)
with open(os.path.join(root, 'ASSUMPTIONS.md'), 'w') as o:
    o.write('# Output of Print Assumptions for every property theorem\n\n'
            'Generated by tools/mkassumptions.py. All axioms are those of the Coq standard\n'
            'library (Coq.Logic and Coq.Reals).\n')
    for ax in sorted(groups, key=len):
        o.write('\n## ' + (', '.join(f'`{a}`' for a in ax) if ax else 'Closed under the global context (no axioms)')
                + f'\n\n{len(groups[ax])} theorems:\n\n')
        for n in groups[ax]:
            o.write(f'* {n} ({result[n][0]})\n')
print(len(result), 'theorems,', len(groups), 'axiom sets')
for ax in groups: print(len(groups[ax]), ax)
