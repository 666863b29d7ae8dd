"""Write ASSUMPTIONS.md: what Print Assumptions lists for each theorem of rocq/theories/Prop_*.v.

Run from /verif after a build; recompiles the Prop files into a scratch directory to collect their output.
"""
import glob, os, re, subprocess, tempfile
from concurrent.futures import ThreadPoolExecutor

SHORT = ['sig_forall_dec', 'sig_not_dec', 'functional_extensionality_dep', 'classic']


def compile(f):
    with tempfile.TemporaryDirectory() as d:
        return subprocess.run(['coqc', '-Q', 'theories', 'Verif', '-o', os.path.join(d, os.path.basename(f) + 'o'),
                               f[len('rocq/'):]], cwd='rocq', capture_output=True, text=True, check=True).stdout


groups = {}
files = sorted(glob.glob('rocq/theories/Prop_*.v'))
for f, out in zip(files, ThreadPoolExecutor(3).map(compile, files)):
    names = re.findall(r'^Print Assumptions (\w+)\.', open(f).read(), re.M)
    blocks = re.findall(r'^(Closed under the global context|Axioms:\n(?:.+\n?(?!Axioms:|Closed))*)', out, re.M)
    assert len(blocks) == len(names), (f, len(blocks), len(names))
    for n, b in zip(names, blocks):
        found = sorted(set(re.findall(r'^(\S+?)(?= :|$)', b, re.M)) - {'Axioms:'}) if b.startswith('Axioms') else []
        found = [x.rstrip(':').split('.')[-1] for x in found]
        assert all(x in SHORT for x in found), (n, found)
        groups.setdefault(tuple(sorted(found, key=SHORT.index)), []).append(n)
with open('ASSUMPTIONS.md', 'w') as o:
    o.write('# Print Assumptions, per theorem\n\nGenerated by tools/assumptions.py from the Print Assumptions line that '
            'follows every theorem in rocq/theories/Prop_*.v.\n')
    for k in sorted(groups, key=len):
        o.write('\n## %s\n\n' % (', '.join(k) if k else 'Closed under the global context (no axiom)'))
        o.write(', '.join(sorted(groups[k])) + '\n')
print({k: len(v) for k, v in groups.items()})
