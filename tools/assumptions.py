"""Rewrite the assumptions table of DESIGN.md from what Print Assumptions prints for each property theorem.
Run from /verif after a build."""
import pathlib, re, subprocess, sys

rows = {}
for f in sorted(pathlib.Path('rocq/theories').glob('*_Props.v')):
    names = re.findall(r'^Print Assumptions (\w+)\.', f.read_text(), re.M)
    out = subprocess.run(['coqc', '-Q', 'theories', 'Verif', f'theories/{f.name}', '-o', f'/tmp/{f.stem}.vo'],
                         cwd='rocq', capture_output=True, text=True, check=True).stdout
    parts = re.split(r'^(Closed under the global context|Axioms:)$', out, flags=re.M)[1:]
    heads, bodies = parts[::2], parts[1::2]
    assert len(heads) == len(names), (f, len(heads), len(names))
    for n, h, b in zip(names, heads, bodies):
        axs = () if h.startswith('Closed') else tuple(sorted(set(re.findall(r'^([\w.]+)(?= :|$)', b, re.M))))
        rows.setdefault(axs, []).append(n)
text = ''
for axs, names in sorted(rows.items()):
    text += f"\n**{', '.join('`%s`' % a for a in axs) or 'No axioms (closed under the global context)'}** - {len(names)} theorems:\n\n"
    text += ', '.join(f'`{n}`' for n in sorted(names)) + '\n'
d = pathlib.Path('DESIGN.md')
s = d.read_text()
a, b = '<!-- assumptions -->', '<!-- /assumptions -->'
d.write_text(s[:s.index(a) + len(a)] + '\n' + text + '\n' + s[s.index(b):])
print({k: len(v) for k, v in rows.items()})
