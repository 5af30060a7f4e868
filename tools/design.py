"""Rewrite the generated parts of DESIGN.md: the code that each model file cites, and the findings (theorems `_refuted`)."""
import re, pathlib
root = pathlib.Path(__file__).resolve().parent.parent
theories = root / 'rocq' / 'theories'

cites = {}
for f in sorted(theories.glob('*_Model.v')):
    for name, a, b in re.findall(r'(\w+\.py):(\d+)(?:-(\d+))?', f.read_text()):
        cites.setdefault(name, {}).setdefault(f.stem, set()).add((int(a), int(b or a)))
code = ['| Source | Model | Lines |', '|---|---|---|']
for name in sorted(cites):
    for stem in sorted(cites[name]):
        merged = []
        for a, b in sorted(cites[name][stem]):
            if merged and a <= merged[-1][1] + 1:
                merged[-1][1] = max(b, merged[-1][1])
            else:
                merged.append([a, b])
        code.append(f"| {name} | `{stem}` | {', '.join(f'{a}-{b}' if a != b else str(a) for a, b in merged)} |")

found = []
for f in sorted(theories.glob('*_Props.v')):
    text = f.read_text()
    comments = [(m.end(), m.group(1)) for m in re.finditer(r'\(\*\*(.*?)\*\)', text, re.S)]
    for m in re.finditer(r'^Theorem (C\d+\w*_refuted)\b', text, re.M):
        comment = [c for e, c in comments if e <= m.start()][-1]
        comment = re.sub(r'^C\d+: ', '', re.sub(r'\s+', ' ', comment).strip())
        found.append((m.group(1), comment))
found.sort()
findings = [f'* `{n}`: {c[0].upper() + c[1:]}' for n, c in found]

design = root / 'DESIGN.md'
s = design.read_text()
for tag, lines in (('code', code), ('findings', findings)):
    s = re.sub(rf'<!-- {tag} -->.*<!-- end {tag} -->', lambda m: f'<!-- {tag} -->\n' + '\n'.join(lines) + f'\n<!-- end {tag} -->', s, flags=re.S)
design.write_text(s)
print(len(code) - 2, len(found))
