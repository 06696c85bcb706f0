#!/usr/bin/env python3
"""Lists the Go functions of /repo that no comment of the model cites (file:lines)."""
import re, glob, os, sys, collections
cites = collections.defaultdict(set)
names = {os.path.relpath(p, '/repo'): p for p in glob.glob('/repo/**/*.go', recursive=True)}
base = collections.defaultdict(list)
for r in names: base[os.path.basename(r)].append(r)
hints = {'M_List': 'listwidget', 'M_Input': 'inputwidget', 'M_Scroll': 'scrollwidget', 'M_Throbber': 'throbberwidget', 'M_ThrobberView': 'throbberwidget'}
for v in glob.glob('/verif/rocq/theories/M_*.v'):
    mod = os.path.basename(v)[:-2]
    for m in re.finditer(r'([\w/]+\.go):((?:\d+(?:-\d+)?)(?:,\s*\d+(?:-\d+)?)*)', open(v).read()):
        f = m.group(1)
        cand = [r for r in base[os.path.basename(f)] if r.endswith(f)]
        if len(cand) > 1 and mod in hints: cand = [r for r in cand if hints[mod] in r] or cand
        if len(cand) > 1 and '/' not in f: cand = [r for r in cand if r == f] or cand
        for r in cand:
            for part in re.split(r',\s*', m.group(2)):
                a, _, b = part.partition('-')
                cites[r].update(range(int(a), int(b or a) + 1))
out = []
tot = cov = 0
for r in sorted(names):
    if r.endswith('_test.go') or r.startswith('examples'): continue
    lines = open(names[r]).read().split('\n')
    i = 0
    miss = []
    n = 0
    while i < len(lines):
        if lines[i].startswith('func '):
            j = i
            while j < len(lines) and lines[j] != '}' and not (j == i and lines[j].rstrip().endswith('}')): j += 1
            m = re.match(r'func (?:\((?:\w+ )?\*?(\w+)(?:\[.*?\])?\) )?(\w+)', lines[i])
            nm = (m.group(1) + '.' if m.group(1) else '') + m.group(2)
            n += 1
            tot += 1
            if cites[r] & set(range(i + 1, j + 2)): cov += 1
            else: miss.append(nm)
            i = j
        i += 1
    out.append((r, n, miss))
for r, n, miss in out:
    if n: print(f"{r}: {n - len(miss)}/{n}" + (": not cited: " + ', '.join(miss) if miss else ''))
print(cov, tot)
