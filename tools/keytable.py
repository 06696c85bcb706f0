#!/usr/bin/env python3
"""Write rocq/theories/M_KeyTable.v from the tables of /repo/input.go (key constants, keyNames, sequences)."""
import os, re
src = open("/repo/input.go").read().split("\n")
def block(start):
    i = next(k for k, l in enumerate(src) if l.startswith(start))
    j = next(k for k in range(i, len(src)) if src[k] in ("}", ")"))
    return i + 1, j + 1, src[i + 1:j]
out = ['(** The key tables of input.go, written by tools/keytable.py. *)',
       'From Verif Require Import Base M_Utf8.', 'From Coq Require Import ZArith NArith String Ascii List Bool.',
       'Import ListNotations.', 'Open Scope Z_scope.', '']
consts, order = {}, []
i = next(k for k, l in enumerate(src) if "keyNUL KeyType = 0" in l)
j = next(k for k in range(i, len(src)) if src[k] == ")")
for l in src[i:j]:
    m = re.match(r"\s*(key\w+)\s+KeyType = (\d+)", l)
    consts[m[1]] = int(m[2]); order.append(m[1])
out.append(f"(** input.go:{i+1}-{j} *)")
out += [f"Definition {k} : Z := {consts[k]}." for k in order]
i = next(k for k, l in enumerate(src) if "KeyRunes KeyType = -(iota + 1)" in l)
j = next(k for k in range(i, len(src)) if src[k] == ")")
names = [l.strip().split()[0] for l in src[i:j]]
out.append(f"(** input.go:{i+1}-{j}: -(iota + 1) *)")
for n, k in enumerate(names):
    consts[k] = -(n + 1)
    out.append(f"Definition {k} : Z := {-(n+1)}.")
i = next(k for k, l in enumerate(src) if l.strip().startswith("KeyNull      KeyType = keyNUL"))
j = next(k for k in range(i, len(src)) if src[k] == ")")
out.append(f"(** input.go:{i+1}-{j}: aliases *)")
for l in src[i:j]:
    m = re.match(r"\s*(Key\w+)\s+KeyType = (\w+)", l)
    if m: out.append(f"Definition {m[1]} : Z := {m[2]}.")
def lit(s):
    s = s.replace("\\\\", "\\")
    if s.startswith("\\x1b"):
        return 'ESC :: asc "%s"' % s[4:].replace('"', '""')
    return 'asc "%s"' % s.replace('"', '""')
a, b, ls = block("var keyNames")
out.append(f"\n(** input.go:{a}-{b} *)\nDefinition key_names : list (Z * bytes) := [")
rows = []
for l in ls:
    m = re.match(r'\s*(\w+):\s*"((?:[^"\\]|\\.)*)"', l)
    if m: rows.append(f'  ({m[1]}, {lit(m[2])})')
out.append(";\n".join(rows) + "\n].")
out.append("""
(** input.go:55-60 *)
Record key := Key { k_type : Z; k_runes : list N; k_alt : bool; k_paste : bool }.
""")
a, b, ls = block("var sequences")
out.append(f"(** input.go:{a}-{b} *)\nDefinition sequences : list (bytes * key) := [")
rows = []
for l in ls:
    m = re.match(r'\s*"((?:[^"\\]|\\.)*)":\s*\{Type: (\w+)(?:, Alt: (\w+))?\}', l)
    if m: rows.append(f'  ({lit(m[1])}, Key {m[2]} [] {m[3] or "false"} false)')
    else: assert not l.strip() or l.strip().startswith("//"), l
out.append(";\n".join(rows) + "\n].")
root = os.path.dirname(os.path.dirname(os.path.abspath(__file__)))
open(root + "/rocq/theories/M_KeyTable.v", "w").write("\n".join(out) + "\n")
