#!/usr/bin/env python3
"""Try wrong programs against the theorems.

usage: mutate.py FILE.json ...      each file: a list of
  {"def": name, "file": "M_X.v", "old": text, "new": text, "edit": what a bug would do, "claim": which claim it breaks}

For each edit a scratch copy of the theories (outside the repository) is edited and recompiled. A lemma or theorem whose
proof no longer checks is admitted in the scratch copy and compilation goes on, so that Print Assumptions tells, for every
theorem named C<nn>_..., whether it still stands. One line per edit is appended to seeded/LOG.jsonl.
"""
import glob, json, os, re, shutil, subprocess, sys
root = os.path.dirname(os.path.dirname(os.path.abspath(__file__)))
src = os.environ.get("SRC", root + "/rocq/theories")
work = os.environ.get("MUT", "/tmp/mut")

def deps():
    out = subprocess.run(["coqdep", "-Q", ".", "Verif"] + [os.path.basename(f) for f in glob.glob(src + "/*.v")], cwd=src, capture_output=True, text=True).stdout
    d = {}
    for line in out.splitlines():
        if ":" not in line: continue
        l, r = line.split(":", 1)
        if ".vo" in l.split()[0] and l.split()[0].endswith(".vo"):
            d[l.split()[0][:-1]] = [x[:-1] for x in r.split() if x.endswith(".vo")]
    return d

def order(d):
    seen, out = set(), []
    def go(f):
        if f in seen: return
        seen.add(f)
        for g in d[f]: go(g)
        out.append(f)
    for f in sorted(d): go(f)
    return out

START = re.compile(r"^\s*(?:Local\s+|Global\s+|#\[.*\]\s*)?(Theorem|Lemma|Corollary|Example|Fact|Remark|Instance|Definition|Fixpoint)\s+([\w']+)", re.M)

def compile_file(f, failed):
    path = work + "/" + f
    for _ in range(200):
        try:
            p = subprocess.run(["coqc", "-q", "-Q", ".", "Verif", f], cwd=work, capture_output=True, text=True, timeout=400)
            err = p.stderr
            if p.returncode == 0: return True
        except subprocess.TimeoutExpired:
            failed.append("TIMEOUT:" + f); return False
        m = re.search(r'line (\d+), characters (\d+)', err[err.rfind('File "'):] if 'Error' in err else err)
        txt = open(path).read()
        if not m: failed.append("NOERRPOS:" + f); return False
        lines = txt.split("\n"); off = sum(len(x) + 1 for x in lines[:int(m[1]) - 1]) + int(m[2])
        cands = [x for x in START.finditer(txt) if x.start() <= off]
        if not cands: failed.append("?:" + f); return False
        c = cands[-1]; name = c[2]
        q = re.compile(r"\b(Qed|Defined)\.").search(txt, c.start())
        pr = re.compile(r"\bProof\b[^.]*\.").search(txt, c.start())
        if not q or not pr or pr.start() > q.start() or not (pr.start() <= off <= q.end()):
            failed.append("STATEMENT:" + f + ":" + name + ": " + err.strip().split("\n")[-1][:100]); return False
        failed.append(name)
        body = txt[pr.start():q.end()]
        nl = body.count("\n")
        txt = txt[:pr.start()] + "Proof. Admitted." + "\n" * nl + txt[q.end():]
        open(path, "w").write(txt)
    return False

def run(mut, d, ords):
    for f in glob.glob(work + "/*"): os.remove(f)
    for f in glob.glob(src + "/*.v") + glob.glob(src + "/*.vo"): shutil.copy2(f, work)
    f0 = mut["file"]; txt = open(work + "/" + f0).read()
    assert txt.count(mut["old"]) >= 1, ("not found", mut["def"], mut["old"])
    assert txt.count(mut["old"]) == 1 or mut.get("all"), ("ambiguous", mut["def"], mut["old"])
    open(work + "/" + f0, "w").write(txt.replace(mut["old"], mut["new"]))
    dirty, failed, broken, done = {f0}, [], set(), set()
    for f in ords:
        if any(g in dirty for g in d[f]): dirty.add(f)
    anc = {}
    for f in ords: anc[f] = set().union(*[anc[g] | {g} for g in d[f]]) if d[f] else set()
    hit, blocked = [], []
    # files of theorems, those with the fewest files to rebuild first; LIMIT stops after that many theorems have fallen
    for f in sorted([f for f in ords if f.startswith("T_") and f in dirty], key=lambda f: len(anc[f] & dirty)):
        for g in ords:
            if g in done or g not in dirty or not (g == f or g in anc[f]): continue
            done.add(g)
            if any(h in broken for h in d[g]): broken.add(g); continue
            if not compile_file(g, failed): broken.add(g)
        names = re.findall(r"^(?:Theorem|Corollary)\s+(C\d{2,3}_[\w']+)", open(src + "/" + f).read(), re.M)
        if f in broken: blocked += names; continue
        chk = "From Verif Require Import %s.\nFrom Coq Require Import String.\n" % f[:-2] + "".join('Check "@@%s"%%string.\nPrint Assumptions %s.\n' % (n, n) for n in names)
        open(work + "/Zchk.v", "w").write(chk)
        out = subprocess.run(["coqc", "-q", "-Q", ".", "Verif", "Zchk.v"], cwd=work, capture_output=True, text=True).stdout
        said = {x.split('"')[0]: x for x in out.split('"@@')[1:]}
        hit += [n for n in names if "Closed under" not in said.get(n, "")]
        if len(hit) >= int(os.environ.get("LIMIT", "100000")): break
    return failed, hit, blocked

def main():
    d = deps(); ords = order(d)
    os.makedirs(work, exist_ok=True)
    for a in sys.argv[1:]:
        part, parts = map(int, os.environ.get("PART", "0/1").split("/"))
        for mut in json.load(open(a))[part::parts]:
            failed, hit, blocked = run(mut, d, ords)
            rec = {"definition": mut["file"] + ":" + mut["def"], "edit": mut["edit"], "claim": mut["claim"],
                   "failed": hit + [b + " (not compiled)" for b in blocked], "broken_lemmas": failed[:12], "tightened": mut.get("tightened", [])}
            if "LIMIT" in os.environ: rec["stopped_after_theorems"] = int(os.environ["LIMIT"])
            surv = not hit and not blocked
            print(("SURVIVED " if surv else "killed   ") + mut["def"] + " | " + mut["edit"] + " | " + mut["claim"] + " -> " + ", ".join(hit + blocked) + " || " + ", ".join(failed[:8]), flush=True)
            with open(root + "/seeded/LOG.jsonl", "a") as g: g.write(json.dumps(rec) + "\n")
main()
