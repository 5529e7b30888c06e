#!/usr/bin/env python3
"""Seeded-bug harness. Reads a list of mutations (JSON: file, definition, old, new, edit, claim),
applies each to a scratch copy of ../rocq, rebuilds, replaces every proof that no longer goes through
by Admitted (in the scratch copy only) and reports which property theorems then rest on it.
Appends one line per mutation to ../seeded/LOG.jsonl.  usage: mutate.py mutations.json [--dry]"""
import json, os, re, subprocess, sys, shutil
ROOT = os.path.dirname(os.path.dirname(os.path.abspath(__file__)))
SRC = os.path.join(ROOT, "rocq")
def sh(cmd, cwd, timeout=3000):
    return subprocess.run(cmd, cwd=cwd, shell=True, capture_output=True, text=True, timeout=timeout)
def admit_at(path, line):
    """Replace the proof enclosing the given line by Admitted; returns the name of the lemma."""
    ls = open(path).read().split("\n")
    pat = re.compile(r"^\s*(?:Local |Global )?(Theorem|Lemma|Example|Corollary|Fact|Remark|Instance)\s+(\w+)")
    s = min(line - 1, len(ls) - 1)
    while s >= 0 and not pat.match(ls[s]): s -= 1
    if s < 0: return None
    name = pat.match(ls[s]).group(2)
    one = re.match(r"^(.*?\.)\s+Proof\b.*\b(Qed|Defined)\.\s*$", ls[s])
    if one:
        ls[s] = one.group(1) + " Admitted."
        open(path, "w").write("\n".join(ls))
        return name
    p = s
    while p < len(ls) and not re.match(r"^\s*Proof\b", ls[p]): p += 1
    e = p
    while e < len(ls) and not re.search(r"\b(Qed|Defined|Admitted)\.\s*$", ls[e]): e += 1
    if p >= len(ls) or e >= len(ls): return None
    if ls[e].strip() == "Admitted.": return None
    ls[p:e+1] = ["Proof.", "Admitted."] + [""] * (e - p - 1)
    open(path, "w").write("\n".join(ls))
    return name
def build(d):
    failed = []
    for _ in range(60):
        r = sh("make -k -j2 2>&1", d)
        if r.returncode == 0: return failed, None, r.stdout
        errs = re.findall(r'File "\./(theories/\w+\.v)", line (\d+)[^\n]*\n((?:(?!File ).*\n){0,12})', r.stdout)
        todo = {}
        for f, l, msg in errs:
            if "Error" in msg and f not in todo: todo[f] = int(l)
        if not todo: return failed, "no error found: " + r.stdout[-800:], ""
        for f, l in todo.items():
            n = admit_at(os.path.join(d, f), l)
            if n is None: return failed, "cannot admit %s:%d" % (f, l), ""
            failed.append(n)
    return failed, "too many", ""
BASE = os.environ.get("MUT_BASE", "/tmp/mutbase")
WORK = os.environ.get("MUT_WORK", "/tmp/mut")
def run(m):
    d = WORK + "/rocq"
    os.makedirs(WORK, exist_ok=True)
    sh("rm -rf %s; cp -a %s %s" % (d, SRC, d), "/tmp")
    sh("coq_makefile -f _CoqProject -o Makefile", d)
    p = os.path.join(d, "theories", m["file"])
    s = open(p).read()
    assert s.count(m["old"]) >= 1, ("old text not found", m)
    if not m.get("all"): assert s.count(m["old"]) == 1, ("old text not unique", m)
    open(p, "w").write(s.replace(m["old"], m["new"]))
    failed, err, _ = build(d)
    if err: return failed, [], err
    # which property theorems rest on an admitted proof
    props = [f for f in os.listdir(d + "/theories") if f.endswith("Props.v")]
    broken = []
    for f in sorted(props):
        vo = "/theories/" + f + "o"
        if os.path.getmtime(d + vo) == os.path.getmtime(SRC + vo): continue   # not rebuilt, does not depend on the edit
        src = open(d + "/theories/" + f).read()
        names = re.findall(r"^Theorem (C\d\d\w*)", src, re.M)
        q = "From Verif Require %s.\n" % f[:-2]
        for n in names: q += 'Goal True. idtac "@@%s". exact I. Qed.\nPrint Assumptions %s.%s.\n' % (n, f[:-2], n)
        open(WORK + "/q.v", "w").write(q)
        r = sh("coqc -Q theories Verif %s/q.v" % WORK, d)
        if r.returncode != 0: return failed, broken, "query failed " + r.stdout[-500:] + r.stderr[-500:]
        for chunk in r.stdout.split("@@")[1:]:
            n = chunk.split()[0]
            if any(re.search(r"\b%s\b" % re.escape(x), chunk.split("\n", 1)[1]) for x in failed) or n in failed:
                broken.append(n)
    return failed, broken, None
def snapshot():
    """Build the last commit once in /tmp/mutbase."""
    global SRC
    b = BASE
    sh("rm -rf %s && mkdir -p %s && git -C %s archive HEAD rocq | tar x -C %s" % (b, b, ROOT, b), "/tmp")
    SRC = b + "/rocq"
    r = sh("coq_makefile -f _CoqProject -o Makefile && make -j2", SRC)
    assert r.returncode == 0, r.stdout[-500:] + r.stderr[-500:]
if __name__ == "__main__":
    if "--keep" not in sys.argv: snapshot()
    else: SRC = BASE + "/rocq"
    ms = json.load(open(sys.argv[1]))
    dry = "--dry" in sys.argv
    for m in ms:
        failed, broken, err = run(m)
        print(m["definition"], "|", m["edit"], "->", broken, "| proofs:", failed, "| ERR" if err else "", err or "", flush=True)
        if not dry and not err:
            with open(os.path.join(ROOT, "seeded", "LOG.jsonl"), "a") as f:
                f.write(json.dumps(dict(definition=m["file"][:-2] + "." + m["definition"], edit=m["edit"], claim=m["claim"],
                    theorems_failed=broken, proofs_failed=failed, theorems_tightened=m.get("tightened", []))) + "\n")
