#!/usr/bin/env python3
"""Test the theorems against wrong programs.

usage: mutate.py SCRATCH MUTATIONS.json [LOG.jsonl]

Each mutation is {"definition", "file", "edit": [old, new], "claim", ...}.  The tree rocq/ is
copied to SCRATCH (outside the repository) and the edit applied there.  Proofs that no longer go
through are replaced by Admitted in the scratch copy until everything compiles; a property
theorem has failed if Print Assumptions then lists anything for it that is not an axiom of the
standard library.
"""
import json, os, re, shutil, subprocess, sys
HERE = os.path.dirname(os.path.abspath(__file__))
ROCQ = os.environ.get("ROCQ", os.path.join(HERE, "..", "rocq"))
STDLIB = ("ClassicalDedekindReals.", "FunctionalExtensionality.", "Classical_Prop.")
HEAD = re.compile(r"^\s*(?:Global |Local |#\[\w+\] )?(?:Lemma|Theorem|Example|Corollary|Instance|Fact|Remark)\s+(\w+)", re.M)

def admit(path, line):
    s = open(path).read()
    pos = sum(len(l) + 1 for l in s.split("\n")[:line - 1]) + 1
    heads = [m for m in HEAD.finditer(s) if m.start() <= pos]
    if not heads:
        return None
    h = heads[-1]
    p = s.index("Proof", h.start())
    q = re.compile(r"\b(Qed|Defined)\.").search(s, p)
    if pos > q.end() + 1 and pos > s.index("\n", q.end()):
        return None
    body = s[p:q.end()]
    s2 = s[:p] + "Proof. Admitted." + "\n" * body.count("\n") + s[q.end():]
    open(path, "w").write(s2)
    return h.group(1)

def last_sentence_line(d, f):
    r = subprocess.run("timeout 200 coqc -time -Q theories Verif theories/%s.v | tail -1" % f, shell=True, cwd=d, capture_output=True, text=True)
    m = re.match(r"Chars (\d+) - (\d+)", r.stdout)
    if not m:
        return 1
    b = open(os.path.join(d, "theories", f + ".v"), "rb").read()
    nxt = int(m.group(2)) + 2
    return b[:nxt].count(b"\n") + 1

def run(scratch, mut):
    d = os.path.join(scratch, "rocq")
    os.makedirs(scratch, exist_ok=True)
    subprocess.run(["rsync", "-a", "--delete", ROCQ + "/", d + "/"], check=True) if shutil.which("rsync") else (
        shutil.rmtree(d, ignore_errors=True), shutil.copytree(ROCQ, d))
    edits = mut["edit"]
    if isinstance(edits[0], str):
        edits = [edits]
    p = os.path.join(d, "theories", mut["file"])
    s = open(p).read()
    for old, new in edits:
        assert s.count(old) >= 1, ("no match", old)
        if s.count(old) > 1:
            assert mut.get("nth") is not None, ("ambiguous", old, s.count(old))
            parts = s.split(old)
            n = mut["nth"]
            s = old.join(parts[:n + 1]) + new + old.join(parts[n + 1:])
        else:
            s = s.replace(old, new)
    open(p, "w").write(s)
    subprocess.run("coq_makefile -f _CoqProject -o Makefile >/dev/null 2>&1", shell=True, cwd=d)
    lemmas = []
    for rnd in range(200):
        r = subprocess.run("make -k -j%s COQC='timeout %s coqc' 2>&1" % (os.environ.get("J", "3"), os.environ.get("T", "900")), shell=True, cwd=d, capture_output=True, text=True)
        errs = re.findall(r'File "\./theories/(\w+)\.v", line (\d+), characters [^\n]*\nError', r.stdout)
        if r.returncode == 0:
            break
        done = set()
        if not errs:
            t = re.findall(r"\[Makefile[^\]]*: theories/(\w+)\.vo\] (?:Error 124|Terminated)", r.stdout)
            errs = [(f, last_sentence_line(d, f)) for f in t]
            if not errs:
                return {"error": r.stdout[-1500:]}
        for f, l in errs:
            if f in done:
                continue
            done.add(f)
            n = admit(os.path.join(d, "theories", f + ".v"), int(l))
            if n is None:
                return {"error": "cannot admit %s:%s\n%s" % (f, l, r.stdout[-1500:])}
            lemmas.append(n)
            print("   admitted", f, n, flush=True)
    dep = {}
    for t, ps in re.findall(r"^(?:theories/(\w+)\.vo) [^:]*: (.*)$", open(os.path.join(d, ".Makefile.d")).read(), re.M):
        dep[t] = set(re.findall(r"theories/(\w+)\.vo\b", ps))
    users, todo = set(), [mut["file"][:-2]]
    while todo:
        f = todo.pop()
        if f not in users:
            users.add(f)
            todo += [g for g in dep if f in dep[g]]
    th = []
    reqs = []
    for f in sorted(os.listdir(os.path.join(d, "theories"))):
        m = re.match(r"(Properties\d+)\.v$", f)
        if m and m.group(1) in users:
            reqs.append(m.group(1))
            th += re.findall(r"^(?:Theorem|Example) (\w+)", open(os.path.join(d, "theories", f)).read(), re.M)
    chk = "From Verif Require Import %s.\n" % " ".join(reqs) + "".join("Print Assumptions %s.\n" % t for t in th)
    open(os.path.join(d, "chk.v"), "w").write(chk)
    r = subprocess.run("coqc -Q theories Verif chk.v", shell=True, cwd=d, capture_output=True, text=True)
    outs = re.split(r"(?=^Closed under the global context|^Axioms:)", r.stdout, flags=re.M)[1:]
    assert len(outs) == len(th), (len(outs), len(th), r.stderr[-500:])
    failed = [t for t, o in zip(th, outs) if any(not a.startswith(STDLIB) for a in re.findall(r"^([\w.]+)\s*(?::|$)", o[o.index("\n") + 1:], re.M))]
    return {"failed": failed, "lemmas": lemmas}

if __name__ == "__main__":
    scratch, muts = sys.argv[1], json.load(open(sys.argv[2]))
    log = sys.argv[3] if len(sys.argv) > 3 else None
    for mut in muts:
        print("==", mut["definition"], "|", mut["claim"], flush=True)
        r = run(scratch, mut)
        print("   ->", r, flush=True)
        if log and "failed" in r:
            e = mut["edit"] if isinstance(mut["edit"][0], str) else mut["edit"]
            with open(log, "a") as fh:
                fh.write(json.dumps({"definition": mut["definition"], "edit": "%s: %s" % (mut["file"], mut.get("what", "")), "diff": e,
                    "claim_broken": mut["claim"], "theorems_failed": r["failed"], "first_lemmas_failed": r["lemmas"][:6],
                    "theorems_tightened": mut.get("tightened", [])}) + "\n")
