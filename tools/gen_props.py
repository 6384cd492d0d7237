#!/usr/bin/env python3
"""Write rocq/theories/PropertiesN.v from rocq/theories/MainN.v.

Every `Lemma|Example Cxx_..._main : S. Proof.` of MainN.v becomes
`Theorem|Example Cxx_... : S. Proof. exact Cxx_..._main. Qed.` with
`Print Assumptions` beneath it, so that the property files contain nothing but
statements.  Run after editing a MainN.v; the result is committed.
"""
import glob, os, re
T = os.path.join(os.path.dirname(os.path.abspath(__file__)), "..", "rocq", "theories")
PAT = re.compile(r"((?:\(\*\*(?:(?!\*\)).)*\*\)\n)?)(Lemma|Example) (C\d\d+_\w+)_main\b(.*?)\.\nProof\.", re.S)
for main in sorted(glob.glob(os.path.join(T, "Main[0-9]*.v"))):
    n = re.search(r"Main(\d+)\.v", main).group(1)
    src = open(main).read()
    reqs = "\n".join(re.findall(r"^From Coq .*?\.$", src, re.M | re.S)[:1])
    frm = re.search(r"^From Verif Require Import (.*?)\.$", src, re.M | re.S).group(1)
    extra = "\n".join(l for l in src.splitlines() if re.match(r"^(Import|Open Scope|Local Open Scope|Close Scope)", l))
    out = ["(** Generated by tools/gen_props.py from Main%s.v: statements of the properties." % n,
           "    Every theorem is closed by [exact]; its assumptions are printed beneath it. *)",
           reqs, "From Verif Require Import %s Main%s." % (" ".join(frm.split()), n), extra, ""]
    for doc, kind, name, stmt in PAT.findall(src):
        out.append(doc + "%s %s%s.\nProof. exact %s_main. Qed." %
                   ("Theorem" if kind == "Lemma" else "Example", name, stmt, name))
        if kind == "Lemma":
            out.append("Print Assumptions %s." % name)
        out.append("")
    open(os.path.join(T, "Properties%s.v" % n), "w").write("\n".join(out))
    print("Properties%s.v" % n, len(PAT.findall(src)), "statements;", len(re.findall(r"_main\b.*:", src)))
