#!/usr/bin/env python3
"""Write rocq/theories/Prop_<X>.v from <X>Thms.v.

Every `Lemma L_Cnn_name : stmt. Proof. ... Qed.` becomes
`Theorem Cnn_name : stmt. Proof. exact L_Cnn_name. Qed. Print Assumptions Cnn_name.` and every
`Lemma E_Cnn_name` becomes `Example ex_Cnn_name`.  The comment before each lemma is copied, and so is
the file header up to the line `(* STATEMENTS *)`.
"""
import re, sys, os
def gen(path):
    src = open(path).read()
    mod = os.path.basename(path)[:-2]
    head, body = src.split("(* STATEMENTS *)", 1)
    head = re.sub(r"\A\(\*\*.*?\*\)\n", "", head, flags=re.S)
    out = ["(** Property theorems; proofs are in %s.v.  Generated by tools/gen_prop.py. *)\n" % mod, head.strip()+"\n",
           "From Verif Require Import %s.\n" % mod]
    # walk: comments and lemmas
    pat = re.compile(r"((?:\(\*\*(?:(?!\*\)).)*\*\)\s*)?)Lemma ([LE]_C\d+_\w+)(.*?)\nProof\.", re.S)
    n=0
    for m in pat.finditer(body):
        com, name, stmt = m.group(1), m.group(2), m.group(3)
        new = name[2:] if name[0]=="L" else "ex_"+name[2:]
        kw = "Theorem" if name[0]=="L" else "Example"
        out.append("\n%s%s %s%s\nProof. exact %s. Qed.\n" % (com, kw, new, stmt, name))
        if name[0]=="L":
            out.append("Print Assumptions %s.\n" % new); n+=1
    dst = os.path.join(os.path.dirname(path), "Prop_%s.v" % mod.replace("Thms",""))
    open(dst,"w").write("".join(out))
    print(dst, n)
for p in sys.argv[1:]: gen(p)
