"""Writes rocq/theories/TestData.v: the documents of the repository's tests
(/repo/evaluation/testdata and tree_test.go) as terms of Xml.xml.
White space between elements is left out; raw inner text is kept for Constant
and Array only, the two elements that store it."""
import re, sys
from xml.dom import minidom
OUT = "/verif/rocq/theories/TestData.v"
T = "/repo/evaluation/testdata/"
FILES = [("tree_10", T + "tree/simple_1.0.xml"), ("tree_11", T + "tree/simple_1.1.xml"), ("tree_12", T + "tree/simple_1.2.xml"),
         ("tree_13", T + "tree/simple_1.3.xml"), ("tree_14", T + "tree/simple_1.4.xml"), ("tree_15", T + "tree/simple_1.5.xml"),
         ("tree_16", T + "tree/simple_1.6.xml"), ("xgb", T + "xgboost/xgboost.xml"),
         ("logreg_pca", T + "logreg/logreg_pca_1.0.xml")]
def q(s): return '"' + s.replace('"', '""') + '"'
def local(n): return n.split(":")[-1]
def conv(e, ind):
    pad = "\n" + " " * ind
    attrs = "; ".join(f"({q(local(k))}, {q(v)})" for k, v in e.attributes.items())
    inner = "".join(c.toxml() for c in e.childNodes) if local(e.tagName) in ("Constant", "Array") else ""
    elems = [c for c in e.childNodes if c.nodeType == c.ELEMENT_NODE]
    kids = []
    for c in e.childNodes:
        if c.nodeType == c.ELEMENT_NODE: kids.append(conv(c, ind + 1))
        elif c.nodeType in (c.TEXT_NODE, c.CDATA_SECTION_NODE) and (not elems or c.data.strip()):
            kids.append(f"Chars {q(c.data)}")
    return f"{pad}Elem {q(local(e.tagName))} [{attrs}] {q(inner)} [{'; '.join(kids)}]"
src = open("/repo/evaluation/tree_test.go").read()
docs = [(n, open(p, "rb").read(), p.replace("/repo/", "")) for n, p in FILES]
for m in re.finditer(r"(\w+)\s*= \[\]byte\(`(.*?)`\)", src, re.S):
    docs.append(("test_" + m[1], m[2].strip().encode(), "evaluation/tree_test.go"))
with open(OUT, "w") as f:
    f.write("(** Written by tools/xml2coq.py: the documents of the repository's own tests. *)\n"
            "From Verif Require Import Base Xml.\n")
    for n, data, where in docs:
        e = minidom.parseString(data).documentElement
        f.write(f"\n(** {where} *)\nDefinition {n} : xml :={conv(e, 2)}.\n")
print([d[0] for d in docs])
