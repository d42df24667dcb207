"""Writes rocq/theories/Schema.v: the structs of package models as a table, from the
Go source (struct tags and UnmarshalXML methods), and what the quoted XML schema
declares for the same elements, from the comments.  usage: schema.py"""
import os, re
import xml.etree.ElementTree as ET
ROOT = os.path.join(os.path.dirname(os.path.abspath(__file__)), "..")
REPO = "/repo/models/"
BASIC = {"string": "KStr", "float64": "KFloat", "int": "KInt", "int64": "KInt", "uint": "KUint", "bool": "KBool"}
TYPE = re.compile(r'(?:/\*((?:(?!\*/).)*)\*/\s*)?^type (\w+) (struct \{(.*?)^\}|struct\s*\{\s*\}|[^\n]+)', re.S | re.M)

types, simple, loops, groups, xgroups = {}, {}, {}, {}, {}
for fn in ("elements.go", "complexTypes.go", "groups.go"):
    s = open(REPO + fn).read()
    for m in TYPE.finditer(s):
        at = s.index("type " + m[2] + " ", m.start())
        a, b = s.count("\n", 0, at) + 1, s.count("\n", 0, m.end()) + 1
        fs = []
        if m[3].startswith("struct"):
            for l in (m[4] or "").split("\n"):
                f = re.match(r"\s*(\w+)\s+(\S+)(?:\s+`(.*)`)?\s*$", l)
                if f:
                    t = re.search(r'xml:"([^"]*)"', f[3] or "")
                    d = re.search(r'default:"([^"]*)"', f[3] or "")
                    fs.append((f[1], f[2], t and t[1], d and d[1]))
        types[m[2]] = dict(doc=m[1] or "", struct=m[3].startswith("struct"), alias=m[3].strip(), fields=fs, where=f"{fn}:{a}-{b}")
    code = re.sub(r"/\*.*?\*/", lambda m: re.sub(r"[^\n]", " ", m[0]), s, flags=re.S)
    for m in re.finditer(r"^func \(x \*?(\w+)\) UnmarshalXML.*?^\}", code, re.S | re.M):
        a, b = code.count("\n", 0, m.start()) + 1, code.count("\n", 0, m.end()) + 1
        loops[m[1]] = (m[0], f"{fn}:{a}-{b}")
    for m in re.finditer(r"^func Get(\w+)\(name string\).*?^\}", code, re.S | re.M):
        g = re.findall(r'case "(\w+)":\s*return &(\w+)\{\}', m[0])
        assert all(x == y for x, y in g)
        groups[m[1]] = ([x for x, _ in g], f"{fn}:{code.count(chr(10), 0, m.start()) + 1}")
    for m in re.finditer(r'<xs:group name="([\w-]+)">.*?</xs:group>', s, re.S):
        xgroups[m[1]] = re.findall(r'<xs:element[^>]*ref="([\w-]+)"', m[0]) + ["@" + g for g in re.findall(r'<xs:group[^>]*ref="([\w-]+)"', m[0])]
for m in re.finditer(r"^type (\w+) (\w+)$", open(REPO + "simpleTypes.go").read(), re.M): simple[m[1]] = m[2]
for n, t in types.items():
    if not t["struct"] and t["alias"] in BASIC: simple[n] = t["alias"]

def under(t):
    """the struct a named type copies"""
    while t in types and not types[t]["struct"] and types[t]["alias"] in types: t = types[t]["alias"]
    return t

def fields(n):
    t = types[under(n)]
    body = loops[n][0] if n in loops else None
    out = []
    for go, ty, tag, dflt in t["fields"]:
        pre = re.match(r"[\[\]*]*", ty)[0]; base = ty[len(pre):]
        mult = {"": "One", "*": "Opt", "[]": "Many"}[pre]
        if go[0].islower(): continue
        if tag is None:
            if body is None: continue              # SimplePredicate.RawPredicateValue: an interface, skipped by encoding/xml
            assert mult != "Opt"; out.append(f'Field "" (Group {"true" if mult == "Many" else "false"} "{base}")'); continue
        name, _, flag = tag.partition(",")
        if flag == "innerxml": out.append('Field "" InnerXml')
        elif flag == "chardata": out.append('Field "" CharData')
        elif flag == "attr":
            k = BASIC[simple.get(base, base)]
            if body:
                if f'case "{name}":' not in body: raise SystemExit(f"{n}.{name} not in the loop")
                if (n, name) == ("Node", "recordCount"): k = "KRawFloat"
                elif (n, name) == ("ChildParent", "isRecursive"): k = "KYesNo"
                elif (n, name) == ("Apply", "returnInvalid"): k = '(KKeep "%s")' % dflt
                elif k != "KStr": raise SystemExit(f"{n}.{name}: {k}")
            assert mult != "Many"
            out.append(f'Field "{name}" (Attr {k} {"true" if mult == "Opt" else "false"})')
        else:
            if body and f'"{name}"' not in body: continue   # a field the loop never fills
            b = simple.get(base, base)
            if base == "Row": out.append(f'Field "{name}" Rows')
            elif b in BASIC: assert mult == "One"; out.append(f'Field "{name}" (SubBasic {BASIC[b]})')
            elif base in types and types[under(base)]["struct"]: out.append(f'Field "{name}" (Sub {mult} "{base}")')
            elif types[base]["alias"].startswith("interface"): continue  # skipped by encoding/xml
            else: raise SystemExit(f"{n}.{name}: {ty}")
    return out

def declared(n):
    m = re.search(r"(<xs:(?:element|complexType)\b.*</xs:(?:element|complexType)>)", types[n]["doc"], re.S)
    if not m: return None
    x = ET.fromstring('<r xmlns:xs="x">' + m[1] + "</r>")
    ats = [a.get("name") or a.get("ref") for a in x.iter("{x}attribute")]
    els = [e.get("ref") or e.get("name") for e in list(x.iter("{x}element"))[1 if x[0].tag == "{x}element" else 0:]]
    todo = [g.get("ref") for g in x.iter("{x}group")]
    while todo:
        g = todo.pop()
        for e in xgroups.get(g, []):
            if e[0] == "@": todo.append(e[1:])
            elif e not in els: els.append(e)
    return ats, sorted(set(els), key=els.index)

structs = sorted(n for n, t in types.items() if types[under(n)]["struct"])
o = ['''(** Generated by tools/schema.py from models/elements.go, complexTypes.go and
    groups.go: what the structs of package models read, field by field.

    [Struct loop fields]: [loop] says that the type has its own UnmarshalXML (a
    loop over tokens that knows exactly the listed children), otherwise
    encoding/xml fills the fields by reflection.  Left out are fields that no
    decoding ever writes: unexported ones, fields of interface type outside the
    loops, and Extensions of PMML, InlineTable and Segment. *)
From Verif Require Import Base.

(** How a text becomes a basic value.  KYesNo, KRawFloat and KKeep are the
    attributes ChildParent.isRecursive (elements.go:919-926), Node.recordCount
    (3357-3366) and Apply.returnInvalid (360-363, with its default tag). *)
Inductive basic := KStr | KFloat | KInt | KUint | KBool | KYesNo | KRawFloat | KKeep (d : string).
Inductive mult := One | Opt | Many.
Inductive kind :=
| Attr (b : basic) (ptr : bool)      (* an attribute, or a pointer to one *)
| CharData | InnerXml                (* the text, the raw text *)
| Sub (m : mult) (s : string)        (* child elements: a struct, a pointer, a slice *)
| SubBasic (b : basic)               (* a child element holding a basic value *)
| Rows                               (* []Row, elements.go:5969 *)
| Group (many : bool) (g : string).  (* an interface or a slice of them, filled from the elements of a group *)
Record field := Field { f_name : string; f_kind : kind }.
Record struct := Struct { s_loop : bool; s_fields : list field }.
''']
o.append("(** The Get functions of groups.go: the element names of a group; each name is\n    also the name of the struct. *)\nDefinition go_groups : list (string * list string) :=\n  [")
o.append(";\n   ".join('("%s", [%s]) (* %s *)' % (g, "; ".join('"%s"' % x for x in l), w) for g, (l, w) in sorted(groups.items())))
o.append("].\n\nDefinition go_structs : list (string * struct) :=\n  [")
rows = []
for n in structs:
    fs = fields(n)
    w = types[n]["where"] + (", " + loops[n][1] if n in loops else "")
    rows.append('("%s", Struct %s%s) (* %s *)' % (n, "true" if n in loops else "false", " [" + ";\n      ".join(fs) + "]" , w))
o.append(";\n   ".join(rows) + "].\n")
o.append('''
(** What the XML schema quoted above each struct declares: the attributes and
    the child elements (groups resolved) of the element. *)
Definition pmml_declares : list (string * (list string * list string)) :=
  [''')
rows = []
for n in structs:
    d = declared(n)
    if d is None: continue
    q = lambda l: "[" + "; ".join('"%s"' % x for x in l) + "]"
    rows.append('("%s", (%s, %s))' % (n, q(d[0]), q(d[1])))
o.append(";\n   ".join(rows) + "].\n")
open(os.path.join(ROOT, "rocq/theories/Schema.v"), "w").write("".join(x if x.endswith("\n") or x.endswith("[") else x for x in o))
print(len(structs), len(loops), len(rows))
