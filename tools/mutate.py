"""Runs wrong programs against the theorems, in a scratch copy outside /verif.

usage: mutate.py MUTANTS.jsonl [n ...]
Each mutant is {"definition", "file", "old", "new", "edit", "claim"}.  The edit is
applied to a built copy; proofs that no longer go through are admitted there one
by one, so that every theorem resting on a broken proof shows in its Print
Assumptions.  One line per mutant is appended to seeded/LOG.jsonl."""
import json, os, re, shutil, subprocess, sys
ROOT = os.path.join(os.path.dirname(os.path.abspath(__file__)), "..")
MUT = os.environ.get("MUT_DIR", "/tmp/mut")
BASE, WORK = MUT + "/base", MUT + "/work"
WRAP = MUT + "/coqc.sh"
HEAD = re.compile(r"^\s*(?:#\[[^\]]*\]\s*)?(?:Local |Global )?(Theorem|Lemma|Example|Corollary|Fact|Definition|Fixpoint|Inductive|Record|Instance|Notation|Ltac|Section|End|Print Assumptions|Module|Hint|Opaque|Arguments)\s+([\w'.]*)")

def setup():
    os.makedirs(MUT, exist_ok=True)
    with open(WRAP, "w") as f:
        f.write('#!/bin/bash\nulimit -v 6000000\nf="${@: -1}"\nif [[ "$f" != *.v ]]; then exec coqc "$@"; fi\nrm -f "${f}o"\ntimeout 400 coqc "$@" > "$f.log" 2>&1\nr=$?\n'
                'if [ $r -eq 124 ]; then echo "TIMEOUT" >> "$f.log"; fi\nexit $r\n')
    os.chmod(WRAP, 0o755)
    if os.environ.get("KEEP_BASE") != "1":
        shutil.rmtree(BASE, ignore_errors=True)
        subprocess.run(["cp", "-a", os.path.join(ROOT, "rocq"), BASE], check=True)
    make(BASE)

def make(d):
    subprocess.run("coq_makefile -f _CoqProject -o Makefile >/dev/null; make -k -j2 COQC=%s" % WRAP, cwd=d, shell=True,
                   stdout=subprocess.DEVNULL, stderr=subprocess.DEVNULL)

def dependents(d, name):
    """the files that (transitively) require the given one, itself included"""
    fs = [os.path.join(d, l.strip()) for l in open(os.path.join(d, "_CoqProject")) if l.strip().endswith(".v")]
    hit = {name[:-2]}
    while True:
        n = len(hit)
        for f in fs:
            m = re.findall(r"From Verif Require (?:Import|Export) ([^.]*)\.", open(f).read())
            if hit & set(" ".join(m).split()): hit.add(os.path.basename(f)[:-2])
        if len(hit) == n: break
    return [f for f in fs if os.path.basename(f)[:-2] in hit]

def admit(path, line):
    """admit the proof around the given line; returns its name or None"""
    L = open(path).read().split("\n")
    i = line - 1
    if i >= len(L): i = len(L) - 1
    h = i
    while h >= 0 and not HEAD.match(L[h]): h -= 1
    if h < 0: return None, "start of file"
    m = HEAD.match(L[h])
    kind, name = m[1], m[2]
    p = h
    while p < len(L) and not re.search(r"\bProof\.", L[p]): p += 1
    if p > i or p >= len(L): return None, f"{kind} {name} (statement)"
    q = p
    while q < len(L) and not re.search(r"\b(Qed|Defined)\.\s*$", L[q]): q += 1
    pre = L[p][:L[p].index("Proof.")]
    L[p:q + 1] = [pre + "Proof. Admitted."] + [""] * (q - p)
    open(path, "w").write("\n".join(L))
    return (kind, name), None

def last_line(path):
    """the line of the sentence after the last one that was finished (out of time or memory)"""
    d = os.path.dirname(os.path.dirname(path))
    r = subprocess.run("ulimit -v 6000000; timeout 400 coqc -time -Q theories Verif %s" % path, cwd=d, shell=True,
                       capture_output=True, text=True, errors="replace")
    ends = re.findall(r"^Chars \d+ - (\d+) ", r.stdout, re.M)
    head = open(path, "rb").read()[:int(ends[-1]) if ends else 0]
    return head.count(b"\n") + 1

def blocks(log):
    out, cur = [], None
    for l in log.split("\n"):
        if l.startswith("Closed under the global context"):
            out.append([]); cur = None
        elif l.startswith("Axioms:"):
            cur = []; out.append(cur)
        elif cur is not None:
            m = re.match(r"^([\w'.]+)\s*(?::|$)", l)
            if m and not l.startswith(" "): cur.append(m[1].split(".")[-1])
    return out

def run(mu):
    shutil.rmtree(WORK, ignore_errors=True)
    subprocess.run(["cp", "-a", BASE, WORK], check=True)
    p = os.path.join(WORK, "theories", mu["file"])
    s = open(p).read()
    if s.count(mu["old"]) != 1:
        return {"error": f"old text occurs {s.count(mu['old'])} times"}
    open(p, "w").write(s.replace(mu["old"], mu["new"]))
    for f in dependents(WORK, mu["file"]):
        for x in (f + "o", f + ".log"):
            if os.path.exists(x): os.remove(x)
    broken, stuck = [], []
    for _ in range(60):
        make(WORK)
        bad = {}
        for line in open(os.path.join(WORK, "_CoqProject")):
            f = line.strip()
            if not f.endswith(".v"): continue
            f = os.path.join(WORK, f)
            if not os.path.exists(f + ".log"): continue
            ok = os.path.exists(f + "o")
            t = open(f + ".log", errors="replace").read()
            if ok or ("Error" not in t and "TIMEOUT" not in t and "memory" not in t): continue
            bad[f] = t
        if not bad: break
        progress = False
        for f, t in bad.items():
            m = re.findall(r'File "[^"]*", line (\d+), characters', t)
            b = os.path.basename(f)
            if not m:
                m = [str(last_line(f))]
            if b == mu["file"] and re.match(r"(Base|FloatLib|Strconv|Value|Doc|Expr|Pred|Tree|Regression|Model|Api|Race|Xml|Decode|TokenLoop|Array|Schema|Reflect|Nil|Workers|Build|Beside|Heap|Perf)\.v", b):
                return {"error": "mutant does not compile: " + t[-400:]}
            got, why = admit(f, int(m[-1]))
            if got: broken.append((b, *got)); progress = True
            else: stuck.append(f"{b}: {why}")
            os.remove(f + ".log")
        if not progress: break
    names = {n for _, _, n in broken}
    failed, unbuilt = [], []
    for line in open(os.path.join(WORK, "_CoqProject")):
        f = line.strip()
        if not os.path.basename(f).startswith("Properties"): continue
        f = os.path.join(WORK, f)
        src = open(f).read()
        thms = re.findall(r"^Print Assumptions ([\w']+)", src, re.M)
        if not os.path.exists(f + "o"):
            unbuilt.append(os.path.basename(f)); continue
        if not os.path.exists(f + ".log"): continue
        bs = blocks(open(f + ".log").read())
        if len(bs) != len(thms):
            stuck.append(f"{os.path.basename(f)}: {len(bs)} blocks for {len(thms)} theorems")
        for n, b in zip(thms, bs):
            if n in names or names & set(b): failed.append(n)
    ex = sorted(n for _, k, n in broken if k == "Example")
    lem = [f"{b[:-2]}.{n}" for b, k, n in broken if k != "Example"]
    return {"failed": failed, "examples": ex, "proofs": lem, "unbuilt": unbuilt, "stuck": sorted(set(stuck))}

def main():
    mus = [json.loads(l) for l in open(sys.argv[1]) if l.strip()]
    pick = [int(x) for x in sys.argv[2:]] or range(len(mus))
    setup()
    for i in pick:
        mu = mus[i]
        r = run(mu)
        print(i, mu["definition"], json.dumps(r), flush=True)
        if "error" in r: continue
        rec = {"definition": f"{mu['file'][:-2]}.{mu['definition']}", "edit": mu["edit"],
               "old": mu["old"], "new": mu["new"], "claim": mu["claim"],
               "theorems_failed": r["failed"], "first_proofs_broken": r["proofs"][:6], "examples_failed": r["examples"],
               "theorems_tightened": []}
        if r["unbuilt"]: rec["files_unbuilt"] = r["unbuilt"]
        with open(os.path.join(ROOT, "seeded", "LOG.jsonl"), "a") as f:
            f.write(json.dumps(rec) + "\n")
main()
