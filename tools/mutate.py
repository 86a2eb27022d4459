"""Seeded-bug test: edit the model in a scratch copy, rebuild, report which property theorems no longer prove.

usage: mutate.py SPEC.json   with a list of objects
  {"file": "CV_Model.v", "definition": "...", "old": "...", "new": "...", "claim": "C05 ...", "expect": ["C05"]}
In the scratch copy every proof that no longer checks is replaced by Admitted, so that the property theorems that
rest on a broken lemma show up in Print Assumptions.  Theorems whose own proof breaks are reported too.
"""
import json, os, re, shutil, subprocess, sys, glob
ROOT = os.environ.get("ROOT", "/verif/rocq")   # a built copy of rocq/
FAST = bool(os.environ.get("FAST"))             # stop at the first lemma or theorem that breaks
def load_order():
    return [l.strip() for l in open(f"{ROOT}/_CoqProject") if l.strip().endswith(".v")]
def deps(files, d):
    out = subprocess.run(["coqdep", "-Q", "theories", "Verif", "-sort"] + files, cwd=d, capture_output=True, text=True).stdout
    order = out.split()
    dep = {}
    raw = subprocess.run(["coqdep", "-Q", "theories", "Verif"] + files, cwd=d, capture_output=True, text=True).stdout
    for line in raw.splitlines():
        if ":" not in line: continue
        l, r = line.split(":", 1)
        tgt = [x for x in l.split() if x.endswith(".vo")]
        if not tgt: continue
        dep[tgt[0][:-1]] = [x[:-1] for x in r.split() if x.endswith(".vo")]
    return order, dep
STMT = re.compile(r"^\s*(?:Local |Global |#\[[^\]]*\]\s*)?(Lemma|Theorem|Example|Corollary|Fact|Remark|Instance|Definition|Program Definition)\s+(\w+)")
def admit_at(path, line):
    """replace the proof that contains the line by Admitted; return the lemma's name"""
    L = open(path).read().split("\n")
    i = line - 1
    name = None
    k = i
    while k >= 0:
        m = STMT.match(L[k])
        if m: name = m.group(2); break
        k -= 1
    if name is None: return None
    j = k
    while j < len(L) and not re.search(r"\b(Qed|Defined)\.\s*$", L[j]): j += 1
    if j >= len(L): return None
    text = "\n".join(L[k:j+1])
    m = re.search(r"\bProof\b[^.]*\.", text)
    if not m: return None
    n_lines = text.count("\n")
    new = text[:m.start()] + "Admitted."
    new += "\n" * (n_lines - new.count("\n"))
    L[k:j+1] = new.split("\n")
    open(path, "w").write("\n".join(L))
    return name
def run(spec, idx):
    d = f"/tmp/mut/{os.path.basename(sys.argv[1])}.{idx}"
    shutil.rmtree(d, ignore_errors=True)
    shutil.copytree(ROOT, d)
    path = f"{d}/theories/{spec['file']}"
    s = open(path).read()
    if s.count(spec["old"]) != 1:
        return {"error": f"old text occurs {s.count(spec['old'])} times"}
    open(path, "w").write(s.replace(spec["old"], spec["new"]))
    order, dep = deps(load_order(), d)
    dirty = {f"theories/{spec['file']}"}
    for f in order:
        if any(x in dirty for x in dep.get(f, [])): dirty.add(f)
    broken, out = [], {}
    for f in order:
        if f not in dirty: continue
        for _ in range(60):
            # -time tells where a sentence that runs out of time or memory is
            try:
                r = subprocess.run(["bash", "-c", f"ulimit -v 4500000; exec coqc -q -time -Q theories Verif {f}"], cwd=d, capture_output=True, text=True, timeout=400)
                rc, err, so = r.returncode, r.stderr, r.stdout
            except subprocess.TimeoutExpired as e:
                rc, err, so = 1, "timeout", (e.stdout or b"").decode()
            if rc != 0 and not re.search(r'line (\d+), characters', err):
                ends = [int(x) for x in re.findall(r"(?m)^Chars \d+ - (\d+) ", so)]
                body = open(f"{d}/{f}", "rb").read()
                at = ends[-1] if ends else 0
                while at < len(body) and body[at:at+1].isspace(): at += 1
                err = f"line {body[:at+1].count(10) + 1}, characters"
            so = re.sub(r"(?m)^Chars \d+ - \d+ .*\n", "", so)
            if rc == 0:
                out[f] = so; break
            m = re.search(r'line (\d+), characters', err)
            if not m: return {"error": err[:500], "broken": broken}
            nm = admit_at(f"{d}/{f}", int(m.group(1)))
            if nm is None:
                return {"error": f"{f}: {err[:600]}", "broken": broken}
            broken.append(nm)
            if FAST and not re.search(r"(?m)^\s*Example %s\b" % nm, open(f"{ROOT}/{f}").read()):
                shutil.rmtree(d, ignore_errors=True); return {"broken_lemmas": broken, "failed": ["?"]}
        else:
            return {"error": "too many", "broken": broken}
    failed = []
    for f, so in out.items():
        if "_Props" not in f: continue
        src = open(f"{d}/{f}").read()
        names = re.findall(r"^Print Assumptions (\w+)\.", src, re.M)
        blocks = re.split(r"(?m)^(?=Closed under the global context|Axioms:)", so)
        blocks = [b for b in blocks if b.startswith("Closed") or b.startswith("Axioms")]
        for n, b in zip(names, blocks):
            if n in broken or any(re.search(rf"(?m)^(\w+\.)*{re.escape(x)}\b", b) for x in broken): failed.append(n)
        for n in re.findall(r"^(?:Theorem|Example) (\w+)", src, re.M):
            if n in broken and n not in failed: failed.append(n)
    shutil.rmtree(d, ignore_errors=True)
    return {"broken_lemmas": broken, "failed": failed}
if __name__ == "__main__":
    specs = json.load(open(sys.argv[1]))
    from concurrent.futures import ThreadPoolExecutor
    def one(t):
        r = run(t[1], t[0])
        open(sys.argv[1] + ".log", "a").write(json.dumps(dict(t[1], **r)) + "\n")
        return r
    open(sys.argv[1] + ".log", "w")
    with ThreadPoolExecutor(3) as ex:
        res = list(ex.map(one, enumerate(specs)))
    for s, r in zip(specs, res):
        print("##", s["definition"], "|", s.get("edit", s["new"])[:80], "|", s["claim"])
        if "error" in r: print("   ERROR", r["error"], r.get("broken"))
        else:
            miss = [e for e in s.get("expect", []) if not any(f.startswith(e) for f in r["failed"])]
            print("   broken:", r["broken_lemmas"][:12]); print("   failed:", r["failed"]); print("   MISSED:" if miss else "   ok", miss)
    json.dump([dict(s, **r) for s, r in zip(specs, res)], open(sys.argv[1] + ".out", "w"), indent=1)
