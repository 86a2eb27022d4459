"""Generate mutants mechanically: automut.py SEED PER_DEFINITION OUT.json [File_Model.v ...]

Every definition of the models is mutated by replacing one token by a similar one (comparison, operator, constant, order of
the branches of a conditional). The claims broken are not known in advance: a survivor has to be judged by hand."""
import glob, json, os, random, re, sys
seed, per, out = int(sys.argv[1]), int(sys.argv[2]), sys.argv[3]
root = os.environ.get("ROOT", "/verif/rocq") + "/theories/"
files = sys.argv[4:] or sorted(os.path.basename(f) for f in glob.glob(root + "*_Model.v"))
random.seed(seed)
SWAPS = [(r"<=\?", "<?"), (r"<\?", "<=?"), (r"Nat\.leb", "Nat.ltb"), (r"Nat\.ltb", "Nat.leb"), (r"\bZ\.leb\b", "Z.ltb"), (r"\bZ\.ltb\b", "Z.leb"),
  (r" && ", " || "), (r" \|\| ", " && "), (r" \+ ", " - "), (r" - ", " + "), (r" \* ", " + "), (r"\btrue\b", "false"), (r"\bfalse\b", "true"),
  (r"\bnegb ", " "), (r"\bforallb\b", "existsb"), (r"\bexistsb\b", "forallb"), (r"\bfst\b", "snd"), (r"\bsnd\b", "fst"), (r"\beltb\b", "eleb"), (r"\beleb\b", "eltb"),
  (r"\bmin\b", "max"), (r"\bmax\b", "min"), (r"\bZ\.min\b", "Z.max"), (r"\bZ\.max\b", "Z.min"), (r"\bfirstn\b", "skipn"), (r"\bskipn\b", "firstn"),
  (r"\bS ([a-z]\w*)", r"\1"), (r"\b0\b", "1"), (r"\b1\b", "2"), (r"\b1\b", "0"), (r"\b2\b", "3"), (r"\beadd\b", "esub"), (r"\besub\b", "eadd"), (r"\bemul\b", "ediv"), (r"\bediv\b", "emul"),
  (r"\bPInf\b", "NInf"), (r"\bNInf\b", "PInf"), (r"\bNaN\b", "(Fin a0)"), (r"\bNaN\b", "(Fin 0%R)"), (r"\beabs \(", "("), (r"\ba0\b", "a1"), (r"\ba1\b", "a0"), (r"\bRlt_dec\b", "Rle_dec"),
  (r"\bseq 0\b", "seq 1"), (r"\brev ", " "), (r"\bmap fst\b", "map snd"), (r"\bmap snd\b", "map fst"), (r"ValueError", "KeyError"), (r"AssertionError", "ValueError"), (r"TypeError", "ValueError"),
  (r"KeyError", "ValueError"), (r"NotFittedError", "ValueError"), (r"\bfilter \(fun (\w+) => ", r"filter (fun \1 => negb @@ "), (r"\bhd\b", "last"), (r"\blast\b", "hd"),
  (r"\bconcat_outer\b", "concat_inner"), (r"\bargmax\b", "argmin"), (r"\bOk \(Some ", "Ok (Some @@ "), (r" \+\+ ", " @swap@ "), (r"\bdropna\b", "id"), (r"\bdropna_s\b", "id"), (r"(?<=\()(\w+) (\w+)(?=\))", r"\1 @@"), ]
defre = re.compile(r"^\s*(?:Definition|Fixpoint)\s+([\w']+)", re.M)
done = {(json.loads(l).get("file"), json.loads(l)["edit"]) for l in open("/verif/seeded/LOG.jsonl")}
def strip(s):  # positions inside comments are not mutated
    mask, depth, i = [True] * len(s), 0, 0
    while i < len(s):
        if s.startswith("(*", i): depth += 1; mask[i] = mask[min(i+1, len(s)-1)] = False; i += 2; continue
        if s.startswith("*)", i): mask[i] = mask[i+1] = False; depth -= 1; i += 2; continue
        if depth: mask[i] = False
        i += 1
    return mask
muts = []
for f in files:
    s = open(root + f).read(); mask = strip(s)
    ds = [m for m in defre.finditer(s) if mask[m.start(1)]]
    for k, d in enumerate(ds):
        nxt = re.compile(r"\.\s*(\n|$)").search(s, d.end()); end = nxt.start() if nxt else len(s)
        body = s.find(":=", d.end()); 
        if body < 0 or body > end: continue
        cands = []
        for a, b in SWAPS:
            if "@@" in b or "@swap@" in b: continue
            for m in re.compile(a).finditer(s, body, end):
                if not all(mask[m.start():m.end()]): continue
                new = m.expand(b) if "\\" in b else b
                cands.append((m.start(), m.end(), new))
        for m in re.compile(r"\bthen (\S[^\n]*?) else (\S[^\n]*?)(?=\n|\.\s*$|$)").finditer(s, body, end):
            cands.append((m.start(), m.end(), "then %s else %s" % (m.group(2), m.group(1))))
        random.shuffle(cands); n = 0
        for (i, j, new) in cands:
            # enough context to make the old text unique
            lo, hi = i, j
            while s.count(s[lo:hi]) > 1:
                lo = max(0, lo - 8); hi = min(len(s), hi + 8)
            old = s[lo:hi]; rep = s[lo:i] + new + s[j:hi]
            edit = "%s -> %s" % (old, rep)
            if (f, edit) in done or (f, " ".join(edit.split())) in done: continue
            muts.append(dict(file=f, definition=d.group(1), old=old, new=rep, edit=edit, claim="?", expect=[])); n += 1
            if n >= per: break
json.dump(muts, open(out, "w"), indent=1); print(len(muts))
