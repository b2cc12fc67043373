#!/usr/bin/env python3
"""List small edits of a model file that still type-check, as input for mutate.py.

usage: automut.py MODEL.v OUT.json [skip=name,name...]
"""
import json, os, re, subprocess, sys, tempfile, shutil
from concurrent.futures import ThreadPoolExecutor
SRC = os.environ.get("MUTATE_SRC", "/verif/rocq")
f, out = sys.argv[1], sys.argv[2]
skip = set(sys.argv[3].split("=")[1].split(",")) if len(sys.argv) > 3 else set()
text = open(os.path.join(SRC, "theories", f)).read()

# blank out comments and strings for matching
def blank(t):
    o, i, depth, instr = list(t), 0, 0, False
    while i < len(t):
        if instr:
            if t[i] == '"': instr = False
            o[i] = " "; i += 1; continue
        if t.startswith("(*", i): depth += 1; o[i] = o[i+1] = " "; i += 2; continue
        if depth and t.startswith("*)", i): depth -= 1; o[i] = o[i+1] = " "; i += 2; continue
        if depth:
            if t[i] != "\n": o[i] = " "
            i += 1; continue
        if t[i] == '"': instr = True; o[i] = " "
        i += 1
    return "".join(o)
B = blank(text)
defs = [(m.start(), m.group(2)) for m in re.finditer(r"^(Definition|Fixpoint)\s+([\w']+)", B, re.M)]
body_end = lambda s: B.index(".\n", s) if ".\n" in B[s:] else len(B)

RULES = [
  (r"<\?", "<=?", "strict comparison made weak"), (r"<=\?", "<?", "weak comparison made strict"),
  (r"(?<![<>:])=\?", "<=?", "equality made <="), (r"&&", "||", "and made or"), (r"\|\|", "&&", "or made and"),
  (r"\bnegb\b", "", "negation dropped"), (r"\btrue\b", "false", "true made false"), (r"\bfalse\b", "true", "false made true"),
  (r"\badd128\b", "sub_chk", "addition made subtraction"), (r"\bsub_chk\b", "add128", "subtraction made addition"),
  (r"\badd64\b", "sub_chk", "addition made subtraction"),
  (r"\bmul256\b", "add256", "product made sum"),
  (r"\bN\.min\b", "N.max", "min made max"), (r"\bN\.max\b", "N.min", "max made min"),
  (r"\bctx_current\b", "ctx_predecessor", "current account read as predecessor"),
  (r"\bctx_predecessor\b", "ctx_current", "predecessor read as current account"),
  (r"\bctx_predecessor\b", "ctx_signer", "predecessor read as signer"),
  (r"\bctx_attached\b", "ctx_balance", "deposit read as balance"),
  (r"\bminsert\b", "(fun _ _ m => m)", "insertion dropped"), (r"\bmremove\b", "(fun _ m => m)", "removal dropped"),
  (r"\bsadd\b", "(fun _ m => m)", "insertion dropped"), (r"\bsremove\b", "(fun _ m => m)", "removal dropped"),
  (r"\bset_\w+\b", "(fun _ s => s)", "update dropped"), (r"\bwith_\w+\b", "(fun _ s => s)", "update dropped"),
  (r"(?<![\w.])\d+(?![\w.])", None, "number plus one"),
  (r" \+ ", " - ", "plus made minus"), (r" - (?!\()", " + ", "minus made plus"),
]
cands = []
for k, (s, name) in enumerate(defs):
    if name in skip: continue
    e = body_end(s)
    a = B.index(":=", s) + 2 if ":=" in B[s:e] else s
    seg = B[a:e]
    for pat, new, desc in RULES:
        for m in re.finditer(pat, seg):
            old = m.group(0)
            n = new if new is not None else str(int(old) + 1)
            cands.append((a + m.start(), a + m.end(), n, name, desc))
    # dropped checks: assert! X orelse
    for m in re.finditer(r"assert! (.*?) orelse", seg, re.S):
        cands.append((a + m.start(1), a + m.end(1), "true", name, "check dropped"))
    # dropped calls:  let! x := E in  with unit result
    for m in re.finditer(r"let! _ := (.*?) in", seg, re.S):
        cands.append((a + m.start(1), a + m.end(1), "Ok tt", name, "check dropped"))
    # if: branches swapped by constant condition
    for m in re.finditer(r"\bif (.*?)\s+then\b", seg, re.S):
        for v in ("true", "false"):
            cands.append((a + m.start(1), a + m.end(1), v, name, "condition always " + v))
    # list literals
    for m in re.finditer(r"\[([^\[\];]+)\]", seg):
        cands.append((a + m.start(), a + m.end(), "[]", name, "only element dropped"))
    for m in re.finditer(r"\[([^\[\];]+);([^\[\]]+)\]", seg):
        cands.append((a + m.start(), a + m.end(), "[" + m.group(2) + "]", name, "first element dropped"))
        cands.append((a + m.start(), a + m.end(), "[" + m.group(1) + "]", name, "later elements dropped"))
    # adjacent identifiers swapped
    for m in re.finditer(r"(?<=[ (])([a-z]\w*|\([a-z][\w ]*\)) ([a-z]\w*|\([a-z][\w ]*\))(?=[ );\n])", seg):
        if m.group(1) in ("let", "if", "then", "else", "match", "with", "in", "orelse", "fun", "end", "as", "return") or m.group(2) in ("in", "then", "else", "with", "orelse", "end", "as"): continue
        if m.group(1) == m.group(2): continue
        cands.append((a + m.start(), a + m.end(), m.group(2) + " " + m.group(1), name, "arguments swapped"))
# second generation: one field of a new record left as it was; a variable read in place of another
def args_of(t, i):
    """spans of the atomic arguments of an application whose head ends at i"""
    res = []
    while True:
        while i < len(t) and t[i] in " \n": i += 1
        if i >= len(t): return res
        j = i
        if t[i] == "(" or t[i] == "[":
            depth = 0
            while True:
                if t[j] in "([": depth += 1
                if t[j] in ")]": depth -= 1
                j += 1
                if depth == 0: break
        else:
            while j < len(t) and (t[j].isalnum() or t[j] in "_'."): j += 1
            if j == i or t[i:j] in ("in", "then", "else", "with", "end", "let", "orelse"): return res
        res.append((i, j)); i = j
if os.environ.get("GEN2"):
    cands = []
    corpus = B
    for dep in re.findall(r"From Verif Require Import ([^.]*)\.", text):
        for m in dep.split():
            q = os.path.join(SRC, "theories", m + ".v")
            if os.path.exists(q): corpus += blank(open(q).read())
    fields = {}
    for m in re.finditer(r":=\s*(mk\w+)\s*\{(.*?)\}", corpus, re.S):
        fields[m.group(1)] = re.findall(r"(\w+)\s*:(?!=)", m.group(2))
    for k, (s, name) in enumerate(defs):
        if name in skip: continue
        e = body_end(s)
        head = B.index(":=", s) + 2 if ":=" in B[s:e] else s
        seg = B[head:e]
        bound = set(re.findall(r"\(([a-z][\w ']*?)\s*:", B[s:head]))
        names = set(x for b in bound for x in b.split()) | set(re.findall(r"let!? '?\(?([a-z]\w*)", seg)) | \
                set(x for g in re.findall(r"let!? '\(([\w, ()]*)\)", seg) for x in re.findall(r"[a-z]\w*", g))
        for m in re.finditer(r"\bmk\w+", seg):
            fl = fields.get(m.group(0), [])
            ar = args_of(seg, m.end())
            for fd, (i, j) in zip(fl, ar):
                for v in sorted(names):
                    if len(v) > 3: continue
                    n = "(%s %s)" % (fd, v)
                    if seg[i:j] != n: cands.append((head + i, head + j, n, name, "field kept"))
        for m in re.finditer(r"(?<![\w.'])[a-z]\w*(?![\w'])", seg):
            if m.group(0) not in names: continue
            if re.search(r"(let!? |let!? '\([\w, ]*|fun )$", seg[:m.start()]): continue
            for v in sorted(names):
                if v != m.group(0): cands.append((head + m.start(), head + m.end(), v, name, "other variable"))
    print(len(cands), "candidates", flush=True)
def ok(c):
    a, b, n, name, desc = c
    d = tempfile.mkdtemp(prefix="am_", dir="/tmp")
    try:
        p = os.path.join(d, f)
        open(p, "w").write(text[:a] + n + text[b:])
        r = subprocess.run(["coqc", "-Q", os.path.join(SRC, "theories"), "Verif", "-noglob", p], capture_output=True, timeout=60)
        return r.returncode == 0
    except subprocess.TimeoutExpired: return False
    finally: shutil.rmtree(d, ignore_errors=True)
with ThreadPoolExecutor(3) as ex: res = list(ex.map(ok, cands))
good = []
for c, r in zip(cands, res):
    if not r: continue
    a, b, n, name, desc = c
    ctx = " ".join(text[max(0, a - 30):a].split())[-30:] + "<<" + text[a:b] + " => " + n + ">>" + " ".join(text[b:b + 30].split())
    good.append({"file": f, "definition": name, "pos": [a, b], "old": text[a:b], "new": n, "edit": desc + ": " + ctx, "claim": "", "auto": True})
json.dump(good, open(out, "w"), indent=1)
print(f, len(cands), "candidates,", len(good), "type-check")
