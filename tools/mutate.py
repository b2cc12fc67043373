#!/usr/bin/env python3
"""Seed one bug into a scratch copy of the model and report which proofs break.

usage: mutate.py SPEC.json   (a list of {"file","definition","old","new","edit","claim"[,"count"]})

For each entry the tree is copied to a scratch directory outside /verif, the edit is applied,
and every file that depends on the edited one is rebuilt.  A proof that fails is replaced by
Admitted so that the build goes on; a property theorem counts as broken when its own proof fails
or Print Assumptions shows that it rests on an admitted lemma.  One JSON line per entry is printed.
"""
import json, os, re, shutil, subprocess, sys, tempfile, time

SRC = os.environ.get("MUTATE_SRC", "/verif/rocq")

def sentences(text):
    """Split Coq text in sentences (kept with their whitespace)."""
    out, i, start, depth, instr = [], 0, 0, 0, False
    n = len(text)
    while i < n:
        c = text[i]
        if instr:
            if c == '"': instr = False
            i += 1; continue
        if text.startswith("(*", i): depth += 1; i += 2; continue
        if depth and text.startswith("*)", i): depth -= 1; i += 2; continue
        if depth: i += 1; continue
        if c == '"': instr = True; i += 1; continue
        if c == '.' and (i + 1 >= n or text[i + 1].isspace()):
            out.append(text[start:i + 1]); start = i + 1
        i += 1
    if text[start:].strip(): out.append(text[start:])
    return out

def strip_comments(s):
    prev = None
    while prev != s:
        prev = s
        s = re.sub(r"\(\*(?:(?!\(\*|\*\)).)*\*\)", "", s, flags=re.S)
    return s.strip()

HEAD = re.compile(r"^(?:#\[[^\]]*\]\s*)?(?:Local\s+|Global\s+)?(Lemma|Theorem|Example|Corollary|Remark|Fact|Instance|Definition|Fixpoint)\s+([\w']+)")

def chunks(text):
    """[(kind, name, [sentences])]; kind = 'proof' for statement + proof, else 'plain'."""
    ss, res, i = sentences(text), [], 0
    while i < len(ss):
        s = strip_comments(ss[i])
        if i + 1 < len(ss) and re.match(r"^Proof\b", strip_comments(ss[i + 1])):
            m = HEAD.match(s)
            j = i + 1
            while not re.search(r"\b(Qed|Defined)\.$", strip_comments(ss[j])):
                j += 1
            res.append(("proof", m.group(2) if m else "?", ss[i:j + 1])); i = j + 1
        else:
            m = HEAD.match(s)
            res.append(("plain", m.group(2) if m else "", ss[i:i + 1])); i += 1
    return res

def coqc(d, f, timeout):
    try:
        p = subprocess.run(["coqc", "-Q", "theories", "Verif", f], cwd=d, stdout=subprocess.PIPE,
                           stderr=subprocess.STDOUT, text=True, timeout=timeout)
        return p.returncode, p.stdout
    except subprocess.TimeoutExpired as e:
        return 124, (e.stdout or b"").decode() if isinstance(e.stdout, bytes) else (e.stdout or "")

def find_failures(d, f, per_sentence):
    """Run the file chunk by chunk in coqtop; return names of failing proofs, and hard errors."""
    text = open(os.path.join(d, f)).read()
    chs = chunks(text)
    p = subprocess.Popen(["coqtop", "-q", "-Q", "theories", "Verif"], cwd=d, stdin=subprocess.PIPE,
                         stdout=subprocess.PIPE, stderr=subprocess.STDOUT, text=True, bufsize=1)
    cnt = [0]
    def send(t):
        cnt[0] += 1
        mark = "MARK%dEND" % cnt[0]
        p.stdin.write(t + "\nCheck %s.\n" % mark); p.stdin.flush()
        buf = []
        while True:
            l = p.stdout.readline()
            if not l: raise RuntimeError("coqtop died")
            buf.append(l)
            if "The reference" in l and mark in l: break
        return "".join(buf)
    bad, hard = [], []
    send("Set Default Timeout %d." % per_sentence)
    for kind, name, ss in chs:
        t = "".join(ss)
        out = send(t)
        # drop the marker errors
        errs = [m for m in re.findall(r"(Error:.*?)(?=\n\n|\Z)", out, flags=re.S)
                if "MARK" not in m]
        timeout_hit = "Timeout!" in out
        if errs or timeout_hit:
            if kind == "proof":
                bad.append((name, " ".join(errs[0].split())[:150] if errs else "timeout"))
                send("Abort All."); send(ss[0] + " Admitted.")
            else:
                hard.append((strip_comments(t)[:80], errs[:1]))
    p.stdin.close(); p.kill()
    return bad, hard

def admit(d, f, names):
    text = open(os.path.join(d, f)).read()
    out = []
    for kind, name, ss in chunks(text):
        if kind == "proof" and name in names:
            out.append(ss[0] + " Admitted.")
        else:
            out.append("".join(ss))
    open(os.path.join(d, f), "w").write("".join(out) + "\n")

def drop_plain(d, f, names):
    text = open(os.path.join(d, f)).read()
    open(os.path.join(d, f), "w").write("".join("".join(ss) for k, n, ss in chunks(text) if not (k == "plain" and n in names)))

def run(spec, keep=False):
    d = tempfile.mkdtemp(prefix="mut_", dir="/tmp")
    try:
        shutil.rmtree(d); shutil.copytree(SRC, d)
        files = [l.strip() for l in open(os.path.join(d, "_CoqProject")) if l.strip().endswith(".v")]
        target = "theories/" + spec["file"]
        t = open(os.path.join(d, target)).read()
        edits = spec.get("edits") or ([] if "pos" in spec else [[spec["old"], spec["new"]]])
        if "pos" in spec:
            a, b = spec["pos"]
            if t[a:b] != spec["old"]: return {"error": "text moved"}
            t = t[:a] + spec["new"] + t[b:]
        for old, new in edits:
            if t.count(old) < 1: return {"error": "old text not found: " + old}
            if t.count(old) > 1 and not spec.get("all"):
                return {"error": "old text not unique (%d): %s" % (t.count(old), old)}
            t = t.replace(old, new)
        open(os.path.join(d, target), "w").write(t)
        deps = {}
        for f in files:
            body = open(os.path.join(d, f)).read()
            mods = set()
            for m in re.finditer(r"From Verif Require(?: Import| Export)?([^.]*)\.", body):
                mods |= set(m.group(1).split())
            deps[f] = mods
        dirty = {os.path.basename(target)[:-2]}
        broken_lemmas, hard_errors, props, admitted = [], [], [], set()
        for f in files:
            name = os.path.basename(f)[:-2]
            if f != target and not (deps[f] & dirty): continue
            dirty.add(name)
            rc, out = coqc(d, f, spec.get("timeout", 900))
            if rc != 0:
                bad, hard = find_failures(d, f, spec.get("per_sentence", 120))
                hard_errors += hard
                broken_lemmas += [b[0] for b in bad]
                admit(d, f, {b[0] for b in bad})
                rc, out = coqc(d, f, spec.get("timeout", 900))
                if rc != 0:
                    hard_errors.append((f, out.strip()[-300:]))
                    return {"failed": broken_lemmas, "hard": hard_errors, "props": props, "stopped_at": f}
                if "Props" in name: props += [b[0] for b in bad]
            if "Props" in name:
                # each Print Assumptions output follows in order
                th = re.findall(r"^Print Assumptions\s+([\w']+)\.", open(os.path.join(d, f)).read(), re.M)
                blocks = re.split(r"(?=^Closed under the global context|^Axioms:)", out, flags=re.M)
                blocks = [b for b in blocks if b.startswith("Closed") or b.startswith("Axioms:")]
                for n, b in zip(th, blocks):
                    if b.startswith("Axioms:") and n not in props: props.append(n)
        return {"failed": broken_lemmas, "hard": hard_errors, "props": props}
    finally:
        if not keep: shutil.rmtree(d, ignore_errors=True)

if __name__ == "__main__":
    from concurrent.futures import ThreadPoolExecutor
    specs = json.load(open(sys.argv[1]))
    jobs = int(sys.argv[2]) if len(sys.argv) > 2 else 3
    log = open(sys.argv[3], "a") if len(sys.argv) > 3 else None
    def one(s):
        t0 = time.time(); r = run(s); r["secs"] = int(time.time() - t0)
        if log and "error" not in r:
            log.write(json.dumps({"definition": s["definition"], "edit": s["edit"], "claim": s["claim"],
                "failed": r["props"] or [h[0] for h in r["hard"]], "failed_lemmas": r["failed"][:12],
                "why_false": s.get("why_false", ""), "tightened": s.get("tightened", [])}) + "\n"); log.flush()
        print(s["definition"], "|", s["edit"], "=>", json.dumps(r), flush=True)
    with ThreadPoolExecutor(jobs) as ex: list(ex.map(one, specs))
