#!/usr/bin/env python3
"""Fast screen of seeded bugs: rebuild what depends on the edit and stop at the first proof that fails.

usage: screen.py SPEC.json [jobs] [logfile]    (same SPEC as mutate.py; MUTATE_SRC is a compiled tree)
A mutant that no proof notices is reported as SURVIVED, to be looked at by hand.
"""
import json, os, re, shutil, subprocess, sys, tempfile, time
sys.path.insert(0, os.path.dirname(os.path.abspath(__file__)))
from mutate import chunks
SRC = os.environ.get("MUTATE_SRC", "/verif/rocq")

def lemma_at(path, line):
    n = 0; last = "?"
    for kind, name, ss in chunks(open(path).read()):
        n += "".join(ss).count("\n")
        if name: last = name
        if n + 1 >= line: return last
    return last

def run(spec):
    d = tempfile.mkdtemp(prefix="scr_", dir="/tmp")
    try:
        shutil.rmtree(d)
        subprocess.run(["cp", "-rl", SRC, d], check=True)
        files = [l.strip() for l in open(os.path.join(d, "_CoqProject")) if l.strip().endswith(".v")]
        target = "theories/" + spec["file"]
        t = open(os.path.join(d, target)).read()
        if "pos" in spec:
            a, b = spec["pos"]
            if t[a:b] != spec["old"]: return {"error": "text moved"}
            t = t[:a] + spec["new"] + t[b:]
        else:
            for old, new in spec.get("edits") or [[spec["old"], spec["new"]]]:
                if t.count(old) != 1 and not (spec.get("all") and t.count(old)):
                    return {"error": "old text found %d times: %s" % (t.count(old), old)}
                t = t.replace(old, new)
        os.remove(os.path.join(d, target))
        open(os.path.join(d, target), "w").write(t)
        deps = {}
        for f in files:
            mods = set()
            for m in re.finditer(r"From Verif Require(?: Import| Export)?([^.]*)\.", open(os.path.join(d, f)).read()):
                mods |= set(m.group(1).split())
            deps[f] = mods
        dirty, todo = {spec["file"][:-2]}, []
        for f in files:
            if f == target or deps[f] & dirty:
                dirty.add(os.path.basename(f)[:-2]); todo.append(f)
        for f in todo:
            for e in (".vo", ".vos", ".vok", ".glob"):
                p = os.path.join(d, f[:-2] + e)
                if os.path.exists(p): os.remove(p)
        for f in todo:
            p = subprocess.run(["timeout", str(spec.get("timeout", 600)), "coqc", "-Q", "theories", "Verif", f], cwd=d,
                               stdout=subprocess.PIPE, stderr=subprocess.STDOUT, text=True)
            if p.returncode:
                m = re.search(r'line (\d+), characters', p.stdout)
                return {"killed": os.path.basename(f), "rc": p.returncode,
                        "lemma": lemma_at(os.path.join(d, f), int(m.group(1))) if m else "?",
                        "msg": " ".join(p.stdout.split("Error:")[-1].split())[:120]}
        return {"survived": True}
    finally:
        shutil.rmtree(d, ignore_errors=True)

if __name__ == "__main__":
    from concurrent.futures import ThreadPoolExecutor
    specs = json.load(open(sys.argv[1]))
    jobs = int(sys.argv[2]) if len(sys.argv) > 2 else 3
    log = open(sys.argv[3], "a") if len(sys.argv) > 3 else None
    def one(s):
        t0 = time.time(); r = run(s); r["secs"] = int(time.time() - t0)
        if log:
            log.write(json.dumps(dict(s, result=r)) + "\n"); log.flush()
        print("SURVIVED" if r.get("survived") else "killed", s["definition"], "|", s["edit"], "=>", json.dumps(r), flush=True)
    with ThreadPoolExecutor(jobs) as ex: list(ex.map(one, specs))
