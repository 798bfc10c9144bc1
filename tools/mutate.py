#!/usr/bin/env python3
"""Mutation testing of the theorems.

usage: mutate.py MUTANTS.json [--jobs N] [--only ID,...]

MUTANTS.json is a list of {id, file, definition, old, new, claim}.  Every mutant is applied to a scratch copy of
rocq/theories in /tmp/mut; all files that depend on the edited one are recompiled.  When a proof breaks, it is replaced by
Admitted and the compilation goes on, so that all theorems that no longer prove (directly, or because they use an admitted
lemma) are found.  Results are appended to /tmp/mut/results.jsonl (never to /verif)."""
import json, os, re, shutil, subprocess, sys, time
from concurrent.futures import ThreadPoolExecutor
SRC = os.environ.get("MUTSRC", "/verif/rocq/theories")   # a compiled snapshot of rocq/theories
ROOT = "/tmp/mut"
STMT = re.compile(r"^[ \t]*(?:Local |Global )?(Lemma|Theorem|Example|Corollary|Fact|Remark)\s+([A-Za-z0-9_']+)", re.M)

def deps():
    out = subprocess.run(["coqdep", "-Q", ".", "Verif"] + sorted(f for f in os.listdir(SRC) if f.endswith(".v")),
                         cwd=SRC, capture_output=True, text=True).stdout
    d = {}
    for line in out.splitlines():
        m = re.match(r"(\S+)\.vo\s.*?:\s*(.*)", line)
        if m:
            d[m.group(1)] = [x[:-3] for x in m.group(2).split() if x.endswith(".vo") and "/" not in x]
    return d

def order(d, start):
    aff = {start}
    changed = True
    while changed:
        changed = False
        for f, ds in d.items():
            if f not in aff and any(x in aff for x in ds):
                aff.add(f); changed = True
    res = []
    while len(res) < len(aff):
        for f in sorted(aff):
            if f not in res and all(x in res or x not in aff for x in d[f]):
                res.append(f)
    return res

def compile_file(w, f, timeout=900):
    try:
        return subprocess.run(["coqc", "-q", "-Q", ".", "Verif", f + ".v"], cwd=w, capture_output=True, text=True, timeout=timeout)
    except subprocess.TimeoutExpired:
        return None

def admit_at(text, pos):
    """Replace the proof enclosing character position [pos] by Admitted; returns (text, name) or None."""
    last = None
    for m in STMT.finditer(text):
        if m.start() <= pos: last = m
        else: break
    if last is None: return None
    p = re.compile(r"\bProof(?: using[^.]*)?\.").search(text, last.end())
    if p is None: return None
    q = re.compile(r"\b(Qed|Defined)\.").search(text, p.end())
    if q is None or pos > q.end(): return None
    if pos < p.start(): return None          # error in the statement
    return text[:p.start()] + "Admitted." + text[q.end():], last.group(2)

def run(mut, d, idx):
    w = f"{ROOT}/w{idx}"
    shutil.rmtree(w, ignore_errors=True); shutil.copytree(SRC, w)
    f = mut["file"].replace(".v", "")
    p = f"{w}/{f}.v"; s = open(p).read()
    if s.count(mut["old"]) != 1:
        return dict(mut, error=f"old text occurs {s.count(mut['old'])} times")
    open(p, "w").write(s.replace(mut["old"], mut["new"]))
    todo = order(d, f)
    for g in todo:
        for ext in (".vo", ".vos", ".vok", ".glob"):
            try: os.remove(f"{w}/{g}{ext}")
            except FileNotFoundError: pass
    broken = []
    t0 = time.time()
    for g in todo:
        for _ in range(400):
            r = compile_file(w, g)
            if r is None:
                return dict(mut, error=f"timeout in {g}", broken=broken)
            if r.returncode == 0: break
            m = re.search(r'File "\./?[^"]*", line (\d+), characters (\d+)-(\d+):\s*\n\s*Error', r.stderr + "\n" + r.stdout)
            if not m:
                return dict(mut, error=f"no location in {g}: {r.stderr[-300:]}", broken=broken)
            lines = open(f"{w}/{g}.v").read().split("\n")
            pos = sum(len(l) + 1 for l in lines[:int(m.group(1)) - 1]) + 0
            col = int(m.group(2))
            # coqc counts bytes
            pos += len(lines[int(m.group(1)) - 1].encode()[:col].decode(errors="ignore"))
            res = admit_at("\n".join(lines), pos)
            if res is None:
                return dict(mut, error=f"not in a proof: {g}:{m.group(1)}: {(r.stderr+r.stdout)[-400:]}", broken=broken)
            open(f"{w}/{g}.v", "w").write(res[0]); broken.append(res[1])
    # which theorems rest on an admitted one
    thms = []
    for g in todo:
        for m in STMT.finditer(open(f"{w}/{g}.v").read()):
            if m.group(1) == "Theorem" and re.match(r"C\d\d", m.group(2)): thms.append((g, m.group(2)))
    failed = []
    if broken:
        with open(f"{w}/ZCheck.v", "w") as h:
            h.write("".join(f"From Verif Require {g}.\n" for g in todo))
            for i, (g, t) in enumerate(thms):
                h.write(f'Goal True. idtac "@@{t}". exact I. Qed.\nPrint Assumptions Verif.{g}.{t}.\n')
        r = compile_file(w, "ZCheck")
        bs = set(broken)
        for part in r.stdout.split("@@")[1:]:
            name, _, rest = part.partition("\n")
            names = set(x.split(".")[-1] for x in re.findall(r"^([A-Za-z0-9_.']+)\s*(?::|$)", rest, re.M))
            if names & bs or name.strip() in bs: failed.append(name.strip())
        failed = sorted(set(failed) | {b for b in broken if re.match(r"C\d\d_", b) and any(b == t for _, t in thms)})
    return dict(mut, direct=[b for b in broken if any(b == t for _, t in thms)], broken=broken, failed=failed, secs=round(time.time() - t0))

def main():
    muts = json.load(open(sys.argv[1]))
    jobs = int(sys.argv[sys.argv.index("--jobs") + 1]) if "--jobs" in sys.argv else 3
    if "--only" in sys.argv:
        only = sys.argv[sys.argv.index("--only") + 1].split(","); muts = [m for m in muts if m["id"] in only]
    os.makedirs(ROOT, exist_ok=True)
    done = set()
    rp = f"{ROOT}/results.jsonl"
    if os.path.exists(rp) and "--force" not in sys.argv:
        done = {json.loads(l)["id"] for l in open(rp)}
    muts = [m for m in muts if m["id"] not in done]
    d = deps()
    import queue
    q = queue.Queue()
    for i in range(jobs): q.put(i)
    def go(m):
        i = q.get()
        try:
            try: r = run(m, d, i)
            except Exception as e: r = dict(m, error=repr(e))
            with open(rp, "a") as h: h.write(json.dumps(r) + "\n")
            print(m["id"], r.get("error", "")[:200], "failed:", len(r.get("failed", [])), r.get("secs"), flush=True)
        finally: q.put(i)
    with ThreadPoolExecutor(jobs) as ex: list(ex.map(go, muts))
if __name__ == "__main__": main()
