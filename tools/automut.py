#!/usr/bin/env python3
"""Mechanical mutation testing: small edits at random places of the definitions of the model files.

usage: automut.py SNAPSHOT OUT.jsonl [--jobs N] [--n K] [--seed S] [--files A,B] [--redo FILE.jsonl] [--ops 2] [--spread] [--cheap N]

SNAPSHOT is a compiled copy of rocq/theories.  Every edit is compiled in a directory of links to the snapshot; the compilation stops at the first
proof that breaks.  Edits with which everything still compiles are survivors: to be looked at by hand (equivalent program, or theorem too weak)."""
import json, os, random, re, subprocess, sys, time, hashlib
from concurrent.futures import ThreadPoolExecutor
import threading
sys.path.insert(0, os.path.dirname(os.path.abspath(__file__)))
import mutate
arg = lambda k, d: sys.argv[sys.argv.index(k) + 1] if k in sys.argv else d
SRC, OUT = sys.argv[1], sys.argv[2]
mutate.SRC = SRC
STMT = re.compile(r"^[ \t]*(?:#\[[^\]]*\]\s*)?(?:Local |Global )?(Lemma|Theorem|Example|Corollary|Fact|Remark|Definition|Fixpoint|Inductive|Record|Section|Variables?|Context|Notation|Implicit|Open|Import|From|End|Let|Hypothes[ie]s|Arguments|Coercion|Module|Ltac|Hint|Require|Scheme|Instance|Class|Set|Unset)\b", re.M)

def blank_comments(s):
    out = list(s); depth = 0; i = 0; instr = False
    while i < len(s):
        if depth == 0 and s[i] == '"': instr = not instr; i += 1; continue
        if not instr and s.startswith("(*", i): depth += 1; out[i] = out[i+1] = " "; i += 2; continue
        if not instr and depth and s.startswith("*)", i): depth -= 1; out[i] = out[i+1] = " "; i += 2; continue
        if depth and s[i] != "\n": out[i] = " "
        i += 1
    return "".join(out)

OPS = [(r"<=\?", ["<?"]), (r"(?<![<=:])<\?", ["<=?"]), (r"(?<![<>:])=\?", ["<=?"]), (r"\bRltb\b", ["Rleb"]), (r"\bRleb\b", ["Rltb"]), (r"\bReqb\b", ["Rleb"]),
       (r"&&", ["||"]), (r"\|\|", ["&&"]), (r"\bnegb\b", [""]), (r"\btrue\b", ["false"]), (r"\bfalse\b", ["true"]),
       (r"(?<=[ (])\+(?=[ ])", ["-"]), (r"(?<=[ (])-(?=[ ])", ["+"]), (r"(?<=[ ])\*(?=[ ])", ["+"]), (r"(?<=[ ])/(?=[ ])", ["*"]),
       (r"\bErr (KeyError|ValueError|TypeError|IndexError|AttributeError|RuntimeError|NotImplementedError)\b", ["SWAPERR"]),
       (r"\bexistsb\b", ["forallb"]), (r"\bforallb\b", ["existsb"]), (r"\bfst\b", ["snd"]), (r"\bsnd\b", ["fst"]), (r"\bmap\b(?= \(fun)", []), (r"\brev\b", [""]),
       (r"\bhd\b", ["last"]), (r"\bfirstn\b", ["skipn"]), (r"\bskipn\b", ["firstn"]), (r"\bRmax\b", ["Rmin"]), (r"\bRmin\b", ["Rmax"]), (r"\bNat\.max\b", ["Nat.min"]), (r"\bNat\.min\b", ["Nat.max"]),
       (r"\bsin\b", ["cos"]), (r"\bcos\b", ["sin"]), (r"\bexp\b", ["ln"]), (r"\bSome\b(?= )", []), (r"\bif ", ["if negb "]),
       (r'"[a-zA-Z_0-9]+"', ["STR"]), (r"(?<![\w.'])\d+(?![\w'])", ["NUM+1", "NUM-1"]), (r"\bfold_left\b", []), (r"\band_true\b", []), (r"\bpred\b", [""]), (r"(?<=\()S (?=\w+\))", [""])]
# --ops 2: edits of the structure: arguments swapped, lists concatenated the other way round, an update or an appended element dropped, a value lost.
KW = set("if then else let in match with end fun as return forall exists fix struct at nat R bool string list option".split())
ATOM = r"(?:[A-Za-z_][\w.']*|\([^()\n]*\)|\[[^\[\]\n]*\])"
OPS2 = [(r"(?<=[( ])([a-z]\w*'?) ([a-z]\w*'?)(?=[ )])", lambda m: None if KW & {m[1], m[2]} or m[1] == m[2] else m[2] + " " + m[1]),
        (r"(%s) \+\+ (%s)" % (ATOM, ATOM), lambda m: m[2] + " ++ " + m[1]),
        (r"(%s) \+\+ (\[[^\[\]\n]*\])" % ATOM, lambda m: m[1]),
        (r"\((?:dset|dext) (?:%s|\"\w+\") (?:%s) (%s)\)" % (ATOM, ATOM, ATOM), lambda m: m[1]),
        (r"\bSome (%s)(?! =>)" % ATOM, lambda m: "None"),
        (r"\bS (\w+)\b(?! =>)", lambda m: m[1]),
        (r"\bcombine (%s) (%s)" % (ATOM, ATOM), lambda m: "combine %s %s" % (m[2], m[1])),
        (r"(%s) :: (%s)(?! =>)" % (ATOM, ATOM), lambda m: m[2])]
def candidates(f):
    if arg("--ops", "1") != "2": return candidates1(f)
    s = open(f"{SRC}/{f}.v").read(); b = blank_comments(s); st = list(STMT.finditer(b)); res = []
    for k, m in enumerate(st):
        if m.group(1) not in ("Definition", "Fixpoint"): continue
        end = st[k+1].start() if k + 1 < len(st) else len(b); body0 = b.find(":=", m.end(), end)
        if body0 < 0: continue
        name = re.match(r"\s*([\w']+)", b[m.end():]).group(1)
        if name.startswith("ex"): continue
        text = b[body0:end]
        for pat, g in OPS2:
            for x in re.finditer(pat, text):
                new = g(x)
                if new is not None and new != x.group(0): res.append(dict(file=f, definition=name, pos=body0 + x.start(), old=x.group(0), new=new))
    return res
def candidates1(f):
    s = open(f"{SRC}/{f}.v").read(); b = blank_comments(s)
    st = [m for m in STMT.finditer(b)]
    res = []
    for k, m in enumerate(st):
        if m.group(1) not in ("Definition", "Fixpoint"): continue
        end = st[k+1].start() if k + 1 < len(st) else len(b)
        body0 = b.find(":=", m.end(), end)
        if body0 < 0: continue
        name = re.match(r"\s*([\w']+)", b[m.end():]).group(1)
        if name.startswith("ex_") or name.startswith("ex"): continue
        text = b[body0:end]
        # strings spans
        strs = [(x.start(), x.end()) for x in re.finditer(r'"[^"\n]*"', text)]
        for pat, reps in OPS:
            for x in re.finditer(pat, text):
                ins = any(a < x.start() < e for a, e in strs)
                if ins: continue
                for r in reps:
                    if r == "SWAPERR":
                        new = "Err " + ("ValueError" if x.group(1) != "ValueError" else "KeyError")
                    elif r == "STR": new = '"' + x.group(0).strip('"') + '_x"'
                    elif r == "NUM+1": new = str(int(x.group(0)) + 1)
                    elif r == "NUM-1":
                        if int(x.group(0)) == 0: continue
                        new = str(int(x.group(0)) - 1)
                    else: new = r
                    res.append(dict(file=f, definition=name, pos=body0 + x.start(), old=x.group(0), new=new))
    return res

def context(s, pos, old):
    a = s.rfind("\n", 0, pos) + 1; e = s.find("\n", pos); e = len(s) if e < 0 else e
    return s[a:e].strip()

lock = threading.Lock()
def run(mut, d, w):
    f = mut["file"]; s = open(f"{SRC}/{f}.v").read(); pos = mut["pos"]
    assert s[pos:pos+len(mut["old"])] == mut["old"], mut
    mut["line"] = context(s, pos, mut["old"])
    todo = mutate.order(d, f)
    t0 = time.time()
    try:
        for g in todo:
            for ext in (".vo", ".vos", ".vok", ".glob"):
                try: os.remove(f"{w}/{g}{ext}")
                except FileNotFoundError: pass
        os.remove(f"{w}/{f}.v"); open(f"{w}/{f}.v", "w").write(s[:pos] + mut["new"] + s[pos+len(mut["old"]):])
        status = "survived"; where = None
        for g in todo:
            r = mutate.compile_file(w, g, 600)
            if r is None: status, where = "timeout", g; break
            if r.returncode:
                m = re.search(r'File "\./?[^"]*", line (\d+), characters (\d+)-(\d+):\s*\n\s*Error', r.stderr + "\n" + r.stdout)
                ln = int(m.group(1)) if m else 0
                src = open(f"{w}/{g}.v").read().split("\n")
                pre = "\n".join(src[:ln]); mm = [x for x in mutate.STMT.finditer(pre)]
                nm = mm[-1].group(2) if mm else None
                if g == f and (nm is None or not re.search(r"\bProof", pre[mm[-1].end():])): status, where = "invalid", f"{g}:{ln}"
                else: status, where = "killed", f"{g}.{nm}"
                break
        return dict(mut, status=status, where=where, secs=round(time.time() - t0))
    finally:
        for g in todo:
            for ext in (".vo", ".v", ".vos", ".vok", ".glob"):
                try: os.remove(f"{w}/{g}{ext}")
                except FileNotFoundError: pass
            os.symlink(f"{SRC}/{g}.vo", f"{w}/{g}.vo"); os.symlink(f"{SRC}/{g}.v", f"{w}/{g}.v")

def main():
    d = mutate.deps(); jobs = int(arg("--jobs", "3")); n = int(arg("--n", "100"))
    if "--redo" in sys.argv:
        ms = []
        for l in open(arg("--redo", "")):
            r = json.loads(l)
            if r["status"] != "survived": continue
            s = open(f"{SRC}/{r['file']}.v").read()
            c = [x for x in candidates(r["file"]) if x["definition"] == r["definition"] and x["old"] == r["old"] and x["new"] == r["new"] and context(s, x["pos"], x["old"]) == r["line"]]
            ms += c
    else:
        files = arg("--files", "").split(",") if "--files" in sys.argv else [x[:-2] for x in sorted(os.listdir(SRC)) if x.endswith(".v") and ("Model" in x or x in ("LclibTable.v",)) and not x.startswith("Z")]
        ms = [c for f in files for c in candidates(f)]
        print(len(ms), "candidates", flush=True)
        random.Random(int(arg("--seed", "1"))).shuffle(ms)
        done = set()
        if os.path.exists(OUT):
            for l in open(OUT):
                r = json.loads(l); done.add((r["file"], r["pos"], r["new"]))
        ms = [m for m in ms if (m["file"], m["pos"], m["new"]) not in done]
        if "--spread" in sys.argv:   # one edit of every definition, then a second one, ...; kinds of errors last
            seen = {}
            for m in ms:
                k = (m["file"], m["definition"], m["old"].startswith("Err ")); seen[k] = seen.get(k, 0) + 1; m["_k"] = (m["old"].startswith("Err "), seen[k])
            ms.sort(key=lambda m: m.pop("_k"))
        if "--cheap" in sys.argv:    # only files on which few others depend
            cost = {}; ms = [m for m in ms if cost.setdefault(m["file"], len(mutate.order(d, m["file"]))) <= int(arg("--cheap", "8"))]
        ms = ms[:n]
    free = []
    for i in range(jobs):
        w = f"/tmp/am/{os.path.basename(OUT)}_{i}"; subprocess.run(["rm", "-rf", w]); os.makedirs(w); free.append(w)
        for x in os.listdir(SRC):
            if x.endswith(".vo") or x.endswith(".v"): os.symlink(f"{SRC}/{x}", f"{w}/{x}")
    def work(m):
        with lock: w = free.pop()
        try: r = run(m, d, w)
        except Exception as e: r = dict(m, status="error", where=repr(e))
        with lock:
            free.append(w)
            open(OUT, "a").write(json.dumps(r) + "\n")
            if r["status"] in ("survived", "timeout", "error"): print(r["status"], r["file"], r["definition"], "|", r["old"], "->", r["new"], "|", r.get("line"), "|", r.get("secs"), flush=True)
    with ThreadPoolExecutor(jobs) as ex: list(ex.map(work, ms))
    print("DONE", flush=True)
if __name__ == "__main__": main()
