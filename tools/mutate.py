"""Seeded-bug harness.  Reads JSON lines on stdin, each
  {"file": "BuilderModel.v", "def": "...", "old": "...", "new": "...", "edit": "...",
   "claim": "..."}
Works on a scratch copy of /verif/rocq: applies the edit, rebuilds file by file, replaces the
proof of every lemma that no longer compiles by Admitted, and finally reports which property
theorems (in *Props*.v) fail directly or depend on a failed lemma.  Appends to
/verif/seeded/LOG.jsonl."""
import json, os, re, shutil, subprocess, sys, glob

SRC = "/tmp/mutsrc/rocq"   # a built checkout of HEAD
ONLY = None
LEM = re.compile(r"^[ \t]*(?:#\[[^\]]*\][ \t]*)?(?:Local |Global |Program )*(Lemma|Theorem|Example|Corollary|Fact|Remark)\s+([\w']+)", re.M)
END = re.compile(r"\b(Qed|Defined|Admitted)\.")

def files():
    """the sources, each after the ones it depends on"""
    fs = [l.strip() for l in open(SRC + "/_CoqProject") if l.strip().endswith(".v")]
    mods = {os.path.basename(f)[:-2]: f for f in fs}
    done = []
    def visit(f):
        if f in done: return
        for r in re.findall(r"From Verif Require (?:Import |Export )?([^.]*)\.", open(f"{SRC}/{f}").read()):
            for x in r.split():
                if x in mods and mods[x] != f: visit(mods[x])
        done.append(f)
    for f in fs: visit(f)
    return done

def coqc(d, f, extra=()):
    return subprocess.run(["timeout", "1200", "coqc", "-q", "-Q", "theories", "Verif", *extra, f],
                          cwd=d, capture_output=True, text=True)

def using(f):
    """lemma -> section variables used, cached per file content"""
    src = open(f"{SRC}/{f}").read()
    cache = f"/tmp/using/{os.path.basename(f)}.json"
    os.makedirs("/tmp/using", exist_ok=True)
    if os.path.exists(cache):
        c = json.load(open(cache))
        if c["src"] == src: return c["map"]
    m = {}
    if re.search(r"^\s*Section ", src, re.M):
        d = f"/tmp/using/d{os.getpid()}"
        shutil.rmtree(d, ignore_errors=True); shutil.copytree(SRC, d)
        r = coqc(d, f, ["-set", "Suggest Proof Using=yes"])
        for x in re.finditer(r"The proof of ([\w']+)\s+should start with one of the\s+following commands:\s*((?:Proof using[^.]*\.\s*)+)", r.stdout + r.stderr):
            first = re.match(r"Proof using([^.]*)\.", x.group(2)).group(1)
            m[x.group(1)] = " ".join(first.split())
    json.dump({"src": src, "map": m}, open(cache, "w"))
    return m

def deps(d):
    out = subprocess.run(["coqdep", "-Q", "theories", "Verif"] + files(), cwd=d, capture_output=True, text=True).stdout
    g = {}
    for l in out.splitlines():
        if ".vo " not in l or ":" not in l: continue
        a, b = l.split(":", 1)
        tgt = [x for x in a.split() if x.endswith(".vo")]
        if tgt: g[tgt[0][:-1]] = [x[:-1] for x in b.split() if x.endswith(".vo")]
    return g

def run(m, scratch="/tmp/mut"):
    shutil.rmtree(scratch, ignore_errors=True); shutil.copytree(SRC, scratch)
    p = f"{scratch}/theories/{m['file']}"
    s = open(p).read()
    if s.count(m["old"]) != 1:
        return {"error": f"old text occurs {s.count(m['old'])} times"}
    open(p, "w").write(s.replace(m["old"], m["new"]))
    g = deps(scratch)
    dirty = {"theories/" + m["file"]}
    failed, broken = [], []
    for f in files():
        if f not in dirty and not any(x in dirty for x in g.get(f, [])): continue
        dirty.add(f)
        us = None
        for _ in range(400):
            r = coqc(scratch, f)
            if r.returncode == 0: break
            if us is None: us = using(f)
            em = re.search(r'File "[^"]*", line (\d+), characters [^\n]*\n(?:Error)', r.stderr) or \
                 re.search(r'File "[^"]*", line (\d+)', r.stderr)
            if not em: return {"error": "no location: " + r.stderr[-500:]}
            src = open(f"{scratch}/{f}").read()
            pos = sum(len(x) + 1 for x in src.split("\n")[:int(em.group(1)) - 1])
            eol = src.find("\n", pos)
            c = [x for x in LEM.finditer(src) if x.start() <= eol]
            if not c: return {"broken_definition": f, "msg": r.stderr[-600:]}
            x = c[-1]; e = END.search(src, x.end())
            name = x.group(2)
            if e is None or e.end() < pos or name in failed:
                return {"broken_definition": f + " near " + name, "msg": r.stderr[-600:]}
            st = re.compile(r"\bProof\b[^.]*\.").search(src, x.end())
            if x.group(1) == "Example":
                new = src[:x.start()] + src[e.end():]
            else:
                u = us.get(name)
                pr = f"Proof using {u}. Admitted." if u is not None and u else "Proof. Admitted."
                new = src[:st.start()] + pr + src[e.end():]
            failed.append(name)
            open(f"{scratch}/{f}", "w").write(new)
    # which property theorems depend on a failed lemma?
    props = []
    for f in files():
        if "Props" not in f or f not in dirty: continue
        mod = "Verif." + os.path.basename(f)[:-2]
        names = [x.group(2) for x in LEM.finditer(open(f"{SRC}/{f}").read()) if x.group(1) == "Theorem"]
        q = f"From Verif Require Import {mod[6:]}.\n" + "".join(f"Print Assumptions {mod[6:]}.{n}.\n" for n in names)
        open(scratch + "/q.v", "w").write(q)
        r = coqc(scratch, "q.v")
        chunks = re.split(r"(?=^(?:Closed under the global context|Axioms:))", r.stdout, flags=re.M)[1:]
        if len(chunks) != len(names): return {"error": "assumption query: " + r.stderr[-400:]}
        for n, c in zip(names, chunks):
            if n in failed or any(re.search(r"\b" + re.escape(z) + r"\b", c) for z in failed): props.append(n)
    return {"failed_props": props, "failed_lemmas": failed}

def refresh():
    head = subprocess.run(["git", "-C", "/verif", "rev-parse", "HEAD"], capture_output=True, text=True).stdout.strip()
    mark = "/tmp/mutsrc/.head"
    if os.path.exists(mark) and open(mark).read() == head: return
    subprocess.run("rm -rf /tmp/mutsrc/new && mkdir -p /tmp/mutsrc/new " + SRC + "/theories"
                   " && git -C /verif archive HEAD rocq | tar x -C /tmp/mutsrc/new", shell=True, check=True)
    new = "/tmp/mutsrc/new/rocq"
    for f in glob.glob(new + "/theories/*.v") + [new + "/_CoqProject"]:
        t = SRC + f[len(new):]
        if not os.path.exists(t) or open(t).read() != open(f).read(): shutil.copy(f, t)
    for t in glob.glob(SRC + "/theories/*.v"):
        if not os.path.exists(new + t[len(SRC):]): os.remove(t)
    subprocess.run("coq_makefile -f _CoqProject -o Makefile && make -j3 >/dev/null 2>&1", shell=True, cwd=SRC, check=True)
    open(mark, "w").write(head)

def job(m):
    return m, run(m, f"/tmp/mut{os.getpid()}")

if __name__ == "__main__":
    refresh()
    from concurrent.futures import ProcessPoolExecutor, as_completed
    ms = [json.loads(l) for l in sys.stdin if l.strip()]
    with ProcessPoolExecutor(int(os.environ.get("JOBS", "3"))) as pool:
        for fut in as_completed([pool.submit(job, m) for m in ms]):
            m, res = fut.result()
            out = {"definition": f"{m['file']}:{m['def']}", "edit": m["edit"], "claim": m["claim"],
                   "failed": res.get("failed_props", []), "failed_lemmas": res.get("failed_lemmas", []),
                   "tightened": m.get("tightened", [])}
            for k in ("error", "broken_definition", "msg"):
                if k in res: out[k] = res[k]
            print(json.dumps({k: out[k] for k in out if k != "failed_lemmas"}), "| lemmas:", out["failed_lemmas"][:6], len(out["failed_lemmas"]), flush=True)
            if "error" not in res and not os.environ.get("DRY"):
                open("/verif/seeded/LOG.jsonl", "a").write(json.dumps(out) + "\n")
    for d in glob.glob("/tmp/mut[0-9]*"):
        if os.path.isdir(d) and re.fullmatch(r"/tmp/mut\d+", d): shutil.rmtree(d, ignore_errors=True)
