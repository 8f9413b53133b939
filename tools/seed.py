"""Seeded faults: applies one edit to a scratch copy of the model, rebuilds everything that depends on it and
reports which theorems no longer hold.  A proof that fails is replaced by Admitted (in the scratch copy only), so that
Print Assumptions afterwards tells exactly which theorems rest on it.

  seed.py base            compile the scratch copy (files that changed, and what depends on them)
  seed.py run FILE.json   try every edit listed in FILE.json; results are appended to FILE.json.out
"""
import concurrent.futures as cf, json, os, re, shutil, subprocess, sys, time
ROOT = os.path.dirname(os.path.dirname(os.path.abspath(__file__)))
SCRATCH = os.environ.get("SEED_DIR", "/tmp/seed")
BASE, WORK = SCRATCH + "/base", os.environ.get("SEED_WORK", SCRATCH + "/work")
START = re.compile(r"^\s*(?:Local |Global )?(Lemma|Theorem|Corollary|Example|Fact|Remark|Proposition|Instance)\s+([\w']+)", re.M)
HEAD = "Set Default Timeout 90. "

def files():
    return [l.strip()[len("theories/"):-2] for l in open(ROOT + "/rocq/_CoqProject") if l.strip().endswith(".v")]

def deps(d):
    out = subprocess.run(["coqdep", "-Q", "theories", "Verif"] + ["theories/%s.v" % f for f in files() if os.path.exists("%s/theories/%s.v" % (d, f))], cwd=d, capture_output=True, text=True).stdout
    r = {}
    for l in out.replace("\\\n", " ").splitlines():
        m = re.match(r"theories/(\w+)\.vo\b[^:]*:(.*)", l)
        if m:
            r[m.group(1)] = set(re.findall(r"theories/(\w+)\.vo\b", m.group(2))) - {m.group(1)}
    return r

def coqc(d, f, limit=1500):
    try:
        p = subprocess.run("ulimit -v 7000000; exec timeout %d coqc -w none -Q theories Verif theories/%s.v" % (limit, f), shell=True, cwd=d, capture_output=True, text=True, errors="replace")
    except Exception as e:
        return 1, str(e), ""
    return p.returncode, p.stdout, p.stderr

def prepare(src, f, suggest=False):
    src = HEAD + ("Set Suggest Proof Using. " if suggest else "") + src
    return re.sub(r"^Print Assumptions ([\w']+)\.", r'Goal True. idtac "SEED \1". Abort. Print Assumptions \1.', src, flags=re.M)

def base():
    os.makedirs(BASE + "/theories", exist_ok=True)
    using, times, stale = {}, {}, set()
    if os.path.exists(SCRATCH + "/base.json"):
        old = json.load(open(SCRATCH + "/base.json"))
        using, times = old["using"], old["times"]
    for f in files():
        src = prepare(open("%s/rocq/theories/%s.v" % (ROOT, f)).read(), f, True)
        path = "%s/theories/%s.v" % (BASE, f)
        if not os.path.exists(path + "o") or open(path).read() != src:
            stale.add(f)
            open(path, "w").write(src)
    dd = deps(BASE)
    stale |= {f for f in dd if dd_closure(dd, f) & stale}
    def one(f):
        t = time.time()
        rc, o, e = coqc(BASE, f)
        times[f] = round(time.time() - t, 1)
        if rc:
            print("BASE FAILS", f, e[-800:])
        for m in re.finditer(r"The proof of ([\w']+)\s+should start with one of the following commands:\s+Proof using([^.]*)\.", o + e):
            using[f + "." + m.group(1)] = m.group(2).strip()
    schedule(dd, stale, one)
    json.dump({"using": using, "times": times, "deps": {k: sorted(v) for k, v in dd.items()}}, open(SCRATCH + "/base.json", "w"), indent=1)
    print("base compiled", sum(times.values()), sorted(times.items(), key=lambda x: -x[1])[:12])

def schedule(dd, todo, one):
    done, running = set(), {}
    with cf.ThreadPoolExecutor(4) as ex:
        while len(done) < len(todo):
            for f in todo:
                if f not in done and f not in running and not ((dd[f] & todo) - done):
                    running[f] = ex.submit(one, f)
            fin, _ = cf.wait(running.values(), return_when=cf.FIRST_COMPLETED)
            for f in [f for f in running if running[f] in fin]:
                running.pop(f).result()
                done.add(f)

def repair(src, line, name_using, f):
    """Admits the proof around the line; returns (new source, name) or None."""
    off = sum(len(l) + 1 for l in src.split("\n")[:line - 1])
    end_line = off + len(src.split("\n")[line - 1])
    best = None
    for m in START.finditer(src):
        if m.start() <= end_line:
            best = m
    if best is None:
        return None
    q = re.compile(r"\b(Qed|Defined)\.").search(src, best.start())
    p = re.compile(r"\bProof\b").search(src, best.start())
    if not q or not p or p.start() > q.start() or q.end() < off:
        return None
    u = name_using.get(f + "." + best.group(2))
    nl = src[p.start():q.end()].count("\n")
    return src[:p.start()] + ("Proof using %s. Admitted." % u if u is not None else "Proof. Admitted.") + "\n" * nl + src[q.end():], best.group(2)

def run_one(mu, info):
    shutil.rmtree(WORK, ignore_errors=True)
    shutil.copytree(BASE, WORK)
    f = mu["file"]
    for fi in [f]:
        path = "%s/theories/%s.v" % (WORK, fi)
        src = open(path).read()
        n = src.count(mu["old"])
        if n != 1:
            return {"error": "old text occurs %d times" % n}
        open(path, "w").write(src.replace(mu["old"], mu["new"]))
    dd = deps(WORK)
    todo, ch = {f}, True
    while ch:
        new = {x for x in dd if dd[x] & todo} - todo
        todo |= new
        ch = bool(new)
    if mu.get("targets"):
        need, st = set(), list(mu["targets"])
        while st:
            x = st.pop()
            if x not in need:
                need.add(x)
                st += list(dd[x])
        todo &= need
    admitted, stuck, failed, checked = [], [], [], []
    def one(x):
        if any(s.split(":")[0] in dd_closure(dd, x) for s in stuck):
            stuck.append("%s: depends on a file that does not compile" % x)
            return
        path = "%s/theories/%s.v" % (WORK, x)
        for _ in range(200):
            rc, o, e = coqc(WORK, x)
            if rc == 0:
                for part in re.split(r"^SEED ", o, flags=re.M)[1:]:
                    nm = part.split()[0]
                    checked.append(nm)
                    if "Axioms:" in part:
                        failed.append(nm)
                return
            m = re.findall(r'line (\d+), characters', e)
            r = repair(open(path).read(), int(m[-1]), info["using"], x) if m else None
            if r is None:
                stuck.append("%s: %s" % (x, e[-300:]))
                return
            open(path, "w").write(r[0])
            admitted.append(x + "." + r[1])
        stuck.append("%s: too many repairs" % x)
    schedule(dd, todo, one)
    return {"failed": sorted(failed), "still_hold": sorted(set(checked) - set(failed)), "lemmas_failed": admitted, "stuck": stuck}

def dd_closure(dd, x):
    r, st = set(), [x]
    while st:
        y = st.pop()
        for z in dd[y]:
            if z not in r:
                r.add(z)
                st.append(z)
    return r

if __name__ == "__main__":
    if sys.argv[1] == "base":
        base()
    else:
        info = json.load(open(SCRATCH + "/base.json"))
        out = sys.argv[2] + ".out"
        seen = {json.loads(l)["id"] for l in open(out)} if os.path.exists(out) else set()
        for mu in json.load(open(sys.argv[2])):
            if mu["id"] in seen:
                continue
            t = time.time()
            r = run_one(mu, info)
            r.update(id=mu["id"], seconds=round(time.time() - t))
            open(out, "a").write(json.dumps(r) + "\n")
            print(mu["id"], r["seconds"], "failed", len(r.get("failed", [])), "stuck", len(r.get("stuck", [])), r.get("error", ""), flush=True)
