"""Seeded-bug runner.  Reads mutants (JSON lines: definition, file, old, new, edit, claim) from argv[1],
applies each to a scratch copy of the built development, rebuilds what depends on it, and prints one
JSON line per mutant with the property theorems that no longer hold.  A proof that fails is replaced
by Admitted in the scratch copy only, so that every property theorem resting on it is found through
Print Assumptions."""
import json, os, re, shutil, subprocess, sys, time
SRC = os.environ.get("MUT_SRC", "/verif/rocq")
SCR = os.environ.get("MUT_DIR", "/tmp/mut/w0")
LIMIT = int(os.environ.get("MUT_LIMIT", "400"))
HEAD = re.compile(r"^[ ]*(?:#\[.*\]\s*)?(Theorem|Lemma|Example|Corollary|Fact|Remark)\s+(\w+)", re.M)

def deps(order):
    d = {}
    for f in order:
        t = open(f"{SRC}/theories/{f}.v").read()
        d[f] = set(re.findall(r"\bVerif\.(\w+)", t)) - {f}
    return d

def compile(f):
    """returns None on success, else (byte offset, message)"""
    p = f"{SCR}/theories/{f}.v"
    out = open(f"{SCR}/out.txt", "w")
    try:
        r = subprocess.run(["coqc", "-time", "-Q", ".", "Verif", f + ".v"], cwd=f"{SCR}/theories", stdout=out, stderr=subprocess.PIPE, timeout=LIMIT)
    except subprocess.TimeoutExpired:
        m = re.findall(r"^Chars (\d+) - (\d+) ", open(f"{SCR}/out.txt", errors="replace").read(), re.M)
        return (int(m[-1][1]) + 1 if m else 0, "timeout")
    if r.returncode == 0:
        return None
    e = r.stderr.decode(errors="replace")
    m = re.search(r'line (\d+), characters (\d+)-(\d+)', e)
    if not m:
        return (0, e[-300:])
    lines = open(p, "rb").read().split(b"\n")
    return (sum(len(l) + 1 for l in lines[: int(m.group(1)) - 1]) + int(m.group(2)), e[-300:])

def admit(f, off):
    """replace the proof around byte offset [off] by Admitted; returns the lemma name"""
    p = f"{SCR}/theories/{f}.v"
    b = open(p, "rb").read()
    t = b.decode()
    off = len(b[:off].decode(errors="replace"))
    heads = [m for m in HEAD.finditer(t) if m.start() <= off + 1]
    if not heads:
        return None
    h = heads[-1]
    pr = re.compile(r"\bProof\.").search(t, h.start())
    q = re.compile(r"\b(Qed|Defined)\.").search(t, pr.start()) if pr else None
    if not q or q.end() < off or pr.start() > off + 1:
        return None
    t = t[: pr.start()] + "Proof. Admitted." + t[q.end():]
    open(p, "w").write(t)
    return h.group(2)

def run(m, order, dep):
    for f in order:
        for e in (".v", ".vo", ".vok", ".vos", ".glob"):
            s = f"{SRC}/theories/{f}{e}"
            if os.path.exists(s):
                shutil.copy2(s, f"{SCR}/theories/{f}{e}")
    p = f"{SCR}/theories/{m['file']}.v"
    t = open(p).read()
    if t.count(m["old"]) != m.get("count", 1):
        return {"error": "old text occurs %d times" % t.count(m["old"])}
    open(p, "w").write(t.replace(m["old"], m["new"]))
    dirty, failed = {m["file"]}, []
    for f in order:
        if f == "Assumptions" or not (f in dirty or dep[f] & dirty):
            continue
        dirty.add(f)
        while True:
            r = compile(f)
            if r is None:
                break
            n = admit(f, r[0])
            if n is None:
                return {"error": f"{f} at {r[0]}: {r[1]}", "failed_proofs": failed}
            failed.append(n)
    # assumptions
    ths, imps = [], []
    for f in order:
        if f.startswith("Prop") and f in dirty:
            imps.append("Verif." + f)
            ths += re.findall(r"^Theorem (C\d+_\w+)", open(f"{SCR}/theories/{f}.v").read(), re.M)
    with open(f"{SCR}/theories/MutAssum.v", "w") as o:
        o.write("Require Import " + " ".join(imps) + ".\n")
        for x in ths:
            o.write(f"Definition mark_{x} := tt. Print mark_{x}. Print Assumptions {x}.\n")
    r = subprocess.run(["coqc", "-Q", ".", "Verif", "MutAssum.v"], cwd=f"{SCR}/theories", capture_output=True)
    if r.returncode:
        return {"error": "assumptions: " + r.stderr.decode()[-300:], "failed_proofs": failed}
    out, cur, bad = r.stdout.decode(), None, []
    for l in out.split("\n"):
        k = re.match(r"mark_(C\d+_\w+) =", l)
        if k:
            cur = k.group(1)
        k = re.match(r"(?:\w+\.)*(\w+)\s*:|^(?:\w+\.)*(\w+)$", l)
        nm = (k.group(1) or k.group(2)) if k else None
        if cur and nm in failed and cur not in bad:
            bad.append(cur)
    bad += [x for x in failed if x in ths and x not in bad]
    return {"failed_theorems": sorted(bad), "failed_proofs": failed}

def main():
    order = [os.path.basename(l.strip())[:-2] for l in open(f"{SRC}/_CoqProject") if l.strip().endswith(".v")]
    os.makedirs(f"{SCR}/theories", exist_ok=True)
    dep = deps(order)
    todo, order = order, []
    while todo:  # _CoqProject need not list a file after those it requires
        f = next(f for f in todo if not dep[f] & set(todo))
        todo.remove(f)
        order.append(f)
    for l in open(sys.argv[1]):
        if not l.strip():
            continue
        m = json.loads(l)
        t0 = time.time()
        r = run(m, order, dep)
        print(json.dumps({**m, **r, "seconds": round(time.time() - t0)}), flush=True)
main()
