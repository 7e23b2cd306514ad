#!/usr/bin/env python3
"""Seeded-bug testing of the theorems.

usage: mutate.py QUEUE.jsonl   (one {"file","definition","old","new","edit","claim"} per line)

Each edit is applied to a scratch copy of rocq/ (never to /verif), and the files
that depend on it are recompiled.  A proof that no longer checks is replaced, in
the scratch copy, by an admitted one and compilation goes on, so that Print
Assumptions finally tells which theorems of Props_*.v depended on it.  The result
goes to seeded/LOG.jsonl; an edit that no theorem notices is reported as SURVIVED.
With MUT_FAST=1 it stops at the first proof that no longer checks and lists the
theorems whose proofs use it.
"""
import json, os, re, shutil, subprocess, sys, time
SRC = os.environ.get("MUT_SRC", "/verif/rocq"); WORK = os.environ.get("MUT_DIR", "/tmp/mut"); LOG = os.environ.get("MUT_LOG", "/verif/seeded/LOG.jsonl")
# the theorem files checked for an edit of a given model file
ALWAYS = ["Props_Declared"]  # if it depends on the edited file
TARGETS = {"Model_Integrals": ["Props_Integrals"], "Model_Derivatives": ["Props_Derivatives"], "Model_Algebra": ["Props_Algebra"],
  "Model_Vectors": ["Props_Vectors"], "Model_Data": ["Props_Vectors"], "Model_Atmos": ["Props_Atmos"], "Model_Phases": ["Props_Phases"],
  "Model_Mission": ["Props_Mission", "Props_Targets"], "Model_Targets": ["Props_Targets"], "Model_Propulsion": ["Props_Propulsion"], "Model_Aero": ["Props_Aero"], "Model_Tank": ["Props_Tank"],
  "Model_Thermal": ["Props_Thermal"], "Model_Net": ["Props_Thermal"], "Model_HX": ["Props_HX"], "Model_Ducts": ["Props_Ducts"], "Model_HeatPipe": ["Props_HeatPipe"],
  "Model_Weights": ["Props_Weights"], "Model_Drag": ["Props_Drag", "Props_Friction", "Props_DragTrends", "Props_WaveDrag"], "Model_Training": ["Props_Training"], "Model_Polar": ["Props_Polar", "Props_CLmax", "Props_VLM", "Props_Exact"], "Model_Mesh": ["Props_Mesh", "Props_Sections", "Props_SectionJac", "Props_SectionInterp"], "Model_Fleet": ["Props_Fleet", "Props_FleetBody", "Props_Airliner"], "Model_SingleAisle": ["Props_SingleAisle"], "Model_Aerostruct": ["Props_Aerostruct"], "Model_Winged": ["Props_Winged"], "Model_Sizing": ["Props_Airliner"], "Model_Flight": ["Props_Flight", "Props_Takeoff", "Props_Trip"], "Model_Systems": ["Props_Systems", "Props_Cooling", "Props_SystemSetup", "Props_SystemRuns", "Props_CoolingRuns", "Props_Refrigerated", "Props_CompressibleCooling"]}
PER_FILE = int(os.environ.get("MUT_TIMEOUT", "300"))

def deps():
    out = subprocess.run("coqdep -Q theories Verif theories/*.v", shell=True, cwd=WORK, capture_output=True, text=True).stdout
    d = {}
    for line in out.splitlines():
        m = re.match(r"theories/(\w+)\.vo .*?: (.*)", line)
        if m:
            d[m.group(1)] = [x for x in re.findall(r"theories/(\w+)\.vo\b", m.group(2)) if x != m.group(1)]
    return d

def closure(d, f):
    s = {f}; ch = True
    while ch:
        ch = False
        for k, v in d.items():
            if k not in s and any(x in s for x in v): s.add(k); ch = True
    order, seen = [], set()
    def visit(k):
        if k in seen: return
        seen.add(k)
        for x in d.get(k, []): visit(x)
        if k in s: order.append(k)
    for k in sorted(s): visit(k)
    return order

def compile_file(f):
    cmd = ["coqc", "-time", "-q", "-w", "-all", "-Q", "theories", "Verif", f"theories/{f}.v"]
    try:
        p = subprocess.run(cmd, cwd=WORK, capture_output=True, text=True, timeout=PER_FILE)
        out, err, rc = p.stdout, p.stderr, p.returncode
    except subprocess.TimeoutExpired as e:
        out = (e.stdout or b"").decode() if isinstance(e.stdout, bytes) else (e.stdout or ""); err = ""; rc = -1
    if rc == 0: return True, out, None
    m = re.search(r'line (\d+), characters', err)
    src = open(f"{WORK}/theories/{f}.v", encoding="utf8").read()
    if m:
        lines = src.encode().split(b"\n"); pos = len(b"\n".join(lines[:int(m.group(1)) - 1])) + 1
    else:
        cs = re.findall(r"^Chars (\d+) - (\d+) ", out, re.M); pos = int(cs[-1][1]) + 1 if cs else 0
    return False, err.strip()[:300] or "timeout", pos

def admit(f, pos):
    path = f"{WORK}/theories/{f}.v"; b = open(path, "rb").read()
    starts = [m.start() for m in re.finditer(rb"\b(Proof|Next Obligation)\b[^.]*\.", b) if m.start() <= pos + 8]
    ends = [m for m in re.finditer(rb"\b(Qed|Defined)\.", b)]
    if not starts: return None
    s = starts[-1]; e = next((m for m in ends if m.start() > s), None)
    if e is None or e.end() < pos - 2: 
        # error in a statement: admit is impossible
        return None
    heads = list(re.finditer(rb"\b(Lemma|Theorem|Example|Corollary|Fact|Remark)\s+([\w']+)", b[:s]))
    name = heads[-1].group(2).decode()
    mid = b[heads[-1].start():s]
    if b"Proof" in mid: return None
    b = b[:s] + b"Admitted." + b"\n" + b[e.end():]
    open(path, "wb").write(b)
    return name

def drop_stmt(f, pos):
    """the statement itself no longer makes sense: cut the whole item out"""
    path = f"{WORK}/theories/{f}.v"; b = open(path, "rb").read()
    heads = [m for m in re.finditer(rb"^(Lemma|Theorem|Example|Corollary|Definition|Fixpoint|Ltac)\s+([\w']+)", b, re.M) if m.start() <= pos + 2]
    if not heads: return None
    h = heads[-1]
    if h.group(1) in (b"Definition", b"Fixpoint", b"Ltac"): return None
    e = re.compile(rb"\b(Qed|Defined|Admitted)\.").search(b, h.end())
    if not e: return None
    b = b[:h.start()] + b[e.end():]
    name = h.group(2)
    b = re.sub(rb"Print Assumptions " + re.escape(name) + rb"\.", b"", b)
    open(path, "wb").write(b); return name.decode()

def run(mu):
    shutil.rmtree(WORK, ignore_errors=True); subprocess.run(["cp", "-a", SRC, WORK], check=True)
    f = mu["file"]; path = f"{WORK}/theories/{f}.v"; s = open(path, encoding="utf8").read()
    if "at" in mu:
        a = mu["at"]
        if s[a:a + len(mu["old"])] != mu["old"]: return {"error": "text moved"}
        s = s[:a] + "\0" + s[a + len(mu["old"]):]
        mu = dict(mu, old="\0")
    if s.count(mu["old"]) < 1: return {"error": "old text not found"}
    if s.count(mu["old"]) > 1 and not mu.get("all"): return {"error": f"old text found {s.count(mu['old'])} times"}
    open(path, "w", encoding="utf8").write(s.replace(mu["old"], mu["new"]))
    broken, theorems, dropped = [], [], []
    d = deps(); need = set(); todo = [t for t in mu.get("targets", TARGETS.get(f, []) + ALWAYS) if t in d] or list(d)
    while todo:
        k = todo.pop()
        if k not in need: need.add(k); todo += d.get(k, [])
    for g in [x for x in closure(d, f) if x in need]:
        for _ in range(60):
            ok, info, pos = compile_file(g)
            if ok: break
            name = admit(g, pos)
            if name is None:
                name = drop_stmt(g, pos); 
                if name: dropped.append(name)
            if name is None: return {"error": f"{g}.v: {info}"}
            broken.append(name)
            if os.environ.get("MUT_FAST") and users(broken): return {"broken": broken, "theorems": users(broken)}
        else: return {"error": "too many failures in " + g}
        if g.startswith("Props_"):
            names = re.findall(r"^Print Assumptions (\w+)\.", open(f"{WORK}/theories/{g}.v").read(), re.M)
            blocks = re.split(r"(?=^Chars)", info, flags=re.M)
            blocks = [x for x in blocks if "Axioms:" in x or "Closed under the global context" in x]
            for nme, blk in zip(names, blocks):
                if any(re.search(r"(^|\s|\.)" + re.escape(bn) + r"\b", blk) for bn in broken): theorems.append(nme)
    for bn in broken:
        if re.match(r"C\d+_", bn) and bn not in theorems: theorems.append(bn)
    return {"broken": broken, "theorems": theorems}

def users(names):
    """theorems of Props_*.v whose proof text uses one of the lemmas, transitively"""
    items = {}
    for fn in sorted(os.listdir(f"{SRC}/theories")):
        if fn.startswith(("Proofs_", "Props_")) and fn.endswith(".v"):
            t = open(f"{SRC}/theories/{fn}", encoding="utf8").read()
            hs = list(re.finditer(r"^(?:Lemma|Theorem|Example|Corollary)\s+([\w']+)", t, re.M))
            for h, n in zip(hs, hs[1:] + [None]):
                items[h.group(1)] = set(re.findall(r"[\w']+", t[h.end():n.start() if n else len(t)].split("Print Assumptions")[0]))
    s = set(names); ch = True
    while ch:
        ch = False
        for k, v in items.items():
            if k not in s and v & s: s.add(k); ch = True
    return sorted(x for x in s if re.match(r"C\d+_", x))

def main():
    for line in open(sys.argv[1]):
        if not line.strip(): continue
        mu = json.loads(line); t = time.time(); r = run(mu)
        if "error" in r: print("ERROR", mu["definition"], "|", mu["edit"], "|", r["error"], flush=True); continue
        print(("SURVIVED" if not r["theorems"] else "killed"), mu["definition"], "|", mu["edit"], "|", r["theorems"][:4], "broken:", r["broken"][:4], f"{time.time()-t:.0f}s", flush=True)
        if r["theorems"]:
            with open(LOG, "a") as fh:
                fh.write(json.dumps({"definition": f"{mu['file']}.v: {mu['definition']}", "edit": mu["edit"], "claim": mu["claim"],
                  "failed": r["theorems"], "first_broken_proofs": r["broken"][:5], "tightened": mu.get("tightened", [])}) + "\n")
main()
