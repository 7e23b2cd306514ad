#!/usr/bin/env python3
"""Generate seeded-bug edits: automut.py MODEL PER_DEFINITION SEED [SRC] > queue.jsonl
Operators that a slip of the pen would produce: + for -, * for /, < reversed, a
constant off by one, a wrong index, a swapped pair of names, Vec for Sca, a list
entry dropped."""
import json, random, re, sys
model, per, seed = sys.argv[1], int(sys.argv[2]), int(sys.argv[3])
src = sys.argv[4] if len(sys.argv) > 4 else "/tmp/mutbase"
s = open(f"{src}/theories/{model}.v", encoding="utf8").read()
rnd = random.Random(seed)
# blank out comments, keeping offsets
out, depth, i = [], 0, 0
while i < len(s):
    if s.startswith("(*", i): depth += 1; out.append("  "); i += 2; continue
    if s.startswith("*)", i) and depth: depth -= 1; out.append("  "); i += 2; continue
    out.append(" " if depth else s[i]); i += 1
t = "".join(out)
heads = [(m.start(), m.group(2)) for m in re.finditer(r"^(Definition|Fixpoint)\s+([\w']+)", t, re.M)]
heads.append((len(t), None))
cites = {}
for m in re.finditer(r"\(\*\*(.*?)\*\)\s*(?:Definition|Fixpoint)\s+([\w']+)", s, re.S):
    c = re.search(r"[\w/]+\.py:? ?[\d, -]*", m.group(1)); cites[m.group(2)] = c.group(0).strip(" ,") if c else m.group(1).strip()[:60]
for (a, name), (b, _) in zip(heads, heads[1:]):
    body = t[a:b]
    st = body.find(":=")
    if st < 0: continue
    cand = []
    def add(off, old, new, what): cand.append((a + off, old, new, what))
    for m in re.finditer(r" \+ ", body): add(m.start(), " + ", " - ", "sum -> difference")
    for m in re.finditer(r" - (?!\()", body): add(m.start(), " - ", " + ", "difference -> sum")
    for m in re.finditer(r" \* ", body): add(m.start(), " * ", " / ", "product -> quotient")
    for m in re.finditer(r" / ", body): add(m.start(), " / ", " * ", "quotient -> product")
    for m in re.finditer(r"Rlt_dec (\([^()]*\)|\w+) (\([^()]*\)|\w+)", body): add(m.start(), m.group(0), f"Rlt_dec {m.group(2)} {m.group(1)}", "comparison reversed")
    for m in re.finditer(r"Rle_dec (\([^()]*\)|\w+) (\([^()]*\)|\w+)", body): add(m.start(), m.group(0), f"Rle_dec {m.group(2)} {m.group(1)}", "comparison reversed")
    for m in re.finditer(r"(?<![\w.\"])(\d+)(?![\w\"%/])", body):
        if m.start() > st: add(m.start(), m.group(0), str(int(m.group(0)) + 1), f"constant {m.group(0)} -> {int(m.group(0))+1}")
    for m in re.finditer(r"(?<![\w.\"])(\d+)/(\d+)", body): add(m.start(), m.group(0), f"{int(m.group(1))+1}/{m.group(2)}", f"constant {m.group(0)} changed")
    for m in re.finditer(r", Vec\)", body): add(m.start(), ", Vec)", ", Sca)", "vector input declared scalar")
    for m in re.finditer(r"fun e => (?=[^;\]]*\")", body): pass
    strs = [m for m in re.finditer(r"\"([^\"\n]+)\"", body)]
    names = sorted({m.group(1) for m in strs})
    for m in strs:
        o = [x for x in names if x != m.group(1)]
        if o:
            r = rnd.choice(o); add(m.start(), m.group(0), f"\"{r}\"", f"name {m.group(1)} -> {r}")
    for m in re.finditer(r"\bnegb ", body): add(m.start(), "negb ", "", "negation dropped")
    for m in re.finditer(r" && ", body): add(m.start(), " && ", " || ", "and -> or")
    for m in re.finditer(r" \|\| ", body): add(m.start(), " || ", " && ", "or -> and")
    for m in re.finditer(r"\bthen (\S+) else (\S+)", body): 
        if re.fullmatch(r"then \w+ else \w+", m.group(0)): add(m.start(), m.group(0), f"then {m.group(2)} else {m.group(1)}", "branches swapped")
    cand = [c for c in cand if c[0] > a + st] 
    rnd.shuffle(cand)
    for off, old, new, what in cand[:per]:
        ln = s.count("\n", 0, off) + 1
        ctx = s[max(a, off - 25):off + 25].replace("\n", " ")
        print(json.dumps({"file": model, "definition": name, "at": off, "old": old, "new": new,
            "edit": f"{what} (near `{ctx}`)", "claim": f"the program text modelled by {name} ({cites.get(name, 'see comment')}) is changed"}))
