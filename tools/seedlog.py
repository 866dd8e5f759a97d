"""Turns the output of a mutation run into lines of seeded/LOG.jsonl.
usage: seedlog.py out.jsonl [tightened.json] >> seeded/LOG.jsonl
The build stops at the first lemma of each file that fails; the property
theorems that depend on it (by textual reference) are listed with it."""
import sys, json, re, os
TH = "/verif/rocq/theories"
item = re.compile(r'^\s*(?:Local |Global |#\[.*\] )?(Lemma|Theorem|Example|Corollary|Definition|Fixpoint|Record|Inductive|Fact|Remark|Instance|Notation)\s+"?([\w\']+)', re.M)
defs = {}
order = []
for f in sorted(os.listdir(TH)):
    if not f.endswith(".v"): continue
    t = open(f"{TH}/{f}").read()
    ms = list(item.finditer(t))
    for a, b in zip(ms, ms[1:] + [None]):
        body = t[a.start(): b.start() if b else len(t)]
        defs.setdefault(a.group(2), []).append((f[:-2], set(re.findall(r"[A-Za-z_][\w']*", body))))
claims = json.load(open("/verif/MANIFEST.json"))["claims"]
thms = sorted({t for c in claims for t in c["theorems"]})
def closure(n):
    seen, todo = set(), [n]
    while todo:
        x = todo.pop()
        if x in seen or x not in defs: continue
        seen.add(x)
        for fx, r in defs[x]:   # short names are often bound variables: follow them only inside their own file
            todo += [y for y in r if y in defs and y not in seen and ((len(y) > 6 and y != 'generated') or any(fy == fx for fy, _ in defs[y]))]
    return seen
CL = {t: closure(t) for t in thms}
tight = json.load(open(sys.argv[2])) if len(sys.argv) > 2 else {}
for l in open(sys.argv[1]):
    m = json.loads(l)
    fails = m.get("fails") or []
    names = {x.split(".")[1] for x in fails}
    dep = [t for t in thms if CL[t] & names]
    ids = {t[:3] for t in dep}
    lead = re.match(r"(C\d\d(?:/C\d\d)*(?:-style)?):? *", m["claim"])
    if lead and not set(re.findall(r"C\d\d", lead.group(1))) <= ids:
        m["claim"] = m["claim"][lead.end():]
    m["claim"] = re.sub(r"; C\d\d-style", "; ", m["claim"])
    print(json.dumps(dict(id=m["id"], definition=f'{m["file"]}: {m["definition"]}', edit=f'{m["old"]}  ->  {m["new"]}',
        claim=m["claim"], result=m["status"].split()[0], failed=fails, theorems_failed=dep,
        tightened=tight.get(m["id"], []))))
