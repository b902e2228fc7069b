"""Generate MANIFEST.json: theorems are collected from rocq/theories/*Props*.v by their
C-number; notes and status overrides are below."""
import glob, json, re

STATUS = {}   # id -> status override
NOTE = {
  "C03": "also shows that the content left in the caller's set is the same",
  "C07": "the documentation's unconditional claim is refuted by a witness",
  "C08": "the documented marker semantics is refuted by witnesses",
  "C11": "the second-build failure is a witness",
}
exec(open("/verif/tools/notes.py").read())

ids = [json.loads(l)["id"] for l in open("/verif/properties.jsonl")]
thms = {i: [] for i in ids}
for f in sorted(glob.glob("/verif/rocq/theories/*Props*.v")):
    for m in re.finditer(r"^ *Theorem ((C\d+)_\w+)", open(f).read(), re.M):
        thms.setdefault(m.group(2), []).append(m.group(1))
claims = []
for i in ids:
    if i in STATUS:
        st = STATUS[i]
    elif not thms[i]:
        st = "partial"
    elif all(t.endswith("_partial") for t in thms[i]):
        st = "partial"
    else:
        st = "proved"
    if not thms[i] and st != "not_applicable":
        print("no theorem yet:", i)
        continue
    claims.append({"property": i, "status": st, "theorems": thms[i], "note": NOTE.get(i, "")})
json.dump({"claims": claims}, open("/verif/MANIFEST.json", "w"), indent=1)
print(len(claims), "claims", sum(map(len, thms.values())), "theorems")
