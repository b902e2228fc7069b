"""Run Print Assumptions on every property theorem of the built development and write the
table to /tmp/assumptions.md."""
import glob, os, re, subprocess
th = []
for f in sorted(glob.glob("/verif/rocq/theories/*Props*.v")):
    mod = os.path.basename(f)[:-2]
    for m in re.finditer(r"^ *Theorem ((C\d+)_\w+)", open(f).read(), re.M):
        th.append((mod, m.group(1)))
os.makedirs("/tmp/as", exist_ok=True)
with open("/tmp/as/as.v", "w") as o:
    for mod in sorted({m for m, _ in th}):
        o.write(f"From Verif Require {mod}.\n")
    for m, t in th:
        o.write(f'Definition marker_{t} := tt. Print marker_{t}.\nPrint Assumptions {m}.{t}.\n')
r = subprocess.run(["coqc", "-q", "-Q", "/verif/rocq/theories", "Verif", "/tmp/as/as.v"], capture_output=True, text=True)
print(r.stderr[-2000:])
out = re.split(r"marker_(C\d+_\w+) = tt\s*:\s*unit", r.stdout)
closed, axioms = [], {}
for name, body in zip(out[1::2], out[2::2]):
    if "Closed under the global context" in body:
        closed.append(name)
    else:
        axioms[name] = sorted(set(re.findall(r"^([\w.]+)\s*:", body, re.M)))
print(len(th), "theorems,", len(closed), "closed")
for n, a in axioms.items():
    print(n, a)
