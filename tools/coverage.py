"""For every function and method of /repo/instancespace: the model files whose comments cite lines of it.
usage: coverage.py [--md]"""
import ast, glob, os, re, sys
ROOT = "/repo/instancespace"
cites = {}   # base name -> list of (lo, hi, model file)
CITE = re.compile(r"(\w+)\.py:\s*([0-9][0-9,\s–-]*)")
for f in sorted(glob.glob("/verif/rocq/theories/*Model.v")):
    for c in re.findall(r"\(\*\*.*?\*\)", open(f).read(), re.S):
        for base, ranges in CITE.findall(c):
            for r in re.findall(r"\d+(?:\s*[-–]\s*\d+)?", ranges):
                a = [int(x) for x in re.findall(r"\d+", r)]
                cites.setdefault(base, []).append((a[0], a[-1], os.path.basename(f)))
        m = re.search(r"(\w+)\.py", c)
        if m:   # "(553-568)" and the like after a first citation of the file
            for r in re.findall(r"[(,;] ?(\d+(?:-\d+)?)(?=[),;: ])", c):
                a = [int(x) for x in r.split("-")]
                if a[0] > 9: cites.setdefault(m.group(1), []).append((a[0], a[-1], os.path.basename(f)))

def functions(tree, prefix=""):
    for n in ast.iter_child_nodes(tree):
        if isinstance(n, ast.ClassDef):
            yield from functions(n, prefix + n.name + ".")
        elif isinstance(n, (ast.FunctionDef, ast.AsyncFunctionDef)):
            yield prefix + n.name, n

def table():
    out = []
    for f in sorted(glob.glob(ROOT + "/**/*.py", recursive=True)):
        rel = os.path.relpath(f, ROOT)
        src = open(f).read()
        for name, n in functions(ast.parse(src)):
            body = [b for b in n.body if not (isinstance(b, ast.Expr) and isinstance(getattr(b, "value", None), ast.Constant))]
            lo = n.lineno
            hi = n.end_lineno
            base = os.path.basename(f)[:-3]
            hit = [(a, b, m) for a, b, m in cites.get(base, []) if a <= hi and b >= lo and (b - a < 400)]
            lines = set(range(body[0].lineno, hi + 1)) if body else set()
            cov = set()
            for a, b, m in hit: cov |= set(range(a, b + 1))
            pct = 100 * len(cov & lines) // len(lines) if lines else 0
            out.append((rel, name, lo, hi, sorted({m for _, _, m in hit}), pct))
    return out
if __name__ == "__main__":
    for rel, name, lo, hi, ms, pct in table():
        print(f"{rel}:{lo}-{hi} {name}: {pct}% {' '.join(ms)}")
