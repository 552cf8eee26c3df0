"""Regenerate the last two sections of DESIGN.md (assumptions of each theorem, refuted
claims) from the built theories.  Run in a built checkout."""
import glob, os, re, subprocess, tempfile
root = os.path.dirname(os.path.dirname(os.path.abspath(__file__)))
th = os.path.join(root, "rocq", "theories")
files = sorted(glob.glob(os.path.join(th, "Props_*.v")))
text = {os.path.basename(f)[:-2]: open(f).read() for f in files}
names = [(m, t) for m, s in text.items() for t in re.findall(r"^Theorem (C\d\d+_\w+)", s, re.M)]
src = "".join(f"From Verif Require {m}.\n" for m in text)
for m, t in names:
    src += f'Goal True. idtac "@@ {t}". exact I. Qed.\nPrint Assumptions Verif.{m}.{t}.\n'
with tempfile.TemporaryDirectory() as d:
    v = os.path.join(d, "a.v")
    open(v, "w").write(src)
    out = subprocess.run(["coqc", "-Q", th, "Verif", v], capture_output=True, text=True, check=True).stdout
used, cur = {}, None
for l in out.splitlines():
    if l.startswith("@@ "):
        cur = l[3:]
        used[cur] = set()
        continue
    a = re.match(r"^([A-Za-z_][\w.]*)(?: *:|$)", l)
    if a and a.group(1) != "Axioms":
        used[cur].add(a.group(1))
groups = {}
for m, t in names:
    groups.setdefault(tuple(sorted(used[t])), []).append(t)
w = ["## Assumptions of each theorem", "", "As listed by `Print Assumptions` (regenerated by `tools/design.py`)."]
for k, v in sorted(groups.items()):
    w += ["", "* " + (", ".join(f"`{x}`" for x in k) or "none (closed under the global context)") + f" ({len(v)} theorems):",
          "  " + ", ".join(v) + "."]
w += ["", "## Claims the code violates", "", "Theorems named `..._refuted`, with the comment above each."]
props = {}
for s in text.values():
    for m in re.finditer(r"(?:\(\*\*((?:(?!\*\)).)*?)\*\)\s*\n)?Theorem (C\d\d+_\w+_refuted)", s, re.S):
        c = " ".join((m.group(1) or "").split())
        if c.startswith("**"):
            c = ""
        props[m.group(2)] = c
for k in sorted(props):
    w.append(f"* `{k}`" + (f": {props[k]}" if props[k] else ""))
p = os.path.join(root, "DESIGN.md")
s = open(p).read().split("\n## Assumptions of each theorem")[0].rstrip()
open(p, "w").write(s + "\n\n" + "\n".join(w) + "\n")
print(len(names), "theorems", len(props), "refuted")
