"""Print, for every property theorem, what Print Assumptions lists (needs a finished build)."""
import glob, os, re, subprocess
root = os.path.join(os.path.dirname(os.path.dirname(os.path.abspath(__file__))), "rocq")
groups = {}
for f in sorted(glob.glob(os.path.join(root, "theories", "T_*.v"))):
    names = re.findall(r"^Print Assumptions (\w+)\.", open(f).read(), re.M)
    mod = os.path.basename(f)[:-2]
    src = f"From Verif Require {mod}.\n" + "".join(f'Definition marker := {i}. Print marker. Print Assumptions {mod}.{n}. Reset marker.\n' for i, n in enumerate(names))
    out = subprocess.run(["coqtop", "-q", "-R", "theories", "Verif"], cwd=root, input=src, capture_output=True, text=True).stdout
    parts = re.split(r"marker = (\d+)", out)
    for i, body in zip(parts[1::2], parts[2::2]):
        ax = tuple(sorted(set(re.findall(r"^([A-Za-z_][\w.]*)\s*(?:\n\s*)?:", body, re.M)) - {"Axioms"})) if "Closed under" not in body else ()
        groups.setdefault(ax, {}).setdefault(mod, []).append(names[int(i)])
for ax, d in groups.items():
    print("##", ", ".join(ax) or "Closed under the global context")
    for m, ns in d.items():
        print(m + ":", ", ".join(ns))
