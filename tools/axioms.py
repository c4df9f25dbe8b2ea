"""Print, for each theorem, the axioms that its Print Assumptions lists (compiles a scratch copy of every P_*.v against the built tree)."""
import glob, os, re, subprocess, sys, collections
os.chdir("rocq/theories")
rows = []
for f in sorted(glob.glob("P_*.v")):
    src = open(f).read()
    names = re.findall(r"^Print Assumptions (\w+)\.", src, re.M)
    # mark the output of each command
    marked = re.sub(r"^(Print Assumptions (\w+)\.)", r'Goal True. idtac "@@ \2". exact I. Qed.\n\1', src, flags=re.M)
    tmp = "/tmp/ax/" + f[:-2] + "_ax.v"
    open(tmp, "w").write(marked)
    out = subprocess.run(["coqc", "-Q", ".", "Verif", tmp], capture_output=True, text=True)
    if out.returncode: sys.exit(f + out.stderr)
    for chunk in out.stdout.split("@@ ")[1:]:
        n, _, body = chunk.partition("\n")
        ax = re.findall(r"^([A-Za-z_][\w.]*)\s*(?::|$)", body, re.M)
        ax = [a for a in ax if a not in ("Axioms", "Closed")]
        rows.append((n, ax))
by = collections.defaultdict(list)
for n, ax in rows: by[tuple(sorted(set(ax)))].append(n)
for ax, ns in sorted(by.items(), key=lambda p: len(p[0])):
    print(f"* {', '.join('`'+a+'`' for a in ax) or 'none (closed under the global context)'} -- {len(ns)} theorems:")
    print("  " + ", ".join(ns))
