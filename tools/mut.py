"""Mutation tester: edits the model in a scratch copy (/tmp/mut), rebuilds, and reports which theorems fail.

usage: mut.py FILE.json   -- a list of {"file","definition","old","new","claim","edit"}
A proof that no longer checks is replaced by Admitted in the scratch copy so that the build goes on; a property
theorem counts as failed if its own proof fails or if Print Assumptions shows it rests on a failed lemma.
Appends one line per attempt to /verif/seeded/LOG.jsonl (unless --dry)."""
import json, os, re, shutil, subprocess, sys
SRC = os.environ.get("SRC", "/verif/rocq"); MUT = os.environ.get("MUT", "/tmp/mut"); J = os.environ.get("J", "4")
LOG = "/verif/seeded/LOG.jsonl"

def sh(cmd, **k):
    return subprocess.run(cmd, shell=True, capture_output=True, text=True, **k)

HEAD = re.compile(r"^\s*(?:#\[\w+\]\s*)?(?:Local |Global )?(Lemma|Theorem|Example|Corollary|Fact|Remark|Definition|Fixpoint|Instance)\s+([\w']+)", re.M)

def admit(path, line):
    s = open(path).read()
    pos = sum(len(l) + 1 for l in s.split("\n")[:line - 1])
    eol = s.find("\n", pos)
    heads = [m for m in HEAD.finditer(s) if m.start() <= (eol if eol >= 0 else len(s))]
    if not heads:
        return None
    m = heads[-1]
    end = re.search(r"\b(Qed|Defined)\.", s[m.start():])
    pr = re.search(r"\bProof\b[^.]*\.", s[m.start():])
    if not end or not pr or pr.start() > end.start() or m.start() + end.end() < pos:
        return None
    a = m.start() + pr.start(); b = m.start() + end.end()
    keep = "\n" * s[a:b].count("\n")
    s = s[:a] + "Admitted." + keep + s[b:]
    open(path, "w").write(s)
    return m.group(2)

def one(mu):
    sh(f"mkdir -p {MUT} && rsync -a --delete {SRC}/ {MUT}/" if shutil.which("rsync") else f"rm -rf {MUT}; cp -a {SRC} {MUT}")
    p = f"{MUT}/theories/{mu['file']}"
    s = open(p).read()
    assert s.count(mu["old"]) >= 1, ("pattern not found", mu)
    if s.count(mu["old"]) > 1 and not mu.get("all"):
        raise SystemExit(("ambiguous", mu))
    open(p, "w").write(s.replace(mu["old"], mu["new"]))
    if mu.get("targets"):  # only the files these depend on
        def deps(f, acc):
            if f in acc: return acc
            acc.add(f)
            for m in re.finditer(r"From Verif Require (?:Import )?([^.]*)\.", open(f"{MUT}/theories/{f}.v").read()):
                for g in m.group(1).split(): deps(g, acc)
            return acc
        keep = set()
        for t in mu["targets"]: deps(t, keep)
        proj = [l for l in open(f"{MUT}/_CoqProject").read().split("\n") if not l.startswith("theories/") or l[9:-2] in keep]
        open(f"{MUT}/_CoqProject", "w").write("\n".join(proj) + "\n")
    else:
        keep = None
    failed, other = [], None
    import time; t0 = time.time()
    for _ in range(400):
        r = sh(f"cd {MUT} && coq_makefile -f _CoqProject -o Makefile >/dev/null 2>&1; timeout 3000 make -k -j{J} COQC='timeout 400 coqc' 2>&1")
        errs = {}
        cur = None
        for l in r.stdout.split("\n"):
            m = re.match(r'File "\./theories/(\w+\.v)", line (\d+)', l)
            if m: cur = (m.group(1), int(m.group(2)))
            if l.startswith("Error") and cur:
                errs.setdefault(cur[0], cur[1]); cur = None
        late = re.findall(r"theories/(\w+)\.vo\] Error 124", r.stdout)
        if late:
            other = "TIMEOUT in " + ", ".join(late)
            break
        if not errs:
            break
        for f, n in errs.items():
            name = admit(f"{MUT}/theories/{f}", n)
            if name is None:
                other = f"{f}:{n} (not inside a proof)"
                break
            failed.append(name)
        if other:
            break
    bad = set(failed)
    props = []
    if not other and failed:
        import glob
        for f in sorted(glob.glob(f"{MUT}/theories/P_*.v")):
            names = [m.group(1) for m in re.finditer(r"^Print Assumptions (\w+)\.", open(f).read(), re.M)]
            b = os.path.basename(f)
            vo = f[:-2] + '.vo'
            if keep is not None and b[:-2] not in keep or os.path.exists(vo) and os.path.getmtime(vo) < t0:
                continue
            r = sh(f"cd {MUT} && coqc -Q theories Verif theories/{b}")
            outs = re.split(r"^(?=Closed under|Axioms:)", r.stdout, flags=re.M)[1:]
            for nme, o in zip(names, outs):
                ax = set(x.split(".")[-1] for x in re.findall(r"^([\w.']+)\s*(?::|$)", o, re.M))
                if nme in bad or ax & bad:
                    props.append(nme)
    props = sorted(set(props) | {x for x in failed if re.match(r"C\d\d_", x)})
    return failed, props, other

if __name__ == "__main__":
    dry = "--dry" in sys.argv
    for mu in json.load(open(sys.argv[1])):
        failed, props, other = one(mu)
        rec = {"definition": mu["definition"], "file": mu["file"], "edit": mu.get("edit") or f"{mu['old']}  ==>  {mu['new']}",
               "claim_broken": mu["claim"], "theorems_failed": props, "lemmas_failed": failed,
               "theorems_tightened": mu.get("tightened", [])}
        if other: rec["note"] = "stopped: " + other
        if not props and not other: rec["note"] = mu.get("note", "SURVIVED")
        print(json.dumps(rec), flush=True)
        if not dry:
            open(LOG, "a").write(json.dumps(rec) + "\n")
