#!/usr/bin/env python3
"""Build the development with one definition of the model changed, in a scratch copy outside /verif.

usage: mutate.py MUTANTS.json [NAME ...]
Each mutant: {"name", "file", "old", "new", "claim", "targets": [property ids]}.
A proof that no longer checks is replaced by Admitted in the scratch copy and the build goes on; a theorem of a
Props file has failed if Print Assumptions then reports one of those proofs.  A line is appended to
/verif/seeded/LOG.jsonl for each mutant.  With FAST=1 only the Props files of the target properties are built."""
import json, os, re, shutil, subprocess, sys, time
SRC, BASE, WORK = "/verif/rocq", "/tmp/mut0", "/tmp/mut"
LOG = "/verif/seeded/LOG.jsonl"
ROUNDS, LIMIT = 60, 3000

def sh(cmd, cwd, timeout=None):
    return subprocess.run(cmd, shell=True, cwd=cwd, capture_output=True, text=True, timeout=timeout).stdout

def prepare():
    """BASE is a built copy of the sources."""
    os.makedirs(BASE + "/theories", exist_ok=True)
    shutil.copy(SRC + "/_CoqProject", BASE)
    for f in os.listdir(SRC + "/theories"):
        if f.endswith(".v"):
            a, b = open(SRC + "/theories/" + f).read(), BASE + "/theories/" + f
            if not os.path.exists(b) or open(b).read() != a: open(b, "w").write(a)
    sh("coq_makefile -f _CoqProject -o Makefile", BASE)
    out = subprocess.run("make -j4", shell=True, cwd=BASE, capture_output=True, text=True)
    if out.returncode: sys.exit("base does not build\n" + out.stderr[-2000:])

def props_of(targets):
    """The Props files that state theorems of the given properties."""
    files = []
    for f in sorted(os.listdir(BASE + "/theories")):
        if f.startswith("Props") and f.endswith(".v"):
            s = open(BASE + "/theories/" + f).read()
            if any(re.search(r"^(Theorem|Lemma) %s_" % t, s, re.M) for t in targets): files.append("theories/" + f + "o")
    return files

HEAD = re.compile(r"\b(Theorem|Lemma|Example|Corollary|Fact|Remark|Instance|Definition|Fixpoint)\s+(\w+)")
def admit(path, line, char):
    s = open(path).read()
    lines = s.split("\n")
    # coq counts bytes
    off = sum(len(l) + 1 for l in lines[:line - 1]) + len(lines[line - 1].encode()[:char].decode(errors="ignore"))
    start = s.rfind("Proof", 0, off + 6)
    last = max(s.rfind("Qed.", 0, off), s.rfind("Defined.", 0, off), s.rfind("Admitted.", 0, off))
    if start < 0 or last > start: return None
    m = re.compile(r"\b(Qed|Defined)\.").search(s, off)
    if not m: return None
    name = HEAD.findall(s[:start])[-1][1]
    open(path, "w").write(s[:start] + "Proof. Admitted." + s[m.end():])
    return name

def assumptions(text, output):
    names = re.findall(r"Print Assumptions (\w+)\.", text)
    blocks, cur = [], None
    for l in output.split("\n"):
        if l.startswith("Closed under the global context"): blocks.append([]); cur = None
        elif l.startswith("Axioms:"): cur = []; blocks.append(cur)
        elif cur is not None:
            m = re.match(r"([\w.']+)\s*(:|$)", l)
            if m: cur.append(m.group(1).split(".")[-1])
    return dict(zip(names, blocks))

def run(mut):
    if os.path.exists(WORK): shutil.rmtree(WORK)
    shutil.copytree(BASE, WORK, copy_function=shutil.copy2)
    edits = mut.get("edits") or [mut]
    for e in edits:
        path = WORK + "/theories/" + e["file"]
        s = open(path).read()
        assert s.count(e["old"]) == 1, (mut["name"], s.count(e["old"]))
        open(path, "w").write(s.replace(e["old"], e["new"]))
    admitted, outputs, t0, error = [], {}, time.time(), None
    goals = " ".join(props_of(mut["targets"])) if os.environ.get("FAST") else ""
    for _ in range(ROUNDS):
        r = subprocess.run("make -k -j4 -O COQEXTRAFLAGS='-set \"Default Timeout=60\"' " + goals, shell=True, cwd=WORK,
                           stdout=subprocess.PIPE, stderr=subprocess.STDOUT, text=True)
        parts = re.split(r"^COQC (theories/\w+\.v)$", r.stdout, flags=re.M)
        for f, o in zip(parts[1::2], parts[2::2]):
            if "Props" in f: outputs[f] = o
        if r.returncode == 0: break
        errs = re.findall(r'File "\./(theories/\w+\.v)", line (\d+), characters (\d+)-\d+:\n(?=Error)', r.stdout)
        if not errs: error = r.stdout[-1500:]; break
        for f, l, c in sorted({e[0]: e for e in reversed(errs)}.values()):
            n = admit(WORK + "/" + f, int(l), int(c))
            if n is None: error = "%s:%s: %s" % (f, l, r.stdout[-1500:]); break
            admitted.append((f, n))
        if error: break
        if time.time() - t0 > LIMIT: error = "time limit"; break
    names = {n for _, n in admitted}
    failed = []
    for f, o in sorted(outputs.items()):
        for th, ax in assumptions(open(WORK + "/" + f).read(), o).items():
            if names & set(ax): failed.append(th)
    examples = sorted(n for f, n in admitted if "xample" in n)
    return {"admitted": [n for _, n in admitted], "failed": sorted(set(failed)), "examples": examples,
            "error": error, "built": goals, "seconds": round(time.time() - t0)}

def main():
    muts = json.load(open(sys.argv[1]))
    want = sys.argv[2:]
    prepare()
    for m in muts:
        if want and m["name"] not in want: continue
        r = run(m)
        hit = [t for t in m["targets"] if any(f.startswith(t + "_") for f in r["failed"])]
        missed = [t for t in m["targets"] if t not in hit]
        edits = m.get("edits") or [m]
        line = {"name": m["name"], "definition": "; ".join("%s: %s" % (e["file"], e.get("definition", m.get("definition", ""))) for e in edits),
                "edit": "; ".join("%s  =>  %s" % (e["old"].strip(), e["new"].strip()) for e in edits),
                "claim": m["claim"], "expected": m["targets"], "theorems_failed": r["failed"],
                "examples_failed": r["examples"], "proofs_failed": r["admitted"], "theorems_tightened": []}
        if r["error"]: line["stopped"] = r["error"][-300:]
        if r["built"]: line["built"] = r["built"]
        if missed: line["still_proved"] = missed
        if not os.environ.get("DRY"): open(LOG, "a").write(json.dumps(line) + "\n")
        print(m["name"], "%ds" % r["seconds"], "FAILED:", r["failed"], "MISSED:", missed, "proofs:", len(r["admitted"]), r["error"] or "", flush=True)
if __name__ == "__main__": main()
