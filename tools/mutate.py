#!/usr/bin/env python3
"""Mutation testing of the theorems.

Reads tools/mutations.json (a list of {id, file, old, new, claim, props}),
applies each edit to a scratch copy of rocq/ under /tmp/mut, rebuilds what
depends on the edited file, and reports which theorems no longer prove.  A
proof that fails is replaced by Admitted in the scratch copy so that the build
can go on; a property theorem counts as failed when it is itself broken or when
Print Assumptions shows that it rests on a broken lemma.

usage: mutate.py [id ...]     (default: all mutations not yet in seeded/LOG.jsonl)

With MUTQUICK=1 only the files are rebuilt on which the theorems of the claimed
properties (the Cnn in the claim) depend, so only those theorems are reported.
"""
import json, os, re, shutil, subprocess, sys, collections

ROOT = os.path.dirname(os.path.dirname(os.path.abspath(__file__)))
SRC = os.path.join(ROOT, "rocq")
DST = os.environ.get("MUTDIR", "/tmp/mut/rocq")
KW = r"^(?:#\[[^\]]*\]\s*)?(?:Local\s+|Global\s+|Program\s+)*(Lemma|Theorem|Corollary|Example|Remark|Fact|Definition|Fixpoint|Inductive|Record|Instance|Function)\s+([A-Za-z0-9_']+)"


def files_in_order():
    fs = [l.strip() for l in open(os.path.join(SRC, "_CoqProject")) if l.strip().endswith(".v")]
    out = subprocess.run(["coqdep", "-Q", "theories", "Verif"] + fs, cwd=SRC, capture_output=True, text=True).stdout
    deps = {f: set() for f in fs}
    for line in out.splitlines():
        if ":" not in line:
            continue
        lhs, rhs = line.split(":", 1)
        tgt = [t for t in lhs.split() if t.endswith(".vo")]
        if not tgt:
            continue
        f = tgt[0][:-1]
        if f in deps:
            deps[f] = {d[:-1] for d in rhs.split() if d.endswith(".vo") and d[:-1] in deps}
    order, seen = [], set()

    def go(f):
        if f in seen:
            return
        seen.add(f)
        for d in sorted(deps[f]):
            go(d)
        order.append(f)

    for f in fs:
        go(f)
    return order, deps


def dependents(f, order, deps):
    res = {f}
    for g in order:
        if deps[g] & res:
            res.add(g)
    return [g for g in order if g in res]


def ancestors(fs, deps):
    res, todo = set(), list(fs)
    while todo:
        f = todo.pop()
        if f not in res:
            res.add(f)
            todo += deps[f]
    return res


def scope(mut, order, deps):
    f = "theories/" + mut["file"]
    files = dependents(f, order, deps)
    if not os.environ.get("MUTQUICK"):
        return files
    ids = re.findall(r"\bC\d\d\b", mut["claim"])
    home = [g for g in order if any(re.search(r"^Theorem %s_" % i, open(os.path.join(SRC, g)).read(), re.M) for i in ids)]
    keep = ancestors(home, deps)
    return [g for g in files if g in keep] if home else files


def coqc(f, timeout=180):
    try:
        p = subprocess.run(["coqc", "-Q", "theories", "Verif", f], cwd=DST, capture_output=True, text=True, timeout=timeout)
        return p.returncode, p.stdout, p.stderr
    except subprocess.TimeoutExpired:
        # locate the sentence that loops
        try:
            p = subprocess.run(["coqc", "-time", "-Q", "theories", "Verif", f], cwd=DST, stdout=subprocess.PIPE,
                               stderr=subprocess.PIPE, timeout=timeout)
            out = p.stdout.decode(errors="replace")
        except subprocess.TimeoutExpired as e:
            out = (e.stdout or b"").decode(errors="replace")
        m = re.findall(r"Chars (\d+) - (\d+)", out)
        pos = int(m[-1][1]) if m else 0
        src = open(os.path.join(DST, f), "rb").read()
        line = src[:pos].count(b"\n") + 2
        return 1, "", 'File "%s", line %d, characters 0-0: timeout' % (f, line)


def break_proof(f, line):
    """Replace the proof enclosing `line` by Admitted; return (kind, name)."""
    path = os.path.join(DST, f)
    lines = open(path).read().split("\n")
    i = min(line - 1, len(lines) - 1)
    while i >= 0 and not re.match(KW, lines[i].lstrip()):
        i -= 1
    if i < 0:
        return None
    kind, name = re.match(KW, lines[i].lstrip()).groups()
    j = i
    while j < len(lines) and not re.search(r"\b(Qed|Defined|Admitted)\.", lines[j]):
        j += 1
    body = "\n".join(lines[i:j + 1])
    if kind in ("Inductive", "Record", "Function", "Instance", "Fixpoint", "Definition") and (
            j >= len(lines) or "Proof" not in body):
        return (kind, name + " [definition]")
    if "Admitted." in body:  # the statement itself is broken: cannot go on
        return (kind, name + " [statement]")
    p = body.find("Proof")
    if p < 0:
        return (kind, name + " [noproof]")
    new = body[:p] + "Proof. Admitted."
    lines[i:j + 1] = new.split("\n")
    open(path, "w").write("\n".join(lines))
    return (kind, name)


def run(mut, order, deps):
    if not os.path.isdir(DST):
        os.makedirs(os.path.dirname(DST), exist_ok=True)
    subprocess.run(["rsync", "-a", "--delete", SRC + "/", DST + "/"], check=True) if shutil.which("rsync") else (
        shutil.rmtree(DST, ignore_errors=True), shutil.copytree(SRC, DST, copy_function=shutil.copy2))
    f = "theories/" + mut["file"]
    path = os.path.join(DST, f)
    s = open(path).read()
    if s.count(mut["old"]) != 1:
        return {"error": "old text occurs %d times" % s.count(mut["old"])}
    open(path, "w").write(s.replace(mut["old"], mut["new"]))
    broken, examples, props, hard = [], [], [], []
    for g in scope(mut, order, deps):
        for _ in range(60):
            rc, out, err = coqc(g)
            if rc == 0:
                break
            m = re.search(r'line (\d+), characters', err)
            if not m:
                return {"error": err[-800:]}
            r = break_proof(g, int(m.group(1)))
            if r is None or "[" in r[1]:
                hard.append("%s:%s %s %s" % (g, m.group(1), r and r[1], err[-300:]))
                break
            (examples if r[0] == "Example" else broken).append(r[1])
        if hard:
            break
        src = open(os.path.join(DST, g)).read()
        names = re.findall(r"Print Assumptions ([A-Za-z0-9_']+)\.", src)
        blocks = re.findall(r"Closed under the global context|Axioms:\n(?:(?!Closed under|Axioms:).*\n?)*", out)
        if names and len(names) == len(blocks):
            for n, b in zip(names, blocks):
                if b.startswith("Axioms"):
                    ax = [t.split(".")[-1] for t in re.findall(r"^([A-Za-z0-9_'.]+)\s*:", b, re.M)]
                    if any(a in broken for a in ax) or n in broken:
                        props.append(n)
        elif names:
            hard.append("%s: %d Print Assumptions, %d answers" % (g, len(names), len(blocks)))
    return {"broken": broken, "examples": examples, "theorems_failed": props, "hard": hard}


def main():
    muts = json.load(open(os.path.join(ROOT, "tools", "mutations.json")))
    logp = os.path.join(ROOT, "seeded", "LOG.jsonl")
    os.makedirs(os.path.dirname(logp), exist_ok=True)
    done = set()
    if os.path.exists(logp):
        done = {json.loads(l).get("id") for l in open(logp) if l.strip()}
    want = sys.argv[1:]
    # work from a snapshot, so that editing can go on meanwhile
    global SRC
    snap = DST + ".snapshot"
    shutil.rmtree(snap, ignore_errors=True)
    shutil.copytree(SRC, snap, copy_function=shutil.copy2)
    SRC = snap
    order, deps = files_in_order()
    for m in muts:
        if want and m["id"] not in want:
            continue
        if not want and m["id"] in done:
            continue
        r = run(m, order, deps)
        ok = bool(r.get("theorems_failed"))
        print(m["id"], "KILLED" if ok else "*** NOT KILLED ***", json.dumps(r)[:1500], flush=True)
        if ok:
            with open(logp, "a") as fh:
                fh.write(json.dumps({"id": m["id"], "definition": m["def"], "file": m["file"],
                                     "edit": "%s  ==>  %s" % (m["old"], m["new"]), "claim": m["claim"],
                                     "theorems_failed": r["theorems_failed"],
                                     "theorems_tightened": m.get("tightened", []),
                                     **({"rebuilt": "the claimed properties only"} if os.environ.get("MUTQUICK") else {})}) + "\n")


main()
