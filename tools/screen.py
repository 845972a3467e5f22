#!/usr/bin/env python3
"""Screening of generated edits.

For definitions of the model without an entry in tools/mutations.json, makes small edits
(flipped booleans, comparisons and connectives, negated conditions, neighbouring numerals,
swapped results of neighbouring match arms), builds what depends on the edited file in a
scratch copy and stops at the first lemma or theorem that fails.  Examples that fail are
admitted, so a surviving edit is one that no lemma and no theorem notices.

usage: screen.py OUT.jsonl WORKER WORKERS [per-definition] [file ...]
"""
import glob, json, os, random, re, shutil, subprocess, sys

ROOT = os.path.dirname(os.path.dirname(os.path.abspath(__file__)))
SRC = os.path.join(ROOT, "rocq")
SKIP = re.compile(r"(Spec|Proofs\d*|Props|Examples|Calm|Agree|Pure|Quiet|Text|Warn|Ind|Unique|Toy|Forward2?|Out|RoundTripSer)\.v$")
KEEP = {"DateText.v", "DeltaText.v", "JsonText.v"}
DEF = re.compile(r"^(?:Definition|Fixpoint|with)\s+([A-Za-z_0-9']+)", re.M)
KW = re.compile(r"^(?:Local\s+)?(Lemma|Theorem|Corollary|Example|Remark|Fact|Definition|Fixpoint|Inductive|Record|Instance)\s+([A-Za-z0-9_']+)")


def definitions(src):
    """(name, start, end) of the definitions, comments blanked."""
    blank = re.sub(r"\(\*.*?\*\)", lambda m: re.sub(r"[^\n]", " ", m.group(0)), src, flags=re.S)
    for m in DEF.finditer(blank):
        e = re.search(r"\.(\s|$)", blank[m.end():])
        if e:
            yield m.group(1), m.start(), m.end() + e.start(), blank


def edits(text):
    """Edits of the text of a definition: (offset, old, new)."""
    body = text.find(":=")
    if body < 0:
        return
    def each(rx, f):
        for m in re.finditer(rx, text[body:]):
            yield body + m.start(), m.group(0), f(m)
    for rx, f in [
        (r"\btrue\b(?! *=>)", lambda m: "false"), (r"\bfalse\b(?! *=>)", lambda m: "true"),
        (r" <=\? ", lambda m: " <? "), (r" <\? ", lambda m: " <=? "), (r" =\? ", lambda m: " <=? "),
        (r" && ", lambda m: " || "), (r" \|\| ", lambda m: " && "),
        (r"\bif ((?:(?!\bif\b|\bthen\b|\bmatch\b).)+?) then", lambda m: "if negb (" + m.group(1) + ") then"),
        (r"(?<![\w.])0(?![\w.])", lambda m: "1"), (r"(?<![\w.])1(?![\w.])", lambda m: "2"),
        (r"\binc exc\b", lambda m: "exc inc"), (r"\bPList\b(?! *[a-z]* *=>)", lambda m: "PTuple"),
        (r" \+ ", lambda m: " - "), (r" - ", lambda m: " + "),
    ]:
        yield from each(rx, f)
    arms = [(m.start(), m.end(), m.group(2)) for m in re.finditer(r"(\|[^|=]*=> *)([^|\n]+?)(?=\s*(?:\||\n|\bend\b))", text) if m.start() > body]
    for (s1, e1, r1), (s2, e2, r2) in zip(arms, arms[1:]):
        if r1.strip() != r2.strip():
            seg = text[s1:e2]
            a = text[s1:e1 - len(r1)] + r2 + text[e1:e2 - len(r2)] + r1
            yield s1, seg, a


def order_of(src):
    fs = [l.strip() for l in open(os.path.join(src, "_CoqProject")) if l.strip().endswith(".v")]
    out = subprocess.run(["coqdep", "-Q", "theories", "Verif"] + fs, cwd=src, capture_output=True, text=True).stdout
    deps = {f: set() for f in fs}
    for line in out.splitlines():
        lhs, _, rhs = line.partition(":")
        t = [x for x in lhs.split() if x.endswith(".vo")]
        if t and t[0][:-1] in deps:
            deps[t[0][:-1]] = {d[:-1] for d in rhs.split() if d.endswith(".vo") and d[:-1] in deps}
    order, seen = [], set()
    def go(f):
        if f not in seen:
            seen.add(f)
            for d in sorted(deps[f]):
                go(d)
            order.append(f)
    for f in fs:
        go(f)
    return order, deps


def coqc(dst, f):
    try:
        p = subprocess.run(["coqc", "-w", "none", "-Q", "theories", "Verif", f], cwd=dst, capture_output=True, text=True, timeout=200)
        return p.returncode, p.stderr
    except subprocess.TimeoutExpired:
        return 2, "timeout"


def enclosing(path, line):
    lines = open(path).read().split("\n")
    i = min(line, len(lines)) - 1
    while i >= 0 and not KW.match(lines[i]):
        i -= 1
    return lines, i, KW.match(lines[i]).groups() if i >= 0 else (None, None)


def try_edit(dst, snap, f, new_src, order, deps):
    path = os.path.join(dst, f)
    touched = [f]
    open(path, "w").write(new_src)
    res, dep = {f}, [f]
    for g in order:
        if deps[g] & res:
            res.add(g)
            dep.append(g)
    examples, verdict = [], None
    for g in dep:
        touched.append(g)
        for _ in range(40):
            rc, err = coqc(dst, g)
            if rc == 0:
                break
            m = re.search(r"line (\d+), characters", err)
            if rc == 2 or not m:
                verdict = ("timeout", g, err[-100:])
                break
            lines, i, (kind, name) = enclosing(os.path.join(dst, g), int(m.group(1)))
            if kind == "Example":
                j = i
                while not re.search(r"\b(Qed|Defined|Admitted)\.", lines[j]):
                    j += 1
                body = "\n".join(lines[i:j + 1])
                p = body.find("Proof")
                if p < 0 or "Admitted" in body:
                    verdict = ("example", g, name)
                    break
                lines[i:j + 1] = (body[:p] + "Proof. Admitted.").split("\n")
                open(os.path.join(dst, g), "w").write("\n".join(lines))
                examples.append(name)
                continue
            if g == f and kind in ("Definition", "Fixpoint", "Inductive", "Record", None):
                verdict = ("invalid", g, name)
            else:
                verdict = ("killed", g, name)
            break
        if verdict:
            break
    for g in touched:
        for ext in ("", "o", "os", "ok"):
            s, d = os.path.join(snap, g + ext), os.path.join(dst, g + ext)
            if os.path.exists(s):
                shutil.copy2(s, d)
        for s in glob.glob(os.path.join(snap, os.path.dirname(g), "." + os.path.basename(g)[:-2] + ".aux")):
            shutil.copy2(s, os.path.join(dst, os.path.dirname(g)))
    return verdict or ("SURVIVED", "", ""), examples


def main():
    out, worker, workers = sys.argv[1], int(sys.argv[2]), int(sys.argv[3])
    per = int(sys.argv[4]) if len(sys.argv) > 4 else 1
    only = set(sys.argv[5:])
    snap, dst = "/tmp/scr/snap%d" % worker, "/tmp/scr/w%d" % worker
    for d in (snap, dst):
        shutil.rmtree(d, ignore_errors=True)
        shutil.copytree(SRC, d, copy_function=shutil.copy2)
    order, deps = order_of(snap)
    seen = {(m["file"], m.get("def")) for m in json.load(open(os.path.join(ROOT, "tools", "mutations.json")))}
    done = set()
    if os.path.exists(out):
        done = {(o["file"], o["definition"]) for o in map(json.loads, open(out))}
    todo = []
    for f in order:
        n = os.path.basename(f)
        if (SKIP.search(n) and n not in KEEP) or (only and n not in only):
            continue
        src = open(os.path.join(snap, f)).read()
        for name, a, b, blank in definitions(src):
            if (n, name) not in seen and (n, name) not in done:
                es = list(edits(blank[a:b]))
                if es:
                    todo.append((f, n, name, a, b, es, src))
    random.Random(7).shuffle(todo)
    for k, (f, n, name, a, b, es, src) in enumerate(todo):
        if k % workers != worker:
            continue
        random.Random(name).shuffle(es)
        good = 0
        for off, old, new in es[:8]:
            mutated = src[:a + off] + new + src[a + off + len(old):]
            verdict, ex = try_edit(dst, snap, f, mutated, order, deps)
            if verdict[0] == "invalid":
                continue
            with open(out, "a") as fh:
                fh.write(json.dumps({"file": n, "definition": name, "offset": off, "old": old, "new": new, "context": src[max(a, a + off - 60):a + off + len(old) + 40],
                                     "verdict": verdict[0], "where": verdict[1], "failed": verdict[2], "examples": ex}) + "\n")
            good += 1
            if good >= per:
                break


main()
