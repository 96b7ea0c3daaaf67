#!/usr/bin/env python3
"""Apply wrong edits to a scratch copy of the model and record which theorems stop proving.

Usage: mutate.py MUTATIONS.json SCRATCH_DIR LOG.jsonl

Each mutation is {"file", "definition", "old", "new", "breaks"}.  The scratch copy is rebuilt with the
edit.  A failing Example does not count: it is replaced by a trivial statement and the build goes on,
so that the log names the theorem (or the lemma it is proved from) that notices the edit."""
import json, os, re, shutil, subprocess, sys

muts, scratch, log = sys.argv[1:4]
src = "/verif/rocq"
HEAD = re.compile(r"^\s*(?:Local |Global |#\[[^\]]*\] *)?(Theorem|Lemma|Example|Corollary|Fact|Remark|Definition|Fixpoint)\s+([\w']+)")

def sh(cmd, cwd):
    return subprocess.run(cmd, shell=True, cwd=cwd, capture_output=True, text=True)

def enclosing(path, line):
    lines = open(path).read().split("\n")
    for i in range(min(line, len(lines)) - 1, -1, -1):
        m = HEAD.match(lines[i])
        if m:
            return m.group(1), m.group(2), i, lines
    return None

def drop_example(path, i, lines):
    j = i
    while j < len(lines) and not re.search(r"(Qed|Defined)\.\s*$", lines[j]):
        j += 1
    name = HEAD.match(lines[i]).group(2)
    lines[i:j + 1] = ["Example %s : True. Proof. exact I. Qed." % name]
    open(path, "w").write("\n".join(lines))

results = []
for m in json.load(open(muts)):
    if os.path.exists(scratch):
        shutil.rmtree(scratch)
    subprocess.run(["cp", "-a", src, scratch], check=True)
    path = os.path.join(scratch, "theories", m["file"])
    text = open(path).read()
    if text.count(m["old"]) != 1:
        print("SKIP (matches %d times):" % text.count(m["old"]), m["file"], m["old"]); continue
    open(path, "w").write(text.replace(m["old"], m["new"]))
    sh("coq_makefile -f _CoqProject -o Makefile", scratch)
    failed, examples = [], []
    for _ in range(80):
        r = sh("timeout 1500 make -j3 -k 2>&1", scratch)
        errs = re.findall(r'File "\./(theories/\w+\.v)", line (\d+), characters [^\n]*\n(?:[^\n]*\n)*?Error', r.stdout)
        if r.returncode == 0:
            break
        progress = False
        seen = set()
        for f, line in errs:
            if f in seen: continue
            seen.add(f)
            e = enclosing(os.path.join(scratch, f), int(line))
            if not e: continue
            kind, name, i, lines = e
            if kind == "Example":
                examples.append(name); drop_example(os.path.join(scratch, f), i, lines); progress = True
            else:
                failed.append(name)
        if failed or not progress:
            break
    results.append((m, failed))
    rec = {"definition": m["definition"], "edit": m.get("edit", m["old"] + "  ==>  " + m["new"]),
           "claim": m["breaks"], "theorems_failed": sorted(set(failed)), "examples_failed": examples,
           "theorems_tightened": m.get("tightened", [])}
    with open(log, "a") as fh:
        fh.write(json.dumps(rec) + "\n")
    print(("caught " if failed else "NOT CAUGHT ") + m["definition"], m["breaks"], failed, examples, flush=True)
