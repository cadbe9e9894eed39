#!/usr/bin/env python3
"""Mutation testing of the theorems, in a scratch copy.

usage: mutate.py MUTATIONS.json SCRATCH RESULTS.jsonl

MUTATIONS.json: list of {"id", "file", "old", "new", "count", "definition", "edit", "claim", "expect": [prefixes of theorem names]}.
For each mutation the theories are copied to SCRATCH with their compiled files, the edit is applied, and the Prop*.v
files with the expected theorems are rebuilt.  A proof that fails is admitted, and the build is repeated, until an
expected theorem fails or rests on a failing lemma (KILLED) or everything builds (SURVIVED).  What a theorem rests on is
read off the .glob files of the original build.  A proof that reaches the time limit is admitted too but is no failure:
theorems resting on such proofs only are listed as timed_out, and the verdict is INCONCLUSIVE if nothing else failed."""
import collections, json, os, re, shutil, subprocess, sys

root = os.path.dirname(os.path.dirname(os.path.abspath(__file__)))
src = os.path.join(root, "rocq")
LIMIT = 1200

WRAP = """#!/bin/bash
case "$*" in *.v*) ;; *) exec coqc "$@";; esac
out=LOGDIR/$(basename "${@: -1}" .v).log
timeout %d coqc -time "$@" > $out 2>&1
rc=$?
echo "RC $rc" >> $out
exit $rc
""" % LIMIT

def modules():
    return [l.strip()[len("theories/"):-2] for l in open(os.path.join(src, "_CoqProject")) if l.strip().endswith(".v")]

def dependencies():
    """users[(module, name)]: the constants mentioning it"""
    users, where = collections.defaultdict(set), {}
    for mod in modules():
        items, refs = [], []
        for l in open(os.path.join(src, "theories", mod + ".glob"), errors="replace"):
            f = l.split()
            if not f or ":" not in (f[1] if len(f) > 1 else ""):
                m = re.match(r"R(\d+):\d+ (\S+) \S+ (\S+) (\w+)", l)
                if m and m.group(2).startswith("Verif."):
                    refs.append((int(m.group(1)), m.group(2)[6:], m.group(3)))
                continue
            if f[0] in ("prf", "def", "ind", "rec", "constr", "proj", "ex"):
                items.append((int(f[1].split(":")[0]), f[3] if len(f) > 3 else f[2]))
        items.sort()
        for _, n in items:
            where.setdefault(n, mod)
        j = 0
        refs.sort()
        cur = None
        for pos, m, n in refs:
            while j < len(items) and items[j][0] <= pos:
                cur = items[j][1]
                j += 1
            if cur is not None:
                users[(m, n)].add((mod, cur))
    return users, where

def closure(users, start):
    seen, todo = set(start), list(start)
    while todo:
        x = todo.pop()
        for u in users.get(x, ()):
            if u not in seen:
                seen.add(u)
                todo.append(u)
    return seen

STATEMENT = re.compile(rb"^\s*(?:Local |Global |#\[\w+\] )?(?:Lemma|Theorem|Corollary|Example|Definition|Fixpoint|Fact|Remark|Instance)\s+(\w+)", re.M)

class Runner:
    def __init__(self, scratch):
        self.scratch, self.logs = scratch, scratch + "-logs"
        self.users, _ = dependencies()
        self.props = {}
        for f in modules():
            if f.startswith("Prop"):
                for n in re.findall(r"^Theorem\s+(C\d+\w*)", open(os.path.join(src, "theories", f + ".v")).read(), re.M):
                    self.props[n] = f

    def build(self, targets):
        shutil.rmtree(self.logs, ignore_errors=True)
        os.makedirs(self.logs)
        subprocess.run("make -k -j4 COQC=%s/coqcw %s > make.out 2>&1" % (self.scratch, " ".join("theories/%s.vo" % t for t in targets)),
                       shell=True, cwd=self.scratch)
        bad = []
        for f in sorted(os.listdir(self.logs)):
            log = open(os.path.join(self.logs, f), errors="replace").read()
            if not log.rstrip().endswith("RC 0"):
                bad.append((f[:-4], log))
        return bad

    def cut(self, mod, log):
        """admit the proof in which the module failed; returns its name, kind and whether we can go on"""
        path = os.path.join(self.scratch, "theories", mod + ".v")
        text = open(path, "rb").read()
        done = [int(b) for b in re.findall(r"^Chars \d+ - (\d+) ", log, re.M)]
        pos = done[-1] if done else 0
        late = "RC 124" in log or "RC 137" in log
        kind = "timeout" if late else "proof"
        m = STATEMENT.match(text[pos:])
        if m:
            return m.group(1).decode(), "timeout" if late else "statement", False
        start = None
        for m in STATEMENT.finditer(text[:pos]):
            start = m
        if start is None:
            return "?", "timeout" if late else "file", False
        name = start.group(1).decode()
        ends = [x for x in (text.find(b"Qed.", pos), text.find(b"Defined.", pos)) if x >= 0]
        if not ends:
            return name, kind, False
        end = min(ends)
        if STATEMENT.search(text[pos:end]):
            return name, "timeout" if late else "definition", False
        end = text.find(b".", end) + 1
        begin = text.find(b"Proof.", start.start())
        if begin < 0 or begin > end:
            return name, kind, False
        open(path, "wb").write(text[:begin] + b"Admitted." + text[end:])
        return name, kind, True

    def resting(self, admitted):
        return {n for _, n in closure(self.users, [(m, n) for m, n, _ in admitted]) if n in self.props}

    def run(self, mut):
        shutil.rmtree(self.scratch, ignore_errors=True)
        shutil.copytree(src, self.scratch, copy_function=shutil.copy2)
        open(self.scratch + "/coqcw", "w").write(WRAP.replace("LOGDIR", self.logs))
        os.chmod(self.scratch + "/coqcw", 0o755)
        subprocess.run("coq_makefile -f _CoqProject -o Makefile > /dev/null", shell=True, cwd=self.scratch)
        path = os.path.join(self.scratch, "theories", mut["file"])
        text = open(path).read()
        if text.count(mut["old"]) != mut.get("count", 1):
            return {"verdict": "ERROR", "error": "old text occurs %d times" % text.count(mut["old"])}
        open(path, "w").write(text.replace(mut["old"], mut["new"]))
        expected = {n for n in self.props if any(n.startswith(e + "_") or n == e for e in mut["expect"])}
        targets = sorted({self.props[n] for n in expected})
        admitted, stuck, failed = [], set(), set()
        for _ in range(40):
            bad = [b for b in self.build(targets) if b[0] not in stuck]
            if not bad:
                break
            for mod, log in bad:
                name, kind, go_on = self.cut(mod, log)
                if mod + ".v" == mut["file"]:
                    return {"verdict": "ERROR", "error": "the mutated file does not compile: " + log[-400:]}
                admitted.append((mod, name, kind))
                if not go_on:
                    stuck.add(mod)
            failed = self.resting([a for a in admitted if a[2] != "timeout"])
            if failed & expected:
                break
        late = self.resting([a for a in admitted if a[2] == "timeout"]) - failed
        verdict = "KILLED" if failed & expected else "INCONCLUSIVE" if late & expected else "SURVIVED"
        return {"admitted": ["%s.%s (%s)" % a for a in admitted], "failed": sorted(failed), "timed_out": sorted(late),
                "stuck": sorted(stuck), "verdict": verdict}

if __name__ == "__main__":
    muts, scratch, results = json.load(open(sys.argv[1])), sys.argv[2], sys.argv[3]
    runner = Runner(scratch)
    done = set()
    if os.path.exists(results):
        done = {json.loads(l)["id"] for l in open(results)}
    for mut in muts:
        if mut["id"] in done:
            continue
        r = dict(mut, **runner.run(mut))
        with open(results, "a") as f:
            f.write(json.dumps(r) + "\n")
        print(mut["id"], r["verdict"], r.get("error", ""), r.get("admitted"), len(r.get("failed", [])), flush=True)
