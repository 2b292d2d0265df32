#!/usr/bin/env python3
"""Mutation tests of the theorems.

Usage: mutate.py MUTANTS.jsonl [LOG.jsonl]

Each mutant is {"file": "XModel.v", "definition": ..., "edit": description, "old": text, "new": text, "claim": ...}.
In a scratch copy the text is replaced in the model and everything that depends on the file is recompiled. A lemma
whose proof breaks is admitted there, so that the rest still compiles; a theorem counts as failed if its own proof
breaks or if Print Assumptions lists an admitted lemma for it.
"""
import json, os, re, shutil, subprocess, sys, tempfile
from concurrent.futures import ThreadPoolExecutor

SRC = os.environ.get("MUT_SRC", "/verif/rocq/theories")
HEAD = re.compile(r"^\s*(?:Local |Global |#\[[^\]]*\]\s*)*(?:Program )?(Theorem|Lemma|Example|Corollary|Remark|Fact|Instance|Definition|Fixpoint|Fact)\s+([A-Za-z0-9_']+)", re.M)


def deps():
    out = subprocess.run(["coqdep", "-Q", "theories", "Verif"] + ["theories/" + f for f in sorted(os.listdir(SRC)) if f.endswith(".v")], cwd=os.path.dirname(SRC), capture_output=True, text=True).stdout
    d = {}
    for line in out.splitlines():
        m = re.match(r"theories/(\w+)\.vo .*?: (.*)", line)
        if m:
            d[m.group(1)] = [re.sub(r"theories/(\w+)\.vo", r"\1", x) for x in m.group(2).split() if x.endswith(".vo")]
    return d


DEPS = deps()


def affected(mod):
    res, changed = {mod}, True
    while changed:
        changed = False
        for m, ds in DEPS.items():
            if m not in res and any(x in res for x in ds):
                res.add(m)
                changed = True
    order, seen = [], set()

    def visit(m):
        if m in seen:
            return
        seen.add(m)
        for x in DEPS[m]:
            if x in res:
                visit(x)
        order.append(m)

    for m in sorted(res):
        visit(m)
    return order


def compile_(tmp, mod, timeout):
    try:
        p = subprocess.run(["coqc", "-set", "Default Timeout=40", "-Q", "theories", "Verif", f"theories/{mod}.v"], cwd=tmp, capture_output=True, text=True, timeout=timeout)
        return p.returncode, p.stdout, p.stderr
    except subprocess.TimeoutExpired:
        return None, "", "timeout"


def byte_to_char(s, b):
    return len(s.encode()[:b].decode(errors="ignore"))


def run(mut):
    tmp = tempfile.mkdtemp(prefix="mut_")
    try:
        os.mkdir(tmp + "/theories")
        mod = mut["file"][:-2]
        order = affected(mod)
        for f in os.listdir(SRC):
            if f.endswith(".vo") and f[:-3] not in order:
                os.symlink(f"{SRC}/{f}", f"{tmp}/theories/{f}")
        for m in order:
            shutil.copy(f"{SRC}/{m}.v", f"{tmp}/theories/{m}.v")
        p = f"{tmp}/theories/{mod}.v"
        s = open(p).read()
        if s.count(mut["old"]) != 1:
            return dict(mut, result="bad mutant: old text occurs %d times" % s.count(mut["old"]))
        open(p, "w").write(s.replace(mut["old"], mut["new"]))
        if not mut["claim"]:
            stem = mod[:-5] if mod.endswith("Model") else mod
            ps = [m for m in order if m.endswith("Props")]
            ps = [m for m in ps if m == stem + "Props"] or ps
            ids = sorted({i for m in ps for i in re.findall(r"^Theorem (C\d\d)_", open(f"{SRC}/{m}.v").read(), re.M)})
            mut["claim"] = ",".join(ids)
        failed_lemmas, failed_thms, failed_ex, ok_thms = [], [], [], []
        for m in order:
            for _ in range(200):
                rc, out, err = compile_(tmp, m, 400)
                if rc == 0:
                    break
                path = f"{tmp}/theories/{m}.v"
                src = open(path).read()
                mm = re.search(r'File "\./theories/\w+\.v", line (\d+), characters (\d+)-(\d+):\n(?:Error|Syntax)', err)
                if not mm:
                    mm2 = re.findall(r'line (\d+), characters (\d+)-(\d+)', err)
                    if not mm2:
                        return dict(mut, result=f"cannot repair {m}: {err[-300:]}")
                    ln = int(mm2[-1][0]); ch = int(mm2[-1][1])
                else:
                    ln = int(mm.group(1)); ch = int(mm.group(2))
                lines = src.split("\n")
                pos = sum(len(x) + 1 for x in lines[: ln - 1]) + byte_to_char(lines[ln - 1], ch)
                hs = [h for h in HEAD.finditer(src) if h.start() <= pos]
                if not hs:
                    return dict(mut, result=f"cannot repair {m}: {err[-300:]}")
                h = hs[-1]
                kind, name = h.group(1), h.group(2)
                if kind in ("Definition", "Fixpoint") or (m == mod and mod.endswith("Model")):
                    return dict(mut, result=f"model or definition {name} in {m} does not compile: {err[-300:]}")
                # find the proof
                pm = re.compile(r"\bProof\b.*?\b(Qed|Defined)\.", re.S).search(src, h.end())
                if not pm or (pm.start() > pos and "Proof" not in src[h.end():pos]) and pos < pm.start():
                    # statement itself no longer typechecks: drop it
                    end = pm.end()
                    src = src[: h.start()] + "(* dropped " + name + " *)" + src[end:]
                    tag = name + " (statement)"
                else:
                    src = src[: pm.start()] + "Admitted." + src[pm.end():]
                    tag = name
                open(path, "w").write(src)
                if name.startswith("C") and re.match(r"C\d\d_", name) and kind == "Theorem":
                    failed_thms.append(name)
                    # keep "Print Assumptions" harmless
                    if tag != name:
                        src = src.replace(f"Print Assumptions {name}.", "")
                        open(path, "w").write(src)
                elif kind == "Example":
                    failed_ex.append(name)
                else:
                    failed_lemmas.append(f"{m}.{tag}")
            else:
                return dict(mut, result=f"too many repairs in {m}")
            if m.endswith("Props"):
                src = open(f"{tmp}/theories/{m}.v").read()
                names = re.findall(r"^Print Assumptions (\w+)\.", src, re.M)
                chunks = re.findall(r"^(Closed under the global context|Axioms:\n(?:.+\n?)+?(?=Closed|Axioms:|\Z|     = ))", out, re.M)
                marks = re.findall(r"^(Closed under the global context|Axioms:)", out, re.M)
                for n, c in zip(names, marks):
                    if c == "Axioms:" and n not in failed_thms:
                        failed_thms.append(n)
                    elif c != "Axioms:":
                        ok_thms.append(n)
        return dict(mut, failed_theorems=failed_thms, failed_lemmas=failed_lemmas[:12], failed_examples=failed_ex[:8],
                    still_proved=[t for t in ok_thms if t[:3] in mut["claim"]], result="killed" if failed_thms else "SURVIVED")
    finally:
        shutil.rmtree(tmp, ignore_errors=True)


def main():
    muts = [json.loads(x) for x in open(sys.argv[1]) if x.strip()]
    log = open(sys.argv[2], "a") if len(sys.argv) > 2 else None
    with ThreadPoolExecutor(int(os.environ.get("J", "4"))) as ex:
        for r in ex.map(run, muts):
            print(r["result"], "|", r["file"], r["definition"], "|", r["edit"], "| claim", r["claim"], "| failed:", ",".join(r.get("failed_theorems", [])), "| ok:", ",".join(r.get("still_proved", [])), "| ex:", ",".join(r.get("failed_examples", [])), flush=True)
            if log and r["result"] in ("killed", "SURVIVED"):
                log.write(json.dumps({"definition": r["file"] + ":" + r["definition"], "edit": r["edit"] + f"  [{r['old']!r} -> {r['new']!r}]", "claim": r["claim"], "result": r["result"], "theorems_failed": r["failed_theorems"], "first_lemmas_failed": r["failed_lemmas"][:5], "theorems_still_proved": r["still_proved"] if r["result"] == "SURVIVED" else [], "theorems_tightened": mut_t(r)}) + "\n")
                log.flush()


def mut_t(r):
    return r.get("tightened", [])


main()
