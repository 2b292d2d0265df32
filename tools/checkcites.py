#!/usr/bin/env python3
"""Lists line citations in the model comments which do not start near a def/class of the cited file.

For every comment of a *Model.v file, the cited file is the last one named in that Coq file before the citation.
A citation is reported if no word in [brackets] of the comment occurs in the cited lines of that file.
"""
import glob, os, re
here = os.path.dirname(os.path.abspath(__file__))
for p in sorted(glob.glob(here + "/../rocq/theories/*Model.v")):
    text = open(p).read()
    src = None
    for m in re.finditer(r"\(\*\*(.*?)\*\)", text, re.S):
        c = m.group(1)
        for t in re.finditer(r"(returnn/[\w/]+\.py|tools/[\w-]+\.py|rnn\.py)|lines? (\d+)(?:-(\d+))?", c):
            if t.group(1):
                src = t.group(1)
                continue
            a, b = int(t.group(2)), int(t.group(3) or t.group(2))
            f = "/repo/" + (src or "")
            line = text[: m.start()].count("\n") + 1
            if not src or not os.path.isfile(f):
                print(f"{os.path.basename(p)}:{line}: no file for {a}-{b} ({src})")
                continue
            ls = open(f, errors="replace").read().split("\n")
            part = "\n".join(ls[max(0, a - 1) : b])
            words = set(re.findall(r"[A-Za-z_]\w+", " ".join(re.findall(r"\[([^\]]*)\]", c)) or c))
            nxt = re.search(r"(?:Definition|Fixpoint|Record|Inductive|Function)\s+(\w+)", text[m.end() : m.end() + 200])
            if nxt:
                words.add(nxt.group(1).strip("_"))
            if b > len(ls) or not any(w in part for w in words):
                print(f"{os.path.basename(p)}:{line}: {src}:{a}-{b} has none of {sorted(words)[:6]}")
