#!/usr/bin/env python3
"""Generate mutants of the model files: genmut.py OUT.jsonl N SEED [Model ...]  (N mutants per file)"""
import json, random, re, sys, os

T = "/verif/rocq/theories"
OPS = [
    (r"<=\?", "<?", "<= becomes <"), (r"(?<!<)<\?", "<=?", "< becomes <="), (r"(?<![<=])=\?", "<=?", "= becomes <="),
    (r" \+ 1\b", "", "drop + 1"), (r" - 1\b", "", "drop - 1"), (r"&&", "||", "and becomes or"), (r"\|\|", "&&", "or becomes and"),
    (r"\bnegb \(", "(", "drop a negation"), (r"\btrue\b", "false", "true becomes false"), (r"\bfalse\b", "true", "false becomes true"),
    (r"\bNat\.min\b", "Nat.max", "min becomes max"), (r"\bNat\.max\b", "Nat.min", "max becomes min"),
    (r"\bZ\.min\b", "Z.max", "min becomes max"), (r"\bZ\.max\b", "Z.min", "max becomes min"),
    (r"\bfirstn\b", "skipn", "take becomes drop"), (r"\bskipn\b", "firstn", "drop becomes take"), (r"\bmod\b", "/", "modulo becomes division"),
    (r" \+ (?=[a-z(])", " - ", "plus becomes minus"), (r"(?<=[a-z)]) - (?=[a-z(])", " + ", "minus becomes plus"),
    (r"\brev \(", "(", "drop a reversal"), (r"\bS \(", "(", "drop a successor"), (r"(?<![\w.%])0(?![\w.%])", "1", "0 becomes 1"), (r"(?<![\w.%])1(?![\w.%])", "2", "1 becomes 2"),
    (r"assert_ \(", "assert_ (true || ", "drop an assertion"),
    (r"\bif ([^\n]*?) then\b", r"if negb (\1) then", "negate a condition"),
    (r"\bif ([^\n]*?) then\b", r"if (\1) && false then", "condition never true"),
    (r"\bif ([^\n]*?) then\b", r"if (\1) || true then", "condition always true"),
    (r"\bfst\b", "snd", "first becomes second component"), (r"\bsnd\b", "fst", "second becomes first component"),
    (r"(\(?[\w' ]+\)?) \+\+ (\[[\w', ]*\])", r"\2 ++ \1", "append at the front"),
    (r" \+\+ \[[^\]\n]*\]", "", "do not append"),
    (r"\bfilter\b", "filter (fun _ => true) ++ filter", "x"),
    (r"\bexistsb\b", "forallb", "exists becomes for all"), (r"\bforallb\b", "existsb", "for all becomes exists"),
    (r"\bdset (\w+) \S+ \S+(?= in|\))", r"\1", "drop a dictionary update"),
    (r"\bfold_left\b", "fold_left", ""),
]


def strip_comments_mask(s):
    mask = [False] * len(s)
    depth, i, instr = 0, 0, False
    while i < len(s):
        if depth == 0 and s[i] == '"':
            j = s.index('"', i + 1)
            for k in range(i, j + 1):
                mask[k] = True
            i = j + 1
            continue
        if s.startswith("(*", i):
            depth += 1
            mask[i] = mask[i + 1] = True
            i += 2
            continue
        if s.startswith("*)", i) and depth:
            depth -= 1
            mask[i] = mask[i + 1] = True
            i += 2
            continue
        if depth:
            mask[i] = True
        i += 1
    return mask


def main():
    out, n, seed = sys.argv[1], int(sys.argv[2]), int(sys.argv[3])
    files = [f + ".v" for f in sys.argv[4:]] or sorted(f for f in os.listdir(T) if f.endswith("Model.v"))
    rnd = random.Random(seed)
    props = {}
    with open(out, "w") as o:
        for f in files:
            s = open(f"{T}/{f}").read()
            mask = strip_comments_mask(s)
            defs = [(m.start(), m.group(2)) for m in re.finditer(r"^\s*(?:Program )?(Definition|Fixpoint|with)\s+([\w']+)", s, re.M) if not mask[m.start(1)]]
            cands = []
            for pat, rep, desc in OPS:
                if not desc or desc == "x":
                    continue
                for m in re.finditer(pat, s):
                    if mask[m.start()] or not defs or m.start() < defs[0][0]:
                        continue
                    line_start = s.rfind("\n", 0, m.start()) + 1
                    line_end = s.find("\n", m.end())
                    new = m.expand(rep)
                    if new == m.group(0):
                        continue
                    # unique context
                    a, b = line_start, line_end if line_end > 0 else len(s)
                    old_ctx = s[a:b]
                    if s.count(old_ctx) != 1:
                        a = s.rfind("\n", 0, max(0, a - 1)) + 1
                        old_ctx = s[a:b]
                        if s.count(old_ctx) != 1:
                            continue
                    new_ctx = s[a:m.start()] + new + s[m.end():b]
                    d = [x for x in defs if x[0] <= m.start()][-1][1]
                    cands.append({"file": f, "definition": d, "edit": desc, "old": old_ctx, "new": new_ctx, "claim": ""})
            rnd.shuffle(cands)
            for c in cands[:n]:
                o.write(json.dumps(c) + "\n")


main()
