#!/usr/bin/env python3
"""Mutation test of the theorems: apply one wrong edit to a definition of the model in a
scratch copy of rocq/, rebuild, and record which proofs no longer go through.

    mutate.py base            build the scratch base copy (/tmp/mut/base)
    mutate.py run [ids...]    run the mutants of mutants.py that are not in the log yet

UnitTests.v is left out and Examples are removed when they fail: only theorems count.
"""
import glob, json, os, re, shutil, subprocess, sys, time
sys.path.insert(0, os.path.dirname(__file__))
BASE, WORK, LOG = "/tmp/mut/base", "/tmp/mut/w", "/verif/seeded/LOG.jsonl"
CORPUS = [
 "N0450F350 DCT PNT/M084F370 VFR ABC IFR XYZ/N0430F330 STAR",
 "M082F310 ABC1A ABC/N0430F330 UL613 DEF STAY1/0130 DCT 48N005E OAT one two GAT GHI VFR x y IFR JKL/K0800F350 C/MNO/N0450F350F390 DCT PQR T",
 "N0450F350 48N005E 4830N00530W DCT 50S010W045020 ABC 10N010E ABC180030 C/5000N01000E090010/M080F350PLUS IFPSTOP xx yy IFPSTART QQQ",
 "K0850VFR one IFR ABC/N0400VFR two IFR DEF/N0410A050 GHI",
 "M080VFR", "N0450VFR a b c IFR ABC/K0500S1200 C/DEF/K0500S1200S1300 GHI",
 "N0450M0840 SID ABC UL613 DEF STAR", "N0450A055 ABC1A DEF UL9 GHI DEF2B", "N0450F350 C/ABC/M080A100A120 DEF", "N0450F350 C/ABC/N0450A100F130 10N010E 11N011E",
 "N0450F350 C/ABC/K0450M1000PLUS DEF/M090S1000", "N0450F350 ABC C DEF C", "N0450F350 ABC STAY1/2359 UL613 DEF T", "N0450F350 T", "", "   ", "/", "DCT ABC",
 "N0450F350", "N0450F350 ABC UL613 DCT XYZ ?? ABC", "N0450F350 ABC STAY1 XYZ", "N0450F350 ABC STAY1/XYZ DEF", "N0450F350 ABC STAY1/0130/ABC", "N0450F350 ABC/", "N0450F350 ABC/N0430F332 XYZ/",
 "N0450F350 ABC UL613 10N010E DEF", "N0450F350 10N010E UL613 DEF", "N0450F350 SID SID ABC", "N0450F350 ABC SID DEF", "N0450F350 UL613 ABC", "N0450F350 ABC T DEF", "N0450F350 ABC STAR DEF",
 "N0450F350 ABC IFR DEF", "N0450F350 ABC GAT IFPSTART DEF 0130 N0450F350 N0450F350PLUS", "N0450F350 ?? / DEF / N0450F350F370 / ZZ /", "N0450F350 91N181E 9060N18060W ABC361010",
 "N0450F350 DCT C/91N000E/N0450F350PLUS", "N0450F350 C/", "N0450F350 C/ABC", "N0450F350 C/ABC/", "N0450F350 C/ABC DEF", "N0450F350 C/ABC/DEF GHI", "N0450F350 ABC VFR x IFR DEF", "N0450F350 ABC VFR x IFR DEF/GHI", "N0450F350 ABC VFR x IFR DEF GHI IFR JKL/N0450F350",
 "N0450F350 DCT DCT ABC", "N0450F350 ABC DCT", "N0450F350 ABC UL613", "N0450F350 ABC UL613 DEF OAT IFR VFR GAT ABC GHI", "N0450F350 ABC AAAAAAAAAAAAAAAAAAAAAAAAAAAAAA DEF", "N0450F350 ABC VFR AAAAAAAAAAAAAAAAAAAAAAAAAAAAAA DEF",
 "N0450F350 C/ABC/N0450A0350S1000 XYZ", "N0450F350 ABC UL613/N0450F350 DEF", "N0450F350 ABC UL613 VFR DEF IFR", "N0450F350 ABC UL613 STAY1/0100 DEF UL613 UL614 DEF UL613 SID DEF UL613 STAR", "N0450F350 ABC STAY1/0100 STAY2/0200 N0450F350 VFR",
 "N0450F352 ABC/M080F350F402 C/DEF/N0450F352F353 GHI", "N0450F350 SIDAB1A/ DEF", "N0450F350 ABC N0450F350 UL613", "N0450F350 C N0450F350 C SID C", "N0450F350 ABC//ABC", "N0450F350 ABC/DCT ABC", "N0450F350 ABC/?? DEF/AAAAAAAAAAAAAAAAAAAAAAAAAAAAAA",
]
COMPONENTS = {
 "result": "match o with Ok b _ => if b then 1%Z else 0%Z | Exn ValueError _ => 2%Z | Exn RecursionError _ => 3%Z | Exn _ _ => 4%Z end",
 "errors": "map (fun e => (r_name e, r_start e, r_end e, r_base e, r_sub e, r_err e)) (e_errs (s_ers (fin o)))",
 "derived_rules": "e_rules (s_ers (fin o))",
 "records": "map (fun e => (r_name e, r_start e, r_end e)) (e_recs (s_ers (fin o)))",
 "types": "map (fun e => (r_base e, r_sub e)) (e_recs (s_ers (fin o)))",
 "rules": "map r_rules (e_recs (s_ers (fin o)))",
 "break_text": "map r_break (e_recs (s_ers (fin o)))",
 "speed_level": "map (fun e => (r_speed e, r_alt e)) (e_recs (s_ers (fin o)))",
 "si": "map (fun e => (r_speed_si e, r_alt_si e)) (e_recs (s_ers (fin o)))",
 "cruise_to": "map (fun e => (r_cto e, r_cto_si e)) (e_recs (s_ers (fin o)))",
 "stay": "map r_stay (e_recs (s_ers (fin o)))",
 "coordinates": "map (fun e => (r_lat e, r_lon e, r_llv e)) (e_recs (s_ers (fin o)))",
 "legs": "map (fun e => (r_brg e, r_dist e)) (e_recs (s_ers (fin o)))",
 "tokens": "s_toks (fin o)",
 "calls": "s_calls (fin o)",
 "xml": "ers_as_xml Py311 (s_ers (fin o))",
}
def dump_text():
    out = ["From Coq Require Import ZArith NArith List Bool String.",
     "From Coq Require Import Floats.SpecFloat.",
     "From Verif Require Import PyBase PyFloat Enums ErrorTable Syntax Tokenizer Ers Utils Parser Xml.",
     "Import ListNotations. Set Printing Depth 100000. Set Printing Width 100000.",
     "Definition fin (o : out bool) : st := match o with Ok _ s | Exn _ s => s end.",
     "Definition g0 := mkGeo (fun a b c d => (fadd a c, fadd b d)) (fun a b c d => (fsub c a, fsub d b))."]
    for i, f in enumerate(CORPUS):
        out.append('Definition o%d := Eval vm_compute in parse_field15 g0 300 ($"%s").' % (i, f))
        for c, e in COMPONENTS.items():
            out.append('Eval vm_compute in let o := o%d in %s.' % (i, e))
    return "\n".join(out) + "\n"
def dump(d):
    open(d + "/theories/Dump.v", "w").write(dump_text())
    try:
        p = subprocess.run(["coqc", "-Q", "theories", "Verif", "theories/Dump.v"], cwd=d, capture_output=True, text=True, timeout=600)
    except subprocess.TimeoutExpired:
        return None
    finally:
        for x in glob.glob(d + "/theories/Dump.*") + glob.glob(d + "/theories/.Dump*"): os.remove(x)
    if p.returncode: return None
    vals = re.findall(r"^     = (.*)$", p.stdout, re.M)
    keys = [(f, c) for f in CORPUS for c in COMPONENTS]
    assert len(vals) == len(keys), (len(vals), len(keys))
    return dict(zip(keys, vals))
KW = r"(?:Local\s+|#\[[^\]]*\]\s*)?(Lemma|Theorem|Corollary|Definition|Fixpoint|Example|Fact|Remark|Instance|Ltac|Inductive|Record)\s+(\w+)"
def enclosing(path, line):
    kind = name = None
    for i, l in enumerate(open(path), 1):
        if i > line: break
        m = re.match(r"\s*" + KW, l)
        if m: kind, name = m.groups()
    return kind, name
def drop_example(path, name):
    s = open(path).read()
    m = re.search(r"^Example\s+%s\b.*?(Qed|Defined)\." % name, s, re.M | re.S)
    assert m, name
    open(path, "w").write(s[:m.start()] + s[m.end():])
def build(d, timeout=2400, j="2"):
    """make -k; returns list of (file, kind, name) that fail."""
    dropped = []
    for _ in range(12):
        p = subprocess.run(["make", "-k", "-j" + j, "COQC=timeout 500 coqc"], cwd=d, capture_output=True, text=True, timeout=timeout)
        txt = p.stdout + p.stderr
        fails = []
        for m in re.finditer(r'File "\./(theories/\w+\.v)", line (\d+), characters[^\n]*\n(?=Error|(?!Warning))', txt):
            f, l = m.group(1), int(m.group(2))
            k = enclosing(d + "/" + f, l)
            if k[1] is not None and (f, *k) not in fails: fails.append((f, *k))
        for m in re.finditer(r"\[Makefile:\d+: (theories/\w+)\.vo\] Error 124", txt): fails.append((m.group(1) + ".v", "Timeout", "?"))
        ex = [x for x in fails if x[1] == "Example"]
        if not ex: return fails, dropped, p.returncode
        for f, _, n in ex:
            drop_example(d + "/" + f, n); dropped.append(n)
    return fails, dropped, p.returncode
def graph():
    """users of each constant, from the .glob files of the base build"""
    users, where = {}, {}
    for g in glob.glob(BASE + "/theories/*.glob"):
        mod = os.path.basename(g)[:-5]
        defs, refs = [], []
        for l in open(g):
            m = re.match(r"(prf|def|thm|ind|rec|inst|constr|proj|var|coe|not|mod|ax|scheme|sec)\s+(\d+):\d+ (\S+) (\S+)", l)
            if m and m.group(1) in ("prf", "def", "thm", "inst", "ind", "rec"): defs.append((int(m.group(2)), m.group(4)))
            m = re.match(r"R(\d+):\d+ Verif\.(\w+) \S+ (\S+) \w+", l)
            if m: refs.append((int(m.group(1)), m.group(2), m.group(3)))
        defs.sort()
        for pos, rm, rn in refs:
            cur = None
            for p, n in defs:
                if p > pos: break
                cur = n
            if cur: users.setdefault((rm, rn), set()).add((mod, cur))
    return users
def broken_claims(users, fails):
    seen, todo = set(), [(os.path.basename(f)[:-2], n) for f, k, n in fails]
    while todo:
        x = todo.pop()
        if x in seen: continue
        seen.add(x); todo.extend(users.get(x, ()))
    return sorted(n for m, n in seen if re.match(r"C\d+_", n) and m.startswith("Props"))
def main():
    if sys.argv[1] == "base":
        shutil.rmtree(BASE, ignore_errors=True); os.makedirs(BASE)
        subprocess.check_call("git -C /verif archive HEAD rocq | tar x -C %s --strip-components=1" % BASE, shell=True)
        s = open(BASE + "/_CoqProject").read().replace("theories/UnitTests.v\n", ""); open(BASE + "/_CoqProject", "w").write(s)
        subprocess.check_call("coq_makefile -f _CoqProject -o Makefile && make -j4 >/dev/null", shell=True, cwd=BASE)
        json.dump([[k[0], k[1], v] for k, v in dump(BASE).items()], open("/tmp/mut/base.json", "w"))
        return
    from mutants import MUTANTS
    base = {(a, b): v for a, b, v in json.load(open("/tmp/mut/base.json"))}
    users = graph()
    done = {json.loads(l)["id"] for l in open(LOG)} if os.path.exists(LOG) else set()
    want = sys.argv[2:]
    for m in MUTANTS:
        if (want and m["id"] not in want) or (not want and m["id"] in done): continue
        t0 = time.time()
        shutil.rmtree(WORK, ignore_errors=True); subprocess.check_call(["cp", "-a", BASE, WORK])
        path = WORK + "/theories/" + m["file"]
        s = open(path).read()
        n = s.count(m["old"])
        assert n >= 1 and (n == 1 or "nth" in m), (m["id"], n)
        i = -1
        for _ in range(m.get("nth", 1)): i = s.index(m["old"], i + 1)
        open(path, "w").write(s[:i] + m["new"] + s[i + len(m["old"]):])
        try: fails, dropped, rc = build(WORK)
        except subprocess.TimeoutExpired: fails, dropped, rc = [("?", "Timeout", "?")], [], 1
        d = dump(WORK)
        changed = None if d is None else sorted({c for k, c in d if d[(k, c)] != base[(k, c)]})
        where = None
        if d:
            for k in d:
                if d[k] != base[k]: where = k[0]; break
        rec = {"id": m["id"], "definition": m["file"][:-2] + "." + m["def"], "edit": "%s  ->  %s" % (" ".join(m["old"].split()), " ".join(m["new"].split())),
               "claim_broken": m["claim"], "killed": bool(fails) or rc != 0,
               "first_failing": ["%s: %s" % (os.path.basename(f), n) for f, k, n in fails],
               "theorems_failed": broken_claims(users, fails), "theorems_tightened": m.get("tightened", []),
               "observable_change": changed, "on_field": where, "examples_failed": dropped, "seconds": round(time.time() - t0)}
        print(json.dumps(rec), flush=True)
        with open(LOG, "a") as f: f.write(json.dumps(rec) + "\n")
if __name__ == "__main__": main()
