#!/usr/bin/env python3
"""Reads /repo/UnitTests/test_F15Parser.py as text (Python's ast, nothing is
executed) and writes the (input, expected) pairs as Coq data."""
import ast, sys
src = open("/repo/UnitTests/test_F15Parser.py").read()
tree = ast.parse(src)
cases = []
skipped = []

def const(n):
    if isinstance(n, ast.Constant): return n.value
    if isinstance(n, ast.BinOp) and isinstance(n.op, ast.Add): return const(n.left) + const(n.right)
    raise ValueError(ast.dump(n))

def idx(call):
    # self.ers.get_first_element() / self.ers.get_element_at(k)
    name = call.func.attr
    if name == "get_first_element": return 0
    if name == "get_element_at": return const(call.args[0])
    raise ValueError(name)

cls = [n for n in tree.body if isinstance(n, ast.ClassDef)][0]
for fn in cls.body:
    if not (isinstance(fn, ast.FunctionDef) and fn.name.startswith("test_")): continue
    cur = None
    for s in fn.body:
        if not (isinstance(s, ast.Expr) and isinstance(s.value, ast.Call)):
            skipped.append((fn.name, s.lineno)); continue
        c = s.value
        if c.func.attr.endswith("__parse_field_15"):
            cur = dict(line=s.lineno, inp=const(c.args[0]), recs=[], nerr=None, errs=[], nrec=None)
            cases.append(cur)
        elif c.func.attr == "assertEqual":
            a, b = c.args
            try:
                if isinstance(b, ast.Call) and b.func.attr == "unit_test_only":
                    cur["recs"].append((idx(b.func.value), const(a)))
                elif isinstance(b, ast.Call) and b.func.attr == "get_number_of_errors":
                    cur["nerr"] = const(a)
                elif isinstance(b, ast.Call) and b.func.attr.endswith("__get_error_text_at"):
                    cur["errs"].append((const(b.args[0]), const(a)))
                elif isinstance(b, ast.Call) and b.func.attr == "get_number_of_elements":
                    cur["nrec"] = const(a)
                else: skipped.append((fn.name, s.lineno))
            except ValueError as e:
                skipped.append((fn.name, s.lineno, str(e)))
        else: skipped.append((fn.name, s.lineno))
def q(s):
    assert all(32 <= ord(ch) < 127 for ch in s), s
    return '"' + s.replace('"', '""') + '"'
out = ["(** * UnitTests: generated by tools/gen_unit_tests.py from UnitTests/test_F15Parser.py.",
"    Validation of the model only (tests, not proofs): every (input, expected output)",
"    pair of the project's own suite is replayed on the model by computation. *)",
"From Coq Require Import ZArith NArith List Bool String.",
"From Coq Require Import Floats.SpecFloat.",
"From Verif Require Import PyBase PyFloat Ers Utils Parser.",
"Import ListNotations.", "Open Scope string_scope.", "",
"(** Any oracle will do: the expected strings do not depend on bearings or distances. *)",
"Definition test_geo : geodesic := mkGeo (fun a b _ _ => (a, b)) (fun _ _ _ _ => (S754_zero false, S754_zero false)).",
"",
"Definition case := (string * list (nat * string) * option nat * list (nat * string))%type.",
"Definition opt_eqb (o : option pstr) (s : string) : bool :=",
"  match o with Some x => pstr_eqb x (of_str s) | None => false end.",
"Definition check (c : case) : bool :=",
"  let '(inp, recs, nerr, errs) := c in",
"  match parse_field15 test_geo 1000 (of_str inp) with",
"  | Ok b s =>",
"      let e := s_ers s in",
"      forallb (fun p => opt_eqb (option_map unit_test_only (nth_error (e_recs e) (fst p))) (snd p)) recs",
"      && match nerr with",
"         | Some k => Nat.eqb (List.length (e_errs e)) k && Bool.eqb b (Nat.eqb k 0)",
"         | None => true",
"         end",
"      && forallb (fun p => opt_eqb (option_map r_err (nth_error (e_errs e) (fst p))) (snd p)) errs",
"  | Exn _ _ => false",
"  end.", "", "Definition cases : list case := ["]
L = []
for c in cases:
    assert c["nrec"] is None, c
    nerr = "None" if c["nerr"] is None else "Some %d%%nat" % c["nerr"]
    L.append("  (* :%d *) (%s, [%s], %s, [%s])" % (c["line"], q(c["inp"]),
      "; ".join("(%d%%nat, %s)" % (i, q(t)) for i, t in c["recs"]), nerr,
      "; ".join("(%d%%nat, %s)" % (i, q(t)) for i, t in c["errs"])))
out.append(";\n".join(L) + "].")
out += ["", "Example all_unit_tests_agree : forallb check cases = true.", "Proof. vm_compute. reflexivity. Qed.", ""]
open("/verif/rocq/theories/UnitTests.v", "w").write("\n".join(out))
print(len(cases), "cases; skipped:", skipped)
