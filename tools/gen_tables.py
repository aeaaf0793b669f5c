#!/usr/bin/env python3
"""Transcribes the literal tables of /repo (read as text) into Coq source.
Writes Enums.v, SyntaxTable.v and ErrorTable.v."""
import re
R = "/repo/F15_Parser/"
OUT = "/verif/rocq/theories/"
src = open(R + "F15TokenSyntaxDescriptions.py").read()
lines = src.split("\n")

def members(cls):
    i = next(k for k, l in enumerate(lines) if l.startswith("class " + cls + "("))
    out = []; first = None
    for k in range(i + 1, len(lines)):
        l = lines[k]
        if l.startswith("class "):
            break
        m = re.match(r"    (F15_\w+) = (0|auto\(\))$", l)
        if m:
            if first is None: first = k + 1
            last = k + 1
            out.append(m.group(1))
    return out, first, last

base, b0, b1 = members("TokenBaseType")
sub, s0, s1 = members("TokenSubType")
with open(OUT + "Enums.v", "w") as f:
    w = f.write
    w("(** * Enums: generated by tools/gen_tables.py from F15_Parser/F15TokenSyntaxDescriptions.py. *)\n")
    w("From Coq Require Import ZArith NArith List String.\nFrom Verif Require Import PyBase.\nImport ListNotations.\nOpen Scope Z_scope.\n\n")
    for nm, ms, a, b, cls in (("base", base, b0, b1, "TokenBaseType"), ("sub", sub, s0, s1, "TokenSubType")):
        w(f"(** {cls}: F15TokenSyntaxDescriptions.py:{a}-{b}. *)\n")
        w(f"Inductive {nm}_type :=\n" + "\n".join("| " + m for m in ms) + ".\n\n")
        w(f"(** The IntEnum value of a member (0, then auto()): F15TokenSyntaxDescriptions.py:{a}-{b}. *)\n")
        w(f"Definition {nm}_code (x : {nm}_type) : Z :=\n  match x with\n")
        for i, m in enumerate(ms): w(f"  | {m} => {i}\n")
        w("  end.\n\n")
        w(f"(** Inverse of [{nm}_code], used only to decide equality. *)\n")
        w(f"Definition {nm}_decode (z : Z) : option {nm}_type :=\n  match z with\n")
        for i, m in enumerate(ms): w(f"  | {i} => Some {m}\n")
        w("  | _ => None\n  end.\n\n")
        w(f"(** The member's source name (what str() of the member shows after the class name under Python 3.10). *)\n")
        w(f"Definition {nm}_name (x : {nm}_type) : pstr :=\n  match x with\n")
        for i, m in enumerate(ms): w(f"  | {m} => $\"{m}\"\n")
        w("  end.\n\n")
        w(f"Lemma {nm}_decode_code x : {nm}_decode ({nm}_code x) = Some x.\nProof. destruct x; reflexivity. Qed.\n\n")
        w(f"(** [==] / [is] between members of the same enumeration. *)\n")
        w(f"Definition {nm}_eqb (x y : {nm}_type) : bool := {nm}_code x =? {nm}_code y.\n\n")
        w(f"Lemma {nm}_eqb_eq x y : {nm}_eqb x y = true <-> x = y.\nProof.\n  unfold {nm}_eqb; rewrite Z.eqb_eq; split; [|intros ->; reflexivity].\n  intros H. assert (E : Some x = Some y) by (rewrite <- !{nm}_decode_code, H; reflexivity).\n  congruence.\nQed.\n\n")
        w(f"Lemma {nm}_eqb_neq x y : {nm}_eqb x y = false <-> x <> y.\nProof. rewrite <- Bool.not_true_iff_false, {nm}_eqb_eq; reflexivity. Qed.\n\n")
        w(f"Lemma {nm}_eqb_refl x : {nm}_eqb x x = true.\nProof. apply {nm}_eqb_eq; reflexivity. Qed.\n\n")

# the configuration table
i0 = next(k for k, l in enumerate(lines) if "F15_SB_CONFIGURATION:" in l)
i1 = next(k for k in range(i0, len(lines)) if lines[k].strip() == "])")
body = "\n".join(lines[i0 + 1:i1])
ents = []
for m in re.finditer(r'\["([^"]*)", TokenBaseType\.(\w+),\s*TokenSubType\.(\w+)\]', body):
    ln = i0 + 2 + body[:m.start()].count("\n")
    ents.append((m.group(1), m.group(2), m.group(3), ln))
n = body.count('["')
assert n == len(ents), (n, len(ents))
with open(OUT + "SyntaxTable.v", "w") as f:
    w = f.write
    w("(** * SyntaxTable: F15_SB_CONFIGURATION, transcribed literally (regular expressions kept as\n    strings) by tools/gen_tables.py from F15_Parser/F15TokenSyntaxDescriptions.py:%d-%d. *)\n" % (i0 + 1, i1 + 1))
    w("From Coq Require Import ZArith NArith List String.\nFrom Verif Require Import PyBase Enums.\nImport ListNotations.\nOpen Scope string_scope.\n\n")
    w("Definition f15_configuration : list (string * base_type * sub_type) :=\n  [ ")
    w("\n  ; ".join(f'("{r}", {b}, {s}) (* :{ln} *)' for r, b, s, ln in ents))
    w("\n  ].\n\n")
    mx = re.search(r"MAX_TOKEN_LENGTH: int = (\d+)", src)
    ln = src[:mx.start()].count("\n") + 1
    w(f"(** F15TokenSyntaxDescriptions.py:{ln} *)\nDefinition max_token_length : Z := {mx.group(1)}%Z.\n")

em = open(R + "ErrorMessageDefinitions.py").read()
ents = re.findall(r'^\s+(\d+): "([^"]*)"', em, re.M)
with open(OUT + "ErrorTable.v", "w") as f:
    w = f.write
    w("(** * ErrorTable: ErrorMessages.error_messages, transcribed literally by tools/gen_tables.py\n    from F15_Parser/ErrorMessageDefinitions.py:4-61. *)\n")
    w("From Coq Require Import ZArith NArith List String.\nFrom Verif Require Import PyBase.\nImport ListNotations.\nOpen Scope Z_scope.\n\n")
    w("Definition error_messages : list (Z * string) :=\n  [ ")
    w("\n  ; ".join(f'({k}, "{v}"%string)' for k, v in ents))
    w("\n  ].\n\n")
    w("(** [error_messages[n]]: a missing key is KeyError (here [None]). *)\n")
    w("Fixpoint lookup_msg (n : Z) (l : list (Z * string)) : option pstr :=\n  match l with\n  | [] => None\n  | (k, m) :: r => if Z.eqb k n then Some (of_str m) else lookup_msg n r\n  end.\n")
    w("Definition error_message (n : Z) : option pstr := lookup_msg n error_messages.\n")
