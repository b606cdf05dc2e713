#!/usr/bin/env python3
"""Reads gherkin-languages.json as text and writes rocq/theories/DialectData.v.

Run by hand (the generated module is committed):
    python3 tools/gen_dialects.py > rocq/theories/DialectData.v
"""
import json

SRC = "/repo/packages/gurke/src/gurke/gherkin-languages.json"
raw = open(SRC, encoding="utf-8").read()
data = json.loads(raw)
lines = raw.split("\n")


def at(name):
    for i, l in enumerate(lines):
        if l.strip() == '"%s": {' % name:
            return i + 1
    raise KeyError(name)


def s(x):
    return "[" + "; ".join(str(ord(c)) for c in x) + "]"


def ls(xs):
    return "[" + ";\n      ".join(s(x) for x in xs) + "]"


FIELDS = ["feature", "rule", "scenario", "scenarioOutline", "background", "examples", "given", "when", "then", "and", "but"]
print("(** Generated by tools/gen_dialects.py from")
print("    /repo/packages/gurke/src/gurke/gherkin-languages.json; do not edit.")
print("    Every string is the list of its code points.  The entries \"name\" and")
print("    \"native\" of the JSON file are not used by the code and are left out. *)")
print("From Verif Require Import PyStr Types.")
print("Local Open Scope N_scope.\n")
names = []
for n, d in data.items():
    ident = "dialect_" + n.replace("-", "_")
    names.append((n, ident))
    print("(* gherkin-languages.json:%d, entry \"%s\" (%s) *)" % (at(n), n, d["name"].replace("*)", "")))
    print("Definition %s : dialect := {|" % ident)
    print(";\n".join("  d_%s := %s" % (f, ls(d[f])) for f in FIELDS))
    print("|}.\n")
print("(** dialect.py:10-11 [DIALECTS = json.load(file)]: insertion order of the file. *)")
print("Definition DIALECTS : list (str * dialect) :=")
print("  [" + ";\n   ".join("(%s, %s)" % (s(n), i) for n, i in names) + "].")
