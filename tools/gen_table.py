#!/usr/bin/env python3
"""Reads parser.py as text (Python ast, nothing is executed) and writes
rocq/theories/ParserTable.v: for each match_token_at_N the list of its `if`s.

    python3 tools/gen_table.py > rocq/theories/ParserTable.v

The script stops with an assertion if a function does not have exactly the shape
  (if match_X [and lookahead_K]: actions; return n)*  + the common error tail.
"""
import ast

SRC = "/repo/packages/gurke/src/gurke/parser.py"
tree = ast.parse(open(SRC).read())
cls = [n for n in tree.body if isinstance(n, ast.ClassDef) and n.name == "Parser"][0]
funs = {f.name: f for f in cls.body if isinstance(f, ast.FunctionDef)}

# the state map of match_token
sm = funs["match_token"].body[0].value
state_map = {k.value: v.attr for k, v in zip(sm.keys, sm.values)}
assert all(v == "match_token_at_%d" % k for k, v in state_map.items())

print("(** Generated by tools/gen_table.py from")
print("    /repo/packages/gurke/src/gurke/parser.py:245-3772; do not edit.")
print("    Each [match_token_at_N] is a sequence of")
print("      [if match_X(..) (and lookahead_K(..))?: actions; return n]")
print("    followed by a common error tail that mentions only [expected_tokens] and N;")
print("    the generator asserts this shape for every function. *)")
print("From Verif Require Import PyStr Types.\n")
out = []
for n, fname in state_map.items():
    f = funs[fname]
    trs, rest = [], []
    for st in f.body:
        if isinstance(st, ast.If) and not isinstance(st.test, ast.Attribute):
            test, la = st.test, "None"
            if isinstance(test, ast.BoolOp):
                assert isinstance(test.op, ast.And) and len(test.values) == 2
                c = test.values[1]
                assert [a.id for a in c.args] == ["context", "token"]
                la = {"lookahead_0": "Some LA0", "lookahead_1": "Some LA1"}[c.func.attr]
                test = test.values[0]
            assert [a.id for a in test.args] == ["context", "token"]
            assert test.func.attr.startswith("match_")
            tok = "Tk" + test.func.attr[6:]
            acts = []
            for b in st.body[:-1]:
                c = b.value
                assert c.args[0].id == "context" and len(c.args) == 2
                if c.func.attr == "build":
                    assert c.args[1].id == "token"
                    acts.append("ABuild")
                else:
                    acts.append({"start_rule": "AStart", "end_rule": "AEnd"}[c.func.attr] + " R" + c.args[1].value)
            ret = st.body[-1]
            assert isinstance(ret, ast.Return) and not st.orelse
            trs.append((tok, la, acts, ret.value.value, st.lineno))
        else:
            rest.append(st)
    exp = [e.value for e in rest[1].value.elts]
    tail = [ast.unparse(x) for x in rest]
    assert tail == [
        "token.detach()",
        "expected_tokens = " + repr(exp),
        "error = UnexpectedEOFException(token, expected_tokens) if token.eof() else UnexpectedTokenException(token, expected_tokens)",
        "if self.stop_at_first_error:\n    raise error",
        "self.add_error(context, error)",
        "return %d" % n,
    ], tail
    print("(* parser.py:%d-%d match_token_at_%d *)" % (f.lineno, f.end_lineno, n))
    print("Definition state_%d : pstate := {|" % n)
    print("  st_trans := [")
    print(";\n".join("    mkTr %s (%s) [%s] %d (* %d *)" % (t, la, "; ".join(a), r, ln) for t, la, a, r, ln in trs))
    print("  ];")
    print("  st_expected := [%s];" % "; ".join("Tk" + e[1:] for e in exp))
    print("  st_self := %d" % n)
    print("|}.\n")
    out.append(n)
print("(* parser.py:186-243 match_token: the state map; a state outside it raises RuntimeError. *)")
print("Definition ptable (n : nat) : option pstate :=\n  match n with")
for n in out:
    print("  | %d => Some state_%d" % (n, n))
print("  | _ => None\n  end.")
print("\n(* the keys of the state map *)")
print("Definition pstates : list nat := [%s]." % "; ".join(map(str, out)))
