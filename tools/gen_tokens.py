#!/usr/bin/env python3
"""Transcribe the parser token list (rpc2x.y) and the cmavo table (cmavotab.c)
into Coq data modules.  Usage: gen_tokens.py /repo /verif/rocq/theories"""
import re, sys
repo, out = sys.argv[1], sys.argv[2]
toks = []
for ln, line in enumerate(open(repo + "/rpc2x.y"), 1):
    m = re.match(r"%token\s+(\w+)\s*$", line)
    if m:
        toks.append((m.group(1), ln))
f = open(out + "/TokData.v", "w")
w = f.write
w("(* Generated by tools/gen_tokens.py from /repo/rpc2x.y:31-202. Do not edit. *)\n")
w("From Coq Require Import List NArith.\nImport ListNotations.\n\n")
w("(* rpc2x.y:31-202: the terminal symbols, one constructor per %token line.\n"
  "   In C these are the integer constants of rpc2x_act.tab.h; they are pairwise\n"
  "   different there, and only (dis)equality of them is used by the modelled code. *)\n")
w("Inductive tok : Set :=\n")
for t, ln in toks:
    w("| T_%s\n" % t)
w(".\n\n")
w("(* rpc2x.y:31-202: position of the terminal in the %token list (stands for its C number) *)\n")
w("Definition tok_code (t : tok) : N :=\n  match t with\n")
for i, (t, ln) in enumerate(toks):
    w("  | T_%s => %d\n" % (t, i))
w("  end%N.\n\n")
w("(* rpc2x.y:31-202: all terminals in declaration order *)\n")
w("Definition all_toks : list tok :=\n  [ " + ";\n    ".join("T_" + t for t, _ in toks) + " ].\n\n")
w("(* C comparison of two token numbers (==) *)\n")
w("Definition tok_eqb (a b : tok) : bool := N.eqb (tok_code a) (tok_code b).\n")
f.close()

cells = []
for ln, line in enumerate(open(repo + "/cmavotab.c"), 1):
    m = re.match(r'\s*\{ "((?:[^"\\]|\\.)*)"\s*,\s*(\w+)\s*,\s*(\w+)\s*,\s*(\w+)\s*,\s*"((?:[^"\\]|\\.)*)"\s*\}\s*,?\s*/\*\s*(\d+) \*/', line)
    if m:
        word = m.group(1).replace("\\'", "'")
        assert int(m.group(6)) == len(cells), (ln, line)
        cells.append((word, m.group(2), m.group(3), m.group(5).replace("\\'", "'"), ln))
assert len(cells) == 1751, len(cells)
f = open(out + "/CmavoData.v", "w")
w = f.write
w("(* Generated by tools/gen_tokens.py from /repo/cmavotab.c:%d-%d. Do not edit. *)\n" % (cells[0][4], cells[-1][4]))
w("From Coq Require Import List NArith String.\nFrom Verif Require Import TokData.\nImport ListNotations.\nOpen Scope string_scope.\n\n")
w("(* cmavotab.c:%d-%d: the used cells of cmavo_table: (index, cmavo, selma'o).\n"
  "   Cells with an empty word and selma'o UNKNOWN (0) are omitted; the table has\n"
  "   1751 cells. *)\n" % (cells[0][4], cells[-1][4]))
w("Definition cmavo_cells : list (N * string * tok) :=\n  [ ")
used = [(i, c) for i, c in enumerate(cells) if c[0] != ""]
w(";\n    ".join('(%d%%N, "%s", T_%s)' % (i, c[0], c[1]) for i, c in used))
w(" ].\n\n")
w("(* cmavotab.c: number of cells of cmavo_table *)\nDefinition cmavo_table_size : N := 1751%N.\n")
bad = [(i, c) for i, c in enumerate(cells) if (c[0] == "") != (c[1] == "UNKNOWN")]
assert not bad, bad
f.close()
print(len(toks), len(used))
