#!/usr/bin/env python3
"""Transcribe the tables of jvocuhadju.c and lujvofns.c, and the table that
canonluj.pl makes of reduced_gismu, into a Coq data module.
Usage: gen_lujvo.py /repo /verif/rocq/theories"""
import re, sys
repo, out = sys.argv[1], sys.argv[2]
src = open(repo + "/jvocuhadju.c").read()
def arr(name):
    m = re.search(name + r"\[\]\s*=\s*\{(.*?)\};", src, re.S)
    return m.group(1)
gismu = re.findall(r'"([^"]*)"', arr(r"gismu"))
rafsi = re.findall(r'"([^"]*)"', arr(r"rafsi"))
start = [int(x) for x in re.findall(r"\d+", arr("start_indices"))]
n = [int(x) for x in re.findall(r"\d+", arr("n_rafsi"))]
assert len(gismu) == len(start) == len(n)
attr = re.search(r"attr_table\[256\]\s*=\s*\{(.*?)\};", open(repo + "/lujvofns.c").read(), re.S).group(1)
attr = re.sub(r"/\*.*?\*/", "", attr, flags=re.S)
attr = [int(x, 8) for x in re.findall(r"[0-7]{4}", attr)]
assert len(attr) == 256
# canonluj.pl
r2g = {}
for line in open(repo + "/reduced_gismu", encoding="latin-1"):
    line = line.rstrip("\n")
    g = line[0:5].rstrip(" ")
    r = re.sub(" +", " ", line[6:18])
    r = re.sub("^ ", "", r); r = re.sub(" $", "", r)
    for x in r.split(" "):
        if x: r2g[x] = g
    if len(g) == 5: r2g[g[0:4]] = g
f = open(out + "/LujvoData.v", "w")
w = f.write
w("(* Generated by tools/gen_lujvo.py. Do not edit. *)\n")
w("From Coq Require Import List NArith String.\nImport ListNotations.\nOpen Scope string_scope.\n\n")
def lst(xs, per):
    rows = [xs[i:i+per] for i in range(0, len(xs), per)]
    return "[ " + ";\n    ".join("; ".join(r) for r in rows) + " ]"
q = lambda s: '"%s"' % s
w("(* jvocuhadju.c:104-300 gismu *)\nDefinition gismu : list string :=\n  %s.\n\n" % lst([q(x) for x in gismu], 8))
w("(* jvocuhadju.c:302-470 rafsi *)\nDefinition rafsi : list string :=\n  %s.\n\n" % lst([q(x) for x in rafsi], 10))
w("(* jvocuhadju.c:475-586 start_indices *)\nDefinition start_indices : list N :=\n  %s%%N.\n\n" % lst([str(x) for x in start], 16))
w("(* jvocuhadju.c:590-652 n_rafsi *)\nDefinition n_rafsi : list N :=\n  %s%%N.\n\n" % lst([str(x) for x in n], 24))
w("(* lujvofns.c:23-59 attr_table *)\nDefinition attr_table : list N :=\n  %s%%N.\n\n" % lst([str(x) for x in attr], 16))
w("(* canonluj.c:24-26 r2g: canonluj.inc as made by canonluj.pl from reduced_gismu\n   (Makefile.in:197-198): rafsi and the word it stands for, sorted *)\nDefinition r2g : list (string * string) :=\n  %s.\n" % lst(['(%s, %s)' % (q(k), q(r2g[k])) for k in sorted(r2g)], 4))
f.close()
print(len(gismu), len(rafsi), len(r2g), max(a+b for a,b in zip(start,n)), sorted(set(map(len,gismu))), sorted(set(map(len,rafsi))))
