#!/usr/bin/env python3
"""Transcribe /repo/rpc2x.y into rocq/theories/GrammarData.v.

Follows uncom.l (comments removed, except "/* error */" and "/* ET X */") and
action.perl (one node per production, marker tokens left out of the children,
"/* ET X */" an elidable terminator).  Productions marked "error" have their own
actions and are left out, as are those with IMPOSSIBLE_TOKEN, which the lexer
never gives.  The outermost rule "all" has no node.
"""
import re
src = open('/repo/rpc2x.y').read()
src = src.replace('/* error */', '\1')
src = re.sub(r'/\* ET ([A-Zh]+) \*/', r'?\1', src)
src = re.sub(r'/\*.*?\*/', '', src, flags=re.S)
src = src.replace('\1', '/* error */')
lines = src.split('\n')
start = [k for k, l in enumerate(lines) if l.startswith('%%')][0]
tokens = set(re.findall(r'^%token (\w+)', src, re.M))
MARK = re.compile('START_EK|START_GIHEK|START_GUHEK|START_JEK|END_JEK|START_JOIK|END_JOIK|START_GEK|START_BAI|EK_KE|EK_BO|JEK_KE|JEK_BO|JOIK_KE|JOIK_BO|I_JEKJOIK|I_BO|GIHEK_KE|GIHEK_BO|NAhE_BO|NAhE_time|NAhE_space|NAhE_CAhA|NA_KU|NUMBER_MAI|NUMBER_MOI|NUMBER_ROI|START_TENSE|END_TENSE|EOF_MARK')
rules = {}
order = []
first = True
nt = None
for l in lines[start + 1:]:
    m = re.match(r'^[ \t]*([a-z0-9A-Z_]+)[ \t]*:(.*)$', l)
    alt = None
    if m:
        if first:
            first = False
            continue
        nt = m.group(1)
        order.append(nt)
        rules[nt] = []
        alt = m.group(2)
        assert '?' not in alt
    else:
        m = re.match(r'^[ \t]*\|(.*)$', l)
        if m and ' error ' not in l and not l.endswith(' error'):
            alt = m.group(1)
    if alt is None:
        continue
    if 'IMPOSSIBLE_TOKEN' in alt:
        continue
    rules[nt].append([s for s in alt.split() if s not in (';',)])
names = {n: n.upper() for n in order}
assert len(set(names.values())) == len(names)
out = []
out.append('''(* Generated by tools/gen_grammar.py from /repo/rpc2x.y (lines 222-2339) as it is
   after uncom.l and action.perl: for each kind of node the lists of children that
   the productions give it. *)
From Coq Require Import String List.
From Verif Require Import TokData.
Import ListNotations.
Open Scope string_scope.

(* rpc2x.y, action.perl: a child that is a node of a kind, a word of a selma'o, or
   an elidable terminator that the text left out (functions.c new_elidable) *)
Inductive sym : Type := SN (ty : string) | ST (t : tok) | SE (t : tok).

(* rpc2x.y:222-2339 *)
Definition grammar : list (string * list (list sym)) :=
[''')
ents = []
for n in order:
    alts = []
    for a in rules[n]:
        ss = []
        for s in a:
            if s.startswith('?'):
                ss.append('SE T_' + s[1:])
            elif MARK.search(s):
                assert s in tokens, s
            elif s in tokens:
                ss.append('ST T_' + s)
            else:
                assert s in names, s
                ss.append('SN "%s"' % names[s])
        if ss not in alts:
            alts.append(ss)
    ents.append('("%s",\n  [%s])' % (names[n], ';\n   '.join('[' + '; '.join(x) + ']' for x in alts)))
out.append(';\n'.join(ents))
out.append('].')
open('/verif/rocq/theories/GrammarData.v', 'w').write('\n'.join(out) + '\n')
print(len(order), 'nonterminals', sum(len(v) for v in rules.values()), 'productions')
used = set(names[s] for n in order for a in rules[n] for s in a if s in names)
print('unused', [names[n] for n in order if names[n] not in used])
