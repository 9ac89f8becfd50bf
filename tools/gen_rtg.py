#!/usr/bin/env python3
"""Writes rocq/theories/RtgData.v: the words of the terminals of rtg/rtg.pl."""
import re,sys
src=open('/repo/rtg/rtg.pl').read().split('\n')
lists={}; i=0
while i<len(src):
    m=re.match(r'@(\w+) = \(#',src[i])
    if m:
        a=i; ws=[]
        i+=1
        while not src[i].startswith(')'):
            ws+=re.findall(r'"([^"]*)"',re.sub(r'#.*','',src[i])); i+=1
        lists[m.group(1)]=(ws,a+1,i+1)
    i+=1
out=[]; cur=None
for n,l in enumerate(src):
    m=re.match(r'sub (\w+) ',l)
    if m: cur=m.group(1)
    m=re.search(r'emit ?\((.*), "(\w+)"\);',l)
    if not m or cur=='emit': continue
    x,s=m.groups()
    if x.startswith('"'): how,ws='Fixed',[x.strip('"')]
    elif x.startswith('&pickx'): how,ws='Short',re.findall(r'"([^"]*)"',x)
    elif x.startswith('&pick('): how,ws='Short',lists[re.search(r'@(\w+)',x).group(1)][0]
    else: how,ws='Whole',lists[re.search(r'\$(\w+)\[',x).group(1)][0]
    assert s==cur,(s,cur)
    out.append((n+1,s,how,ws))
if __name__=='__main__':
    p=['(* Generated by tools/gen_rtg.py from /repo/rtg/rtg.pl:118-626. Do not edit. *)','From Coq Require Import String List.','From Verif Require Import TokData.','Import ListNotations.','Open Scope string_scope.','',
    '(* how a terminal chooses its word: a single word, by pick or pickx (rtg/rtg.pl:42-53), or','   as in BAI and CAhA (rtg/rtg.pl:190-193, 238-241) *)','Inductive way : Set := Fixed | Short | Whole.','',
    "(* rtg/rtg.pl:118-626: the subroutines that call emit: name, which is also the selma'o given",'   to emit, way and words *)','Definition terminals : list (tok * way * list string) :=']
    p.append('  [ '+';\n    '.join('(T_%s, %s, [%s])'%(s,h,'; '.join('"%s"'%w for w in ws)) for _,s,h,ws in out)+' ].')
    open('/verif/rocq/theories/RtgData.v','w').write('\n'.join(p)+'\n')
