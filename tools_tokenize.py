#!/usr/bin/env python3
"""Turn the unit_system! invocations of /repo into token trees for rocq/theories/Sources.v."""
import re, sys
REPO='/repo/'
SRC=[('si_source','src/si.rs'),('example_source','tests/example_system/mod.rs'),
     ('unit_aliases_source','tests/unit_aliases/mod.rs'),('rational_source','tests/rational_dimensions/mod.rs')]
CF='crates/diman_unit_system/tests/compile_fail/'
for n in ['resolver_dimension_in_constant_expression_not_allowed','resolver_dimension_in_unit_expression_not_allowed',
  'resolver_duplicate_base_unit','resolver_duplicate_definition','resolver_duplicate_symbol','resolver_partial_resolution',
  'resolver_prefixed_or_aliased_units_dont_generate_multiple_errors','resolver_undefined_identifier',
  'resolver_units_in_dimension_expression_not_allowed','resolver_unresolvable','dimension_annotation_violated_constant',
  'dimension_annotation_violated_unit','dimension_annotation_with_unit_not_allowed','dimension_definition_with_numeric_factor']:
    SRC.append((n,CF+n+'.rs'))
TOK=re.compile(r'\s+|//[^\n]*|(?P<float>\d[\d_]*\.\d[\d_]*(?:[eE][+-]?\d+)?|\d[\d_]*[eE][+-]?\d+)|(?P<int>\d[\d_]*)|(?P<id>[^\W\d]\w*)|(?P<open>[(\[{])|(?P<close>[)\]}])|(?P<p>[;:=*/^#,\-])')
def toks(text):
    pos=0; stack=[[]]; delims=[]
    while pos<len(text):
        m=TOK.match(text,pos); assert m,(text[pos:pos+30])
        pos=m.end()
        k=m.lastgroup
        if k is None: continue
        t=m.group()
        if k=='float':
            t=t.replace('_','').lower(); b,_,e=t.partition('e'); e=int(e or 0)
            i,_,f=b.partition('.'); stack[-1].append('F %d (%d)'%(int(i+f),e-len(f)))
        elif k=='int': stack[-1].append('N %d'%int(t.replace('_','')))
        elif k=='id':
            if all(ord(c)<128 for c in t): stack[-1].append('I "%s"'%t)
            else:
                s='""'
                for b in reversed(t.encode()): s='(String "%03d" %s)'%(b,s)
                stack[-1].append('I %s'%s)
        elif k=='p': stack[-1].append('P "%s"'%t)
        elif k=='open': stack.append([]); delims.append(t)
        else:
            c=stack.pop(); d=delims.pop(); assert d+t in('()','[]','{}')
            stack[-1].append('G %s [%s]'%({'(':'DParen','[':'DBracket','{':'DBrace'}[d],'; '.join(c)))
    assert len(stack)==1
    return stack[0]
def invocation(path):
    s=open(REPO+path).read()
    m=re.search(r'unit_system(_internal)?!\(',s); i=m.end(); d=1; j=i
    while d:
        d+={'(':1,')':-1}.get(s[j],0); j+=1
    return s[i:j-1], s[:i].count('\n')+1, s[:j].count('\n')+1
out=['''(** * The unit systems written in /repo, as tokens

    Generated by /verif/tools_tokenize.py from the [unit_system!] invocations in /repo; comments are
    dropped, [_] in literals removed. *)
From Coq Require Import String Ascii List ZArith.
From Verif Require Import Parse.
Import ListNotations.
Local Open Scope string_scope.
Local Open Scope list_scope.
Local Notation I s := (TIdent s).
Local Notation P c := (TPunct c).
Local Notation N n := (TLit (LInt n)).
Local Notation F d k := (TLit (LFloat d k)).
Local Notation G d ts := (TGroup d ts).
''']
for name,path in SRC:
    t,a,b=invocation(path)
    ts=toks(t)
    lines=[];cur=''
    for x in ts:
        cur+=(' ' if cur else '')+x+';'
        if x=='P ";"' or len(cur)>90: lines.append(cur);cur=''
    if cur: lines.append(cur)
    body='\n  '.join(lines).rstrip(';')
    out.append('(** %s:%d-%d. *)\nDefinition %s : list tok := [\n  %s].\n'%(path,a,b,name,body))

# --- the SI system as a syntax tree (Grammar.v) ---
def tree(text):
    # raw token trees
    pos=0; stack=[[]]
    while pos<len(text):
        m=TOK.match(text,pos); pos=m.end(); k=m.lastgroup
        if k is None: continue
        if k=='open': stack.append([])
        elif k=='close':
            c=stack.pop(); stack[-1].append(('g',c))
        else: stack[-1].append((k,m.group()))
    return stack[0]
def cid(t):
    if all(ord(c)<128 for c in t): return '"%s"'%t
    s='""'
    for b in reversed(t.encode()): s='(String "%03d" %s)'%(b,s)
    return s
def lit(k,t):
    t=t.replace('_','').lower()
    if k=='int': return 'SInt false %d'%int(t)
    b,_,e=t.partition('e'); e=int(e or 0); i,_,f=b.partition('.')
    return 'SDec false %d (%d)'%(int(i+f),e-len(f))
def atom(t):
    return 'AtIdent '+cid(t[1]) if t[0]=='id' else 'AtLit (%s)'%lit(*t)
def factor(ts):
    if ts[0][0]=='g': return 'SfParen (%s)'%expr(ts[0][1]), ts[1:]
    if len(ts)>2 and ts[1]==('p','^'): return 'SfPow (%s) (SxInt (%s))'%(atom(ts[0]),lit(*ts[2])), ts[3:]
    return 'SfVal (%s)'%atom(ts[0]), ts[1:]
def expr(ts):
    f,ts=factor(ts); x='SxOne (%s)'%f
    while ts:
        o='ByJuxtaposition'
        if ts[0]==('p','*'): o='ByStar'; ts=ts[1:]
        elif ts[0]==('p','/'): o='BySlash'; ts=ts[1:]
        f,ts=factor(ts); x='SxBin (%s) %s (%s)'%(x,o,f)
    return x
def slist(ts): return '{| sl_items := [%s]; sl_trailing := false |}'%'; '.join(ts)
def uattr(g):
    n=g[0][1]; inner=g[1][1] if len(g)>1 else None
    ids=lambda l:[t[1] for t in l if t[0]=='id']
    if n=='base': return 'UBase '+cid(inner[0][1])
    if n=='symbol': return 'USymbol '+cid(inner[0][1])
    if n=='alias': return 'UAlias '+slist([cid(x) for x in ids(inner)])
    if n=='prefix': return 'UPrefix '+slist([x.capitalize() for x in ids(inner)])
    if inner is None: return 'UMetric false'
    return 'UMetricSkip '+slist([x.capitalize() for x in ids(inner)[1:]])
def stmts(text):
    out=[];cur=[]
    for t in tree(text):
        if t==('p',';'): out.append(cur);cur=[]
        else: cur.append(t)
    assert not cur
    res=[]
    for ts in out:
        attrs=[]
        while ts[0]==('p','#'): attrs.append(uattr(ts[1][1])); ts=ts[2:]
        kw,name=ts[0][1],cid(ts[1][1]); ts=ts[2:]
        ann='None'
        if ts and ts[0]==('p',':'): ann='(Some %s)'%cid(ts[1][1]); ts=ts[2:]
        rhs=None
        if ts: assert ts[0]==('p','='); rhs=expr(ts[1:])
        opt='(Some (%s))'%rhs if rhs else 'None'
        if kw=='unit': res.append('SUnit [%s] %s %s %s'%('; '.join(attrs),name,ann,opt))
        elif kw=='dimension': res.append('SDimension [] %s %s'%(name,opt))
        elif kw=='constant': res.append('SConstant [] %s %s (%s)'%(name,ann,rhs))
        elif kw=='quantity_type': res.append('SQuantityType [] '+name)
        else: res.append('SDimensionType [] '+name)
    return res
t,a,b=invocation('src/si.rs')
tr="""(** * The bundled SI system (src/si.rs:%d-%d) as a syntax tree

    Generated by /verif/tools_tokenize.py; [si_printed] shows that it is the token sequence of
    Sources.v. *)
From Coq Require Import String Ascii List ZArith.
From Verif Require Import Types Parse Grammar Sources.
Import ListNotations.
Local Open Scope string_scope.
Local Open Scope list_scope.

Definition si_file : slist stmt := {| sl_trailing := true; sl_items := [
  %s] |}.

Lemma si_printed : print_file si_file = si_source.
Proof. vm_compute. reflexivity. Qed.
"""%(a,b,';\n  '.join(stmts(t)))
open('rocq/theories/SiTree.v','w').write(tr)
open('rocq/theories/Sources.v','w').write('\n'.join(out))
