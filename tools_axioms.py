import re,glob,subprocess,collections
thms=[]
for l in open('/verif/rocq/_CoqProject'):
    m=re.match(r'theories/(Properties\w+)\.v',l)
    if m:
        for t in re.findall(r'^Theorem (C\d\d\w+)',open('/verif/rocq/theories/%s.v'%m[1]).read(),re.M): thms.append((m[1],t))
gs=sorted(set(g for g,_ in thms))
fin='From Coq Require Import String.\nFrom Verif Require '+' '.join(gs)+'.\n'+''.join(f'Check "MARK {t}"%string.\nPrint Assumptions {g}.{t}.\n' for g,t in thms)
open('/tmp/Axs.v','w').write(fin)
r=subprocess.run('cd /tmp; coqc -q -w none -Q /verif/rocq/theories Verif Axs.v',shell=True,capture_output=True,text=True)
cur=None;d=collections.defaultdict(set)
for l in r.stdout.splitlines():
    mm=re.search(r'"MARK (\w+)"',l)
    if mm: cur=mm[1]; d[cur]; continue
    mm=re.match(r'([\w.\']+)\s*(:|$)',l)
    if mm and mm[1] not in('Axioms','Closed'): d[cur].add(mm[1])
inv=collections.defaultdict(list)
for t,s in d.items(): inv[tuple(sorted(s))].append(t)
import sys
lines=[]
for s,ts in sorted(inv.items(),key=lambda x:len(x[1])):
    lines.append("   * %s: %s" % ("closed under the global context (no axiom)" if not s else ("all four" if len(s)==4 else " and ".join("`%s`"%a.split(".")[-1] for a in s)), ("the remaining %d theorems"%len(ts)) if len(s)==4 else ", ".join("`%s`"%t for t in ts)))
open("/tmp/ax.md","w").write("\n".join(lines).strip())
print(r.stderr[-500:])
