#!/usr/bin/env python3
"""Rewrite the generated part of DESIGN.md: one line per refuted statement, taken from the comment above the theorem."""
import re,glob,os
root=os.path.dirname(os.path.dirname(os.path.abspath(__file__)))
out=[]
for f in sorted(glob.glob(root+'/rocq/theories/*Props.v')):
    s=open(f).read()
    for m in re.finditer(r'^Theorem (C\d+\w*_refuted)\b',s,re.M):
        before=s[:m.start()]
        c=before.rfind('(**'); e=before.rfind('*)')
        txt=before[c+3:e].strip() if c>=0 and e>c else ''
        txt=re.sub(r'\s+',' ',txt)
        txt=re.sub(r'^Finding:\s*','',txt)
        out.append((m.group(1),os.path.basename(f),txt))
out.sort()
p=root+'/DESIGN.md'; d=open(p).read()
A='<!-- findings -->'; B='<!-- /findings -->'
body='\n'.join(f'* `{n}` ({f}): {t}' for n,f,t in out)
i,j=d.index(A)+len(A),d.index(B)
open(p,'w').write(d[:i]+'\n'+body+'\n'+d[j:])
print(len(out),'refuted theorems')
