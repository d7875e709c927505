import sys; sys.path.insert(0,'/verif/tools')
from farey import *
fails=[];
certs=[]
for r in range(2,37):
    s,l=gen(r)
    certs.append("  | %d => [%s]"%(r,"; ".join("Seg %d %d %d %d %d"%x for x in s)))
    if l<LIM: fails.append((r,l))
tab="".join("  | %d => %d\n"%x for x in fails)
print(tab)
head=open('/verif/tools/outlen_head.txt').read()
head=head.replace("@TAB@",tab.rstrip()).replace("@CERTS@","\n".join(certs))
open('/verif/rocq/theories/Outlen.v','w').write(head)
