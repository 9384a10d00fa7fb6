# regenerates the list of refuted theorems in DESIGN.md from the comments in the Props files
import re,glob,os
root=os.path.dirname(os.path.dirname(os.path.abspath(__file__)))
L=[]
for f in sorted(glob.glob(root+'/rocq/theories/*_Props.v')):
    s=open(f).read()
    for m in re.finditer(r'Theorem (\w+_refuted)',s):
        a=s.rfind('(**',0,m.start()); b=s.find('*)',a)
        L.append((m.group(1),re.sub(r'\s+',' ',s[a+3:b]).strip().rstrip('.;')))
L.sort()
p=root+'/DESIGN.md'; d=open(p).read()
a=d.index('<!-- refuted -->'); b=d.index('<!-- end -->')
d=d[:a]+'<!-- refuted -->\n'+''.join(f'* `{n}`: {c}.\n' for n,c in L)+d[b:]
open(p,'w').write(d)
