import json,re,glob
N=json.load(open('/verif/tools/notes.json'))
P=[json.loads(l) for l in open('/verif/properties.jsonl')]
T={}
for f in sorted(glob.glob('/verif/rocq/theories/Props/*.v')):
    for m in re.finditer(r'(?m)^Theorem (C\d\d)(\w*)',open(f).read()):
        T.setdefault(m.group(1),[]).append((f.split('/')[-1],m.group(1)+m.group(2)))
HOW=json.load(open('/verif/tools/design/how.json'))
out=[]
for p in P:
    i=p['id']; ts=T.get(i,[]); files=sorted(set(f for f,_ in ts))
    out.append('### %s — %s\n'%(i,p['title']))
    out.append('*Model*: %s. *Specification*: %s. *Proof*: %s.'%tuple(HOW[i]))
    out.append('*Theorems* (`Props/%s`): %s.'%(files[0][:-2] if len(files)==1 else ', '.join(f[:-2] for f in files),', '.join('`%s`'%t for _,t in ts)))
    n=N[i]['note']
    if n: out.append(n)
    out.append('')
body=open('/verif/tools/design/head.md').read()+'\n'.join(out)+open('/verif/tools/design/tail.md').read()
open('/verif/DESIGN.md','w').write(body)
missing=[p['id'] for p in P if p['id'] not in HOW]; print('missing',missing,len(body))
