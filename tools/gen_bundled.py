import os
d='/repo/specs'; out='/verif/rocq/theories'
langs=sorted(f[:-4] for f in os.listdir(d) if f.endswith('.hsl'))
def ident(l): return l.replace('-','_')
groups=[]
cur=[];sz=0
for l in langs:
    b=open(f'{d}/{l}.hsl','rb').read()
    if sz+len(b)>70000 and cur: groups.append(cur);cur=[];sz=0
    cur.append((l,b));sz+=len(b)
groups.append(cur)
for i,g in enumerate(groups):
    with open(f'{out}/Bundled{i+1}.v','wb') as f:
        f.write(b"(** Bundled specs, byte for byte (specs.go:15-16): "+', '.join('specs/%s.hsl'%l for l,_ in g).encode()+b". Generated by tools/gen_bundled.py. *)\nFrom Verif Require Import GoBase BString.\n\n")
        for l,b in g:
            assert b'\0' not in b
            parts=[b''];
            for ln in b.splitlines(True):
                if len(parts[-1])+len(ln)>8000: parts.append(b'')
                parts[-1]+=ln
            assert b''.join(parts)==b
            names=[]
            for k,q in enumerate(parts):
                nm="src_%s_%d"%(ident(l),k+1); names.append(nm)
                f.write(b"Definition %s : bstr := \""%nm.encode()+q.replace(b'"',b'""')+b"\"%bstr.\n\n")
            f.write(("Definition src_%s : list bstr := [%s].\n\n"%(ident(l),'; '.join(names))).encode())
with open(f'{out}/Bundled.v','w') as f:
    f.write("(** The embedded file system specs/*.hsl (specs.go:15-16). Generated by tools/gen_bundled.py. *)\nFrom Coq Require Import String.\nFrom Verif Require Import GoBase BString.\nFrom Verif Require Export "+' '.join(f'Bundled{i+1}' for i in range(len(groups)))+".\n\n")
    f.write("Definition bundled : list (bytes * list bstr) :=\n  [ "+';\n    '.join(f'(lit "{l}", src_{ident(l)})' for l in langs)+" ].\n")
print(len(groups), [ (len(g),sum(len(b) for _,b in g)) for g in groups])
