# generates ModTable.v from /repo
import os
rows=[]
for line in open('/repo/hexrd/file_table.tsv'):
    kv=line.strip().split()
    if len(kv)!=2: continue
    rows.append(kv)
def parts(p): return "["+"; ".join('"%s"'%x for x in p.split('/'))+"]"
def L(): pass
out='''(** The rows of hexrd/file_table.tsv and the Python files and directories below hexrd/ (generated). *)
From Coq Require Import String.
From Verif Require Import Prelude ModModel.
Local Open Scope string_scope.

(** hexrd/file_table.tsv, all rows in order *)
Definition file_table : list row := [
'''
out+=";\n".join("(%s, %s)"%(parts(a),parts(b)) for a,b in rows)+"].\n"
# tree: directory -> list of (component, is_package)
dirs={}
for d,ds,fs in os.walk('/repo/hexrd'):
    ds[:]=sorted(x for x in ds if x!='__pycache__')
    rel=os.path.relpath(d,'/repo')
    ent=[]
    for x in ds: ent.append((x,True))
    for f in sorted(fs):
        if f.endswith('.py') and f!='__init__.py' and f[:-3] not in ds: ent.append((f[:-3],False))
    if ent: dirs[rel]=ent
out+='''(** the tree below hexrd/: for each directory its subdirectories (packages, true) and its Python files (false); a directory without
    __init__.py is a namespace package *)
Definition tree : list (string * list (string * bool)) := [
'''
out+=";\n".join('("%s", [%s])'%(d,"; ".join('("%s", %s)'%(c,str(b).lower()) for c,b in e)) for d,e in sorted(dirs.items()))+"].\n"
open('/verif/rocq/theories/ModTable.v','w').write(out)
