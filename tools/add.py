import json,sys,re,os
# usage: add.py spec.json ; spec: {id,title,statement,quantifier,why,anchors,status,note,design,findings:[...],files:[...]}
s=json.load(open(sys.argv[1]))
R=os.path.join(os.path.dirname(__file__),"..")
g=os.path.join(R,"tools/gen_props.py"); t=open(g).read()
if 'p("%s"'%s["id"] not in t:
    e="p(%s,%s,\n %s,\n %s,\n %s,\n %s)\n"%tuple(json.dumps(s[k],ensure_ascii=False) for k in ("id","title","statement","quantifier","why","anchors"))
    t=t.replace("out=os.path.join(",e+"out=os.path.join(",1); open(g,"w").write(t)
n=os.path.join(R,"tools/notes.json"); d=json.load(open(n))
d[s["id"]]={"note":s["note"]}
if s.get("status"): d[s["id"]]["status"]=s["status"]
json.dump(d,open(n,"w"),indent=1,ensure_ascii=False)
D=os.path.join(R,"DESIGN.md"); t=open(D).read()
if "| %s |"%s["id"] not in t:
    prev=[l for l in t.split("\n") if re.match(r"\| C\d\d \|",l)][-1]
    t=t.replace(prev,prev+"\n| %s | %s"%(s["id"],s["design"]),1)
for f in s.get("findings",[]):
    if f not in t: t=t.rstrip("\n")+"\n"+f+"\n"
open(D,"w").write(t)
c=os.path.join(R,"rocq/_CoqProject"); t=open(c).read()
for f in s["files"]:
    l="theories/%s.v"%f
    if l not in t.split("\n"): t=t.rstrip("\n")+"\n"+l+"\n"
open(c,"w").write(t)
os.system("cd %s && python3 tools/gen_props.py && python3 tools/gen_manifest.py"%R)
