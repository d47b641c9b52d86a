#!/usr/bin/env python3
"""Seeded-bug harness: tools/seed.py edits.json [jobs]

edits.json is a list of {"file","def","old","new","claim"}.  For each edit a scratch copy
of rocq/ is made outside /verif (with the compiled files), the edit is applied, and
`make -k` rebuilds what depends on it.  The first failing sentence of each failing file
is located and the enclosing lemma/theorem is reported.  One JSON line per attempt is
appended to /verif/seeded/LOG.jsonl.
"""
import json, os, re, shutil, subprocess, sys
from concurrent.futures import ThreadPoolExecutor
SRC = os.environ.get('SEED_SRC', '/verif/rocq')  # a copy that nobody edits meanwhile
def encl(path, line):
    name = None
    for i, l in enumerate(open(path).read().split('\n'), 1):
        if i > line: break
        m = re.match(r'\s*(?:Local |Global )?(?:Theorem|Lemma|Example|Definition|Fixpoint|Corollary|Fact|Remark|Instance)\s+([\w\']+)', l)
        if m: name = m.group(1)
    return name
def run(k, e):
    d = f'/tmp/seed/{k}'
    shutil.rmtree(d, ignore_errors=True)
    shutil.copytree(SRC, d, copy_function=shutil.copy2)
    p = f'{d}/theories/{e["file"]}'
    s = open(p).read()
    if s.count(e['old']) < 1: return {**e, 'error': 'old text not found'}
    s = s.replace(e['old'], e['new'], 1)
    open(p, 'w').write(s)
    out = subprocess.run(f'cd {d} && coq_makefile -f _CoqProject -o Makefile >/dev/null 2>&1; timeout 3000 make -k -j2 2>&1', shell=True, capture_output=True, text=True).stdout
    fails = []
    for m in re.finditer(r'File "\./(theories/(\w+)\.v)", line (\d+)[^\n]*\n((?:(?!File )[^\n]*\n){0,3})', out):
        if 'Error' in m.group(4): fails.append(m.group(2) + '.' + str(encl(f'{d}/{m.group(1)}', int(m.group(3)))))
    blocked = []
    for l in open(f'{d}/_CoqProject'):
        m = re.match(r'theories/(\w+Props)\.v', l)
        if m and (not os.path.exists(f'{d}/theories/{m.group(1)}.vo') or os.path.getmtime(f'{d}/theories/{m.group(1)}.vo') < os.path.getmtime(p)):
            # stale or missing: did make leave it unbuilt?
            blocked.append(m.group(1))
    # a Props file counts as failed only if it depends on the edited file
    dep = subprocess.run(f'cd {d} && make -n -k 2>/dev/null | grep -o "theories/[A-Za-z]*Props.v"', shell=True, capture_output=True, text=True).stdout.split()
    dep = sorted({os.path.basename(x)[:-2] for x in dep})
    thms = []
    for f in dep:
        thms += re.findall(r'^Theorem (C\d\d_\w+)', open(f'{d}/theories/{f}.v').read(), re.M)
    shutil.rmtree(d, ignore_errors=True)
    return {'definition': e['file'] + ': ' + e['def'], 'edit': f'{e["old"]}  -->  {e["new"]}', 'claim_broken': e['claim'],
            'failed': fails, 'props_files_not_accepted': dep, 'tightened': e.get('tightened', []), 'verdict': 'caught' if fails else 'SURVIVED'}
if __name__ == '__main__':
    edits = json.load(open(sys.argv[1])); jobs = int(sys.argv[2]) if len(sys.argv) > 2 else 2
    with ThreadPoolExecutor(jobs) as ex:
        for r in ex.map(lambda t: run(*t), list(enumerate(edits))):
            print(json.dumps(r), flush=True)
            if 'error' not in r:
                open('/verif/seeded/LOG.jsonl', 'a').write(json.dumps(r) + '\n')
