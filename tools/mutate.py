#!/usr/bin/env python3
"""Seeded-bug runner.  Applies each edit of a batch file (JSON list of {file, def, old, new, claim, expect}) to a
scratch copy of rocq/, rebuilds, and prints which lemma stopped proving.  Usage: mutate.py batch.json out.jsonl"""
import json, os, re, shutil, subprocess, sys
SRC = os.path.join(os.path.dirname(os.path.dirname(os.path.abspath(__file__))), 'rocq')
DST = os.environ.get('MUT_DIR', '/tmp/work/mut')
batch = json.load(open(sys.argv[1])); out = open(sys.argv[2], 'a')
subprocess.run(['rm', '-rf', DST]); subprocess.run(['cp', '-a', SRC, DST])
subprocess.run('coq_makefile -f _CoqProject -o Makefile && make -j3', shell=True, cwd=DST, stdout=subprocess.DEVNULL, stderr=subprocess.DEVNULL)
def where(path, line):
    ls = open(os.path.join(DST, path)).read().split('\n')[:line]
    for l in reversed(ls):
        m = re.match(r'\s*(?:Theorem|Lemma|Example|Corollary|Definition|Fixpoint|Instance)\s+(\w+)', l)
        if m: return m.group(1)
    return '?'
for mu in batch:
    p = os.path.join(DST, mu['file']); s = open(p).read()
    if s.count(mu['old']) < 1:
        print('NOT FOUND', mu['def']); continue
    k = mu.get('nth', 0); parts = s.split(mu['old'])
    t = mu['old'].join(parts[:k+1]) + mu['new'] + mu['old'].join(parts[k+1:])
    open(p, 'w').write(t)
    r = subprocess.run('timeout 2400 make -k -j3', shell=True, cwd=DST, capture_output=True, text=True)
    txt = r.stdout + r.stderr
    fails = []
    for m in re.finditer(r'File "\./(theories/[^"]+)", line (\d+)', txt):
        tail = txt[m.end():m.end()+300]
        if 'Error' in tail.split('File "')[0]:
            fails.append(m.group(1).replace('theories/', '') + ':' + where(m.group(1), int(m.group(2))))
    unbuilt = sorted(f for f in os.listdir(os.path.join(DST, 'theories/Props')) if f.endswith('.v') and
        subprocess.run(['make', '-q', 'theories/Props/' + f + 'o'], cwd=DST, stdout=subprocess.DEVNULL, stderr=subprocess.DEVNULL).returncode != 0)
    rec = dict(definition=mu['def'], file=mu['file'], edit=f"{mu['old']!r} -> {mu['new']!r}", claim_broken=mu['claim'],
               theorems_failed=sorted(set(fails)), props_not_rebuilt=unbuilt, killed=bool(fails), theorems_tightened=mu.get('tightened', []))
    out.write(json.dumps(rec) + '\n'); out.flush()
    print(('killed  ' if fails else 'SURVIVED') , mu['def'], '|', mu['claim'][:60], '|', sorted(set(fails))[:3], flush=True)
    open(p, 'w').write(s)
    subprocess.run('make -j3', shell=True, cwd=DST, stdout=subprocess.DEVNULL, stderr=subprocess.DEVNULL)
