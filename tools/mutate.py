#!/usr/bin/env python3
"""Edit a definition of the model in a scratch copy, rebuild, and report the manifest theorems that no longer prove.

usage: mutate.py mutants.json out.jsonl [jobs]
A mutant is {"file", "old", "new", "definition", "edit", "claim"}. A proof that fails is admitted in the scratch copy, so
that the rest is still checked; a theorem fails if it or anything it uses was admitted.
"""
import json, os, re, shutil, subprocess, sys
from concurrent.futures import ThreadPoolExecutor
ROCQ = os.environ.get('MUTATE_ROCQ', '/verif/rocq')
START = re.compile(r'^\s*(Lemma|Theorem|Example|Corollary|Fact)\s+([A-Za-z0-9_\']+)', re.M)
END = re.compile(r'(Qed|Defined|Admitted)\.')

def deps():
    out = subprocess.run(['coqdep', '-f', '_CoqProject'], cwd=ROCQ, capture_output=True, text=True).stdout
    g = {}
    for l in out.splitlines():
        m = re.match(r'theories/(\w+)\.vo .*?: theories/\w+\.v(.*)', l)
        if m:
            g[m[1]] = set(re.findall(r'theories/(\w+)\.vo\b', m[2]))
    return g

def topo(g):
    order, seen = [], set()
    def visit(n):
        if n in seen: return
        seen.add(n)
        for d in sorted(g.get(n, ())): visit(d)
        order.append(n)
    for n in g: visit(n)
    return order

def affected(g, f):
    bad = {f}
    order = topo(g)
    for n in order:
        if g[n] & bad: bad.add(n)
    return [n for n in order if n in bad]

def compile_file(d, f, limit):
    try:
        p = subprocess.run(['coqc', '-time', '-Q', 'theories', 'Verif', f'theories/{f}.v'], cwd=d, capture_output=True, text=True, timeout=limit, errors='replace')
        out = p.stdout + p.stderr
        ok = p.returncode == 0
    except subprocess.TimeoutExpired as e:
        out = (e.stdout or b'').decode(errors='replace') + (e.stderr or b'').decode(errors='replace')
        ok = False
    if ok: return None, ''
    pos = 0
    for m in re.finditer(r'^Chars (\d+) - (\d+)', out, re.M): pos = int(m[2])
    err = out[-600:]
    return pos, err

def admit(path, pos):
    """admit the proof around byte offset pos; returns its name or None"""
    b = open(path, 'rb').read()
    s = b.decode()
    # byte offset to character offset
    cpos = len(b[:pos].decode(errors='ignore'))
    best = None
    for m in START.finditer(s):
        e = END.search(s, m.end())
        if not e: continue
        if e.end() > cpos:
            best = (m, e); break
    if not best: return None
    m, e = best
    # only if nothing else starts in between
    body = s[m.start():e.end()]
    pm = re.search(r'\bProof\b', body)
    if not pm or e.group(1) == 'Admitted': return None
    if m.start() > cpos + 2:  # the failing sentence is not in a proof
        between = s[cpos:m.start()].strip()
        if between and not between.startswith('(*'): return None
    new = body[:pm.start()] + 'Admitted.'
    s = s[:m.start()] + new + s[e.end():]
    open(path, 'w').write(s)
    return m[2]

def run(args):
    k, mu, g, thms, props = args
    d = f'/tmp/mut/m{k}'
    shutil.rmtree(d, ignore_errors=True)
    shutil.copytree(ROCQ, d)
    p = f'{d}/theories/{mu["file"]}.v'
    s = open(p).read()
    if s.count(mu['old']) < 1: return dict(mu, error='pattern not found')
    if s.count(mu['old']) > 1 and not mu.get('all'):
        return dict(mu, error=f'pattern found {s.count(mu["old"])} times')
    open(p, 'w').write(s.replace(mu['old'], mu['new']))
    aff = affected(g, mu['file'])
    for f in aff:
        for x in ('vo', 'vos', 'vok', 'glob'):
            try: os.remove(f'{d}/theories/{f}.{x}')
            except FileNotFoundError: pass
    failed = []
    for f in aff:
        tries = 0
        while True:
            pos, err = compile_file(d, f, 240)
            if pos is None: break
            name = admit(f'{d}/theories/{f}.v', pos)
            tries += 1
            if name is None or tries > 60:
                shutil.rmtree(d, ignore_errors=True)
                return dict(mu, error=f'{f} does not compile: {err}', failed_lemmas=failed)
            failed.append(f'{f}.{name}')
    # only theorems of files that were compiled again can have failed
    here = {f: open(f'{d}/theories/{f}.v').read() for f in props if f in aff}
    chk = ''.join(f'From Verif Require Import {f}.\n' for f in here)
    for t in sorted(set(thms)):
        if not failed or not any(re.search(r'\b(Theorem|Lemma) ' + re.escape(t) + r'\b', s) for s in here.values()): continue
        chk += f'Goal True. idtac "== {t}". Abort.\nPrint Assumptions {t}.\n'
    open(f'{d}/chk.v', 'w').write(chk)
    out = subprocess.run(['coqc', '-Q', 'theories', 'Verif', 'chk.v'], cwd=d, capture_output=True, text=True).stdout
    bad = []
    for part in out.split('== ')[1:]:
        t, rest = part.split('\n', 1)
        if 'Axioms:' in rest: bad.append(t.strip())
    shutil.rmtree(d, ignore_errors=True)
    return dict(mu, failed_lemmas=failed, failed_theorems=bad)

def main():
    mus = json.load(open(sys.argv[1]))
    jobs = int(sys.argv[3]) if len(sys.argv) > 3 else 3
    g = deps()
    thms = [t for c in json.load(open('/verif/MANIFEST.json'))['claims'] for t in c['theorems']]
    props = [f for f in g if f.startswith('Props')]
    with ThreadPoolExecutor(jobs) as ex:
        for r in ex.map(run, [(f'{os.getpid()}_{i}', m, g, thms, props) for i, m in enumerate(mus)]):
            with open(sys.argv[2], 'a') as o: o.write(json.dumps(r) + '\n')
            print(r['file'], '|', r['edit'], '->', r.get('error') or r['failed_theorems'], r.get('failed_lemmas'), flush=True)
main()
