#!/usr/bin/env python3
"""Runs the mutants of a file of mutants in a scratch copy of rocq/ and appends the results
to seeded/LOG.jsonl.

usage: mutate.py MUTANTS.py [name ...]

MUTANTS.py defines MUTANTS, a list of (name, file, definition, old text, new text, edit in
words, claims). The old text must occur once in the definition. The scratch copy is
/tmp/mut; /tmp/mut0 is a compiled pristine copy.
"""
import json, os, re, shutil, subprocess, sys
V = '/verif'
SRC, M0, M = V + '/rocq', '/tmp/mut0', '/tmp/mut'
LOG = V + '/seeded/LOG.jsonl'

def sh(cmd, **kw):
    return subprocess.run(cmd, shell=True, stdout=subprocess.PIPE, stderr=subprocess.STDOUT, text=True, **kw)

def theorem_files():
    out = {}
    for f in os.listdir(M0 + '/theories'):
        if f.endswith('.v'):
            for m in re.finditer(r'^(?:Theorem|Lemma|Example|Definition|Corollary)\s+(\w+)', open(M0 + '/theories/' + f).read(), re.M):
                out.setdefault(m.group(1), f[:-2])
    return out

def enclosing(path, line):
    name = '?'
    for i, l in enumerate(open(path).read().split('\n')):
        m = re.match(r'\s*(?:#\[\w+\]\s*)?(?:Local |Global )?(?:Theorem|Lemma|Example|Definition|Corollary|Fixpoint|Fact|Record|Instance|Remark)\s+(\w+)', l)
        if m: name = m.group(1)
        if i + 1 >= line: break
    return name

def restore():
    os.makedirs(M + '/theories', exist_ok=True)
    for d in ('', '/theories'):
        for f in os.listdir(M0 + d):
            a, b = f'{M0}{d}/{f}', f'{M}{d}/{f}'
            if os.path.isfile(a) and not (os.path.exists(b) and os.path.getmtime(a) == os.path.getmtime(b)):
                shutil.copy2(a, b)

def main():
    ns = {}
    exec(open(sys.argv[1]).read(), ns)
    only = sys.argv[2:]
    claims = {c['property']: c['theorems'] for c in json.load(open(V + '/MANIFEST.json'))['claims']}
    stale = [f for f in os.listdir(SRC + '/theories') if f.endswith('.v') and not (
        os.path.exists(f'{M0}/theories/{f}') and open(f'{M0}/theories/{f}').read() == open(f'{SRC}/theories/{f}').read()
        and os.path.exists(f'{M0}/theories/{f}o'))]
    if stale: sys.exit(f'{M0} is out of date: {stale}')
    tf = theorem_files()
    missing = [t for ts in claims.values() for t in ts if t not in tf]
    if missing: sys.exit(f'theorems not found: {missing}')
    done = set()
    if os.path.exists(LOG):
        done = {json.loads(l)['name'] for l in open(LOG) if l.strip()}
    for name, file, definition, old, new, edit, props in ns['MUTANTS']:
        if only and name not in only: continue
        if not only and name in done: continue
        restore()
        path = f'{M}/theories/{file}.v'
        src = open(path).read()
        i = re.search(r'\b(?:Definition|Fixpoint|Record|Inductive)\s+' + definition + r'\b', src)
        assert i, (name, definition)
        j = src.find(old, i.start())
        nxt = re.compile(r'^\s*(?:Definition|Fixpoint|Record|Inductive)\s', re.M).search(src, i.end())
        if j < 0 or (nxt and j > nxt.start()):
            print('NOT FOUND', name); continue
        src = src[:j] + new + src[j + len(old):]
        open(path, 'w').write(src)
        thms = [t for p in props for t in claims.get(p, [])]
        files = sorted({tf[t] for t in thms if t in tf})
        targets = ' '.join(f'theories/{f}.vo' for f in files)
        r = sh(f'cd {M} && ulimit -v 7000000; timeout 1500 make -k -j3 {targets}')
        failed, own = [], False
        for m in re.finditer(r'File "\./theories/(\w+)\.v", line (\d+)[^\n]*\n(?=Error|.*\nError|[^F]*?Error)', r.stdout):
            if m.group(1) == file: own = True
            nm = m.group(1) + '.' + enclosing(f'{M}/theories/{m.group(1)}.v', int(m.group(2)))
            if nm not in failed: failed.append(nm)
        # up to date for make: rebuilt, or not depending on the edited file
        ok = {f for f in files if sh(f'cd {M} && make -q theories/{f}.vo').returncode == 0}
        built = [t for t in thms if tf[t] in ok]
        broken = [t for t in thms if t not in built]
        entry = {'name': name, 'definition': f'{file}.{definition}', 'edit': edit, 'claims': props,
                 'first_failing_proofs': failed, 'theorems_failed': broken, 'theorems_still_proved': built, 'tightened': []}
        print(('SURVIVED ' if not broken else 'ILL-FORMED ' if own else 'broken ') + name, failed[:6], '| still:', built, flush=True)
        if own: continue
        # a theorem which is not built counts as failed only if a proof was rejected: a build
        # that stopped for another reason says nothing
        if broken and (not failed or 'No rule to make' in r.stdout or r.returncode == 124 or 'Killed' in r.stdout
                       or 'out of memory' in r.stdout.lower() or 'Interrupt' in r.stdout):
            print('INCONCLUSIVE ' + name, r.stdout[-400:], flush=True); continue
        if only:
            lines = [l for l in open(LOG) if l.strip() and json.loads(l)['name'] != name] if os.path.exists(LOG) else []
            open(LOG, 'w').writelines(lines)
        open(LOG, 'a').write(json.dumps(entry) + '\n')

main()
