#!/usr/bin/env python3
"""Edit one definition of the model in a scratch copy, rebuild what depends on it,
and report which theorems no longer prove.

usage: mutate.py SCRATCH file.json...   (each: {"file","old","new","definition","edit","claim"})

A lemma whose proof fails is admitted in the scratch copy, so that the files after it
are still checked; the theorems resting on it show up in Print Assumptions."""
import json, re, subprocess, sys, os, shutil, time

SRC = os.environ.get('MUTATE_SRC', '/verif/rocq')  # compiled, to restore from
HEAD = re.compile(r'^\s*(?:Local |Global |#\[[^\]]*\]\s*)?(Lemma|Theorem|Example|Corollary|Fact|Remark|Definition|Fixpoint|Instance)\s+([\w\']+)')

def deps(root):
    out = subprocess.run('coqdep -Q theories Verif theories/*.v', shell=True, cwd=root, capture_output=True, text=True).stdout
    d = {}
    for line in out.splitlines():
        if ':' not in line: continue
        l, r = line.split(':', 1)
        f = [x for x in l.split() if x.endswith('.vo')]
        if not f: continue
        d[f[0][:-1]] = [x[:-1] for x in r.split() if x.endswith('.vo') and x.startswith('theories/')]
    return d

def order(d, start):
    todo, seen = [], set()
    def up(f):
        return f == start or any(up_m(g) for g in d.get(f, []))
    memo = {}
    def up_m(f):
        if f not in memo: memo[f] = up(f)
        return memo[f]
    def visit(f):
        if f in seen: return
        seen.add(f)
        for g in d.get(f, []): visit(g)
        if up_m(f): todo.append(f)
    for f in d: visit(f)
    return todo

def enclosing(lines, n):
    """(first, last, name) of the block with a proof around line n (0-based)."""
    i = n
    while i >= 0:
        m = HEAD.match(lines[i])
        if m: break
        i -= 1
    if i < 0: return None
    j = i
    while j < len(lines) and not re.search(r'\b(Qed|Defined|Admitted|Abort)\.', lines[j]): j += 1
    p = i
    while p < len(lines) and p <= j and not re.match(r'^\s*Proof', lines[p]) and not re.search(r'\sProof\.', lines[p]): p += 1
    if p > j or j >= len(lines): return None
    return i, p, j, m.group(2)

def run(root, f, timeout=600):
    try:
        r = subprocess.run(['coqc', '-set', 'Default Timeout=20', '-time', '-Q', 'theories', 'Verif', f], cwd=root, capture_output=True, text=True, timeout=timeout)
        return r.returncode, r.stdout, r.stderr
    except subprocess.TimeoutExpired as e:
        return 'timeout', (e.stdout or b'').decode(errors='replace'), ''

def mutate(root, mut):
    d = deps(root)
    f = 'theories/' + mut['file']
    text = open(f'{root}/{f}').read()
    if text.count(mut['old']) != 1:
        return {'error': 'old text occurs %d times' % text.count(mut['old'])}
    backup = {}
    def save(g):
        if g not in backup: backup[g] = open(f'{root}/{g}').read()
    save(f)
    open(f'{root}/{f}', 'w').write(text.replace(mut['old'], mut['new']))
    failed, tainted, notes = [], {}, []
    todo = [g for g in order(d, f) if g == f or not mut.get('only') or re.match(mut['only'], g[9:])]
    try:
        for g in todo:
            save(g)
            while True:
                rc, out, err = run(root, g)
                if rc == 0:
                    break
                src = open(f'{root}/{g}').read()
                lines = src.split('\n')
                if rc == 'timeout':
                    chars = re.findall(r'^Chars (\d+) - (\d+)', out, re.M)
                    pos = int(chars[-1][1]) if chars else 0
                    n = src.encode()[:pos].decode(errors='replace').count('\n')
                    while n < len(lines) and not lines[n].strip(): n += 1
                else:
                    m = re.findall(r'line (\d+), characters', err)
                    if not m: notes.append(err[-300:]); return {'failed': failed, 'notes': notes}
                    # the last one belongs to the error; warnings come before
                    n = int(m[-1]) - 1
                b = enclosing(lines, n)
                if b is None or n > b[2]:
                    notes.append(f'{g}:{n+1}: ' + err.strip().split('\n')[-1][:200] + ' | ' + lines[n][:100])
                    return {'failed': failed, 'stopped': True, 'notes': notes}
                i, p, j, name = b
                failed.append(f'{g[9:]}:{name}')
                # admit it
                if re.match(r'^\s*Proof', lines[p]):
                    lines[p:j+1] = ['Proof. Admitted.']
                else:
                    k = re.search(r'\sProof\.', lines[p]).start()
                    lines[p:j+1] = [lines[p][:k] + ' Proof. Admitted.']
                open(f'{root}/{g}', 'w').write('\n'.join(lines))
            # Print Assumptions
            names = re.findall(r'^Print Assumptions ([\w\'.]+)\.', open(f'{root}/{g}').read(), re.M)
            blocks, cur = [], []
            for l in out.split('\n'):
                if l.startswith('Chars '):
                    if '[Print~Assumptions' in l: blocks.append('\n'.join(cur))
                    cur = []
                else: cur.append(l)
            for nm, bl in zip(names, blocks):
                if 'Axioms:' in bl: tainted[nm] = True
        return {'failed': failed, 'theorems_failed': sorted(tainted), 'rebuilt': len(todo), 'notes': notes}
    finally:
        for g, t in backup.items():
            open(f'{root}/{g}', 'w').write(t)
        for g in todo:
            for ext in ('vo', 'vok', 'vos', 'glob'):
                b = g[:-1] + ext
                if os.path.exists(f'{SRC}/{b}'): shutil.copy2(f'{SRC}/{b}', f'{root}/{b}')

if __name__ == '__main__':
    root = sys.argv[1]
    for fn in sys.argv[2:]:
        muts = json.load(open(fn))
        for mut in muts if isinstance(muts, list) else [muts]:
            t = time.time()
            r = mutate(root, mut)
            r['seconds'] = round(time.time() - t)
            print(json.dumps({**{k: v for k, v in mut.items() if k not in ('old', 'new')}, 'old': mut['old'][:80], **r}, ensure_ascii=False), flush=True)
