#!/usr/bin/env python3
"""Test the theorems against wrong programs.

Usage: mutate.py [--near] MUTATIONS.json

With --near only the files with the theorems of the expected properties are built at first; the
others are built only if none of these theorems fails.

MUTATIONS.json is a list of {"file", "def", "old", "new", "claim", "expect"} objects.  Each edit is
applied to a scratch copy of the last commit (/tmp/mut, or the directory MUT_DIR).  A proof that no longer goes through is
replaced by Admitted there and the build is resumed, so that at the end Print Assumptions tells
exactly which property theorems no longer hold.  One line per mutation is appended to
/verif/seeded/LOG.jsonl.
"""
import json, os, re, shutil, subprocess, sys

SRC = '/verif/rocq'
BASE = os.environ.get('MUT_DIR', '/tmp/mut') + '_base'
DST = os.environ.get('MUT_DIR', '/tmp/mut')
LOG = '/verif/seeded/LOG.jsonl'
START = re.compile(r'^\s*(?:Local\s+|Global\s+|#\[[^\]]*\]\s*)?(Lemma|Theorem|Example|Corollary|Fact|Remark|Proposition|Instance|Fixpoint|Definition|Program)\s+(\w+)', re.M)

def sh(cmd, cwd, timeout=3000):
    try:
        r = subprocess.run(cmd, cwd=cwd, shell=True, capture_output=True, text=True, timeout=timeout, errors='replace')
        return r.returncode, r.stdout + r.stderr
    except subprocess.TimeoutExpired as e:
        return 124, 'TIMEOUT'

def base():
    os.makedirs(BASE + '/theories', exist_ok=True)
    head = lambda f: subprocess.run(['git', '-C', SRC, 'show', f'HEAD:rocq/{f}'], capture_output=True, text=True, check=True).stdout
    names = [l.strip() for l in head('_CoqProject').split('\n') if l.strip().endswith('.v')]
    for f in names + ['_CoqProject']:
        new = head(f)
        if not os.path.exists(f'{BASE}/{f}') or open(f'{BASE}/{f}').read() != new:
            open(f'{BASE}/{f}', 'w').write(new)
    rc, out = sh('coq_makefile -f _CoqProject -o Makefile && make -j4', BASE)
    if rc: sys.exit('base does not build\n' + out[-3000:])

def admit(path, line):
    """Replace the proof enclosing the given line by Admitted; return the lemma's name."""
    s = open(path).read()
    lines = s.split('\n')
    pos = sum(len(l) + 1 for l in lines[:line - 1]) + len(lines[line - 1])
    ms = [m for m in START.finditer(s) if m.start() <= pos]
    if not ms: return None
    m = ms[-1]
    end = re.compile(r'\b(Qed|Defined)\.').search(s, m.end())
    nxt = START.search(s, m.end())
    if m.group(1) in ('Fixpoint', 'Definition') and (not end or (nxt and nxt.start() < end.start())):
        return None
    if not end: return None
    pr = re.compile(r'\bProof\b[^.]*\.').search(s, m.end())
    if not pr or pr.start() > end.start(): return None
    s = s[:pr.start()] + 'Proof. Admitted.' + '\n' * s[pr.start():end.end()].count('\n') + s[end.end():]
    open(path, 'w').write(s)
    return m.group(2)

def theorems():
    out = []
    for f in sorted(l.strip()[9:] for l in open(BASE + '/_CoqProject') if l.strip().endswith('.v')):
        if f.startswith('P_'):
            for t in re.findall(r'^Theorem\s+(C\d\d+_\w+)', open(f'{BASE}/theories/{f}').read(), re.M):
                out.append((f[:-2], t))
    return out

def run(mut, near=()):
    """[near]: the modules to build, or all"""
    sh(f'rm -rf {DST}; cp -a {BASE} {DST}', '/')
    p = f'{DST}/theories/{mut["file"]}'
    s = open(p).read()
    if s.count(mut['old']) != 1:
        return {'error': f'pattern occurs {s.count(mut["old"])} times'}
    open(p, 'w').write(s.replace(mut['old'], mut['new']))
    failed, stuck = [], None
    for _ in range(400):
        rc, out = sh('make -k -j4 ' + ' '.join(f'theories/{m}.vo' for m in near), DST)
        if rc == 0: break
        errs = {}
        for m in re.finditer(r'File "\./(theories/\w+\.v)", line (\d+), characters [\d-]+:\n(Error|[^\n]*Error)', out):
            errs.setdefault(m.group(1), int(m.group(2)))
        if not errs:
            for m in re.finditer(r'File "\./(theories/\w+\.v)", line (\d+), characters [\d-]+:', out):
                errs.setdefault(m.group(1), int(m.group(2)))
        if not errs: stuck = out[-800:]; break
        progress = False
        for f, l in errs.items():
            n = admit(f'{DST}/{f}', l)
            if n: failed.append(n); progress = True
            else: stuck = f'{f}:{l}'
        if not progress: break
        stuck = None
    res = {'failed_lemmas': failed}
    if stuck: res['stuck'] = stuck
    # which property theorems now rest on an admitted lemma
    ths = [(m, t) for m, t in theorems() if not near or m in near]
    built = {m for m, _ in ths if os.path.exists(f'{DST}/theories/{m}.vo')}
    q = ''.join(f'Require {"Verif." + m}.\n' for m in sorted(built))
    ok = [(m, t) for m, t in ths if m in built]
    for m, t in ok:
        q += f'Goal True. idtac "@@ {t}". exact I. Qed.\nPrint Assumptions Verif.{m}.{t}.\n'
    open(f'{DST}/theories/Query.v', 'w').write(q)
    rc, out = sh('coqc -Q theories Verif theories/Query.v', DST)
    bad = []
    parts = out.split('@@ ')[1:]
    for part in parts:
        name = part.split('\n')[0].strip()
        if 'Axioms:' in part: bad.append(name)
    if rc: res['query_error'] = out[-500:]
    bad += [t for m, t in ths if m not in built]
    res['failed_theorems'] = bad
    return res

def main():
    muts = json.load(open(sys.argv[-1]))
    base()
    for mut in muts:
        exp = mut.get('expect')
        if isinstance(exp, list): exp = ','.join(exp)
        near = sorted({m for m, t in theorems() if exp and t.startswith(tuple(e.rstrip('_') + '_' if len(e.rstrip('_')) == 3 else e for e in exp.split(',')))}) if '--near' in sys.argv else []
        r = run(mut, near)
        if near and 'error' not in r and not any(t.startswith(tuple(exp.split(','))) for t in r['failed_theorems']):
            near = []
            r = run(mut)
        verdict = 'ERROR ' + r['error'] if 'error' in r else (
            'killed' if r['failed_theorems'] or r.get('stuck') else 'SURVIVED')
        hit = [t for t in r.get('failed_theorems', []) if exp and t.startswith(tuple(exp.split(',')))]
        print(f'[{verdict}{"" if not exp or hit else " but not by " + exp}] {mut["def"]}: {mut["claim"]}')
        print('    lemmas:', r.get('failed_lemmas'), 'stuck:', r.get('stuck'), r.get('query_error', ''))
        print('    theorems:', r.get('failed_theorems'))
        sys.stdout.flush()
        if 'error' in r: continue
        with open(LOG, 'a') as f:
            f.write(json.dumps({
                'definition': mut['def'], 'file': mut['file'], 'edit': f'{mut["old"]}  ==>  {mut["new"]}',
                'claim_broken': mut['claim'], 'failed_theorems': r['failed_theorems'],
                'failed_lemmas': r['failed_lemmas'], 'survived': verdict == 'SURVIVED',
                'tightened': mut.get('tightened', []), **({'built': near} if near else {})}) + '\n')

if __name__ == '__main__': main()
