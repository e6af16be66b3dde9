#!/usr/bin/env python3
"""Rebuild the theories with wrong programs.

usage: mutate.py MUTANTS.json OUT.jsonl [first [last]]

MUTANTS.json is a list of objects with fields file, definition, old, new, edit, claim.
Every edit is made in a scratch copy of rocq/theories.  A lemma whose proof no longer goes
through is admitted there and the build goes on, so that Print Assumptions shows which
theorems depend on it: these are the theorems that fail.
"""
import json, os, re, shutil, subprocess, sys, concurrent.futures as cf

ROOT = os.path.dirname(os.path.dirname(os.path.abspath(__file__)))
THEORIES = os.path.join(ROOT, 'rocq', 'theories')
SCRATCH = os.environ.get('SCRATCH', '/root/work/mut')
ORDER = [l.strip()[len('theories/'):-2] for l in open(os.path.join(ROOT, 'rocq', '_CoqProject'))
         if l.strip().endswith('.v')]
START = re.compile(r'^\s*(?:Local |Global )?(?:Lemma|Theorem|Example|Corollary|Fact|Remark)\s+(\w+)')

def requires(name, d):
    s = open(os.path.join(d, name + '.v')).read()
    return set(re.findall(r'Verif\.(\w+)', s))

def sorted_files(d):
    out, seen = [], set()
    def visit(f):
        if f in seen: return
        seen.add(f)
        for g in sorted(requires(f, d)):
            if g in ORDER: visit(g)
        out.append(f)
    for f in ORDER: visit(f)
    return out

def dependents(name, d):
    out, order = {name}, sorted_files(d)
    for f in order:
        if requires(f, d) & out:
            out.add(f)
    return [f for f in order if f in out]

def coqc(d, f, extra=()):
    try:
        p = subprocess.run(['coqc', *extra, '-Q', '.', 'Verif', f + '.v'], cwd=d, capture_output=True, text=True, timeout=240)
        return p.returncode, p.stdout, p.stderr
    except subprocess.TimeoutExpired as e:
        return -1, (e.stdout or b'').decode(errors='replace'), 'timeout'

def enclosing(lines, n):
    """name, first and last line (0-based) of the statement around line n"""
    i = n
    while i >= 0 and not START.match(lines[i]):
        i -= 1
    if i < 0:
        return None
    j = i
    while j < len(lines) and not re.search(r'\b(Qed|Defined|Admitted)\.', lines[j]):
        j += 1
    if n > j:
        return None
    return START.match(lines[i]).group(1), i, j

def run(m, idx):
    d = os.path.join(SCRATCH, 'm%03d' % idx)
    shutil.rmtree(d, ignore_errors=True)
    shutil.copytree(THEORIES, d)
    p = os.path.join(d, m['file'] + '.v')
    s = open(p).read()
    n = s.count(m['old'])
    if n != m.get('count', 1):
        return dict(m, error='edit matches %d times' % n)
    s = s.replace(m['old'], m['new'])
    open(p, 'w').write(s)
    broken, failed = [], []
    for f in dependents(m['file'], d):
        v = os.path.join(d, f + '.v')
        for _ in range(80):
            rc, out, err = coqc(d, f)
            if rc == 0:
                break
            lines = open(v).read().split('\n')
            if rc == -1:
                _, tout, _ = coqc(d, f, ('-time',))
                pos = [int(x) for x in re.findall(r'^Chars (\d+) - \d+', tout, re.M)]
                data = open(v, 'rb').read()
                line = data[:max(pos or [0]) + 2].count(b'\n')
            else:
                e = re.search(r'File "\./%s\.v", line (\d+)' % f, err + out)
                if not e:
                    return dict(m, error=err[-400:])
                line = int(e.group(1)) - 1
            enc = enclosing(lines, line)
            if not enc:
                return dict(m, error='%s line %d: %s' % (f, line + 1, err[-400:]))
            name, i, j = enc
            broken.append(f + '.' + name)
            text = '\n'.join(lines[i:j + 1])
            k = text.find('Proof')
            stmt = text[:k] if k >= 0 else text[:text.index('.') + 1]
            lines[i:j + 1] = [stmt + ' Proof. Admitted.'] + [''] * (j - i)
            open(v, 'w').write('\n'.join(lines))
        else:
            return dict(m, error='too many broken lemmas in ' + f)
        if f.startswith('P_'):
            names = re.findall(r'^Print Assumptions (\w+)\.', open(v).read(), re.M)
            blocks = re.split(r'(?=^Closed under|^Axioms:)', out, flags=re.M)
            blocks = [b for b in blocks if b.startswith(('Closed', 'Axioms'))]
            if len(names) != len(blocks):
                return dict(m, error='Print Assumptions mismatch in %s: %d %d' % (f, len(names), len(blocks)))
            failed += [n for n, b in zip(names, blocks) if b.startswith('Axioms')]
    shutil.rmtree(d, ignore_errors=True)
    return dict(m, broken=broken, failed=failed)

def main():
    # work on a snapshot, so that the theories can be edited meanwhile
    global THEORIES
    snap = os.path.join(SCRATCH, 'snapshot%d' % os.getpid())
    shutil.copytree(THEORIES, snap)
    THEORIES = snap
    ms = json.load(open(sys.argv[1]))
    a = int(sys.argv[3]) if len(sys.argv) > 3 else 0
    b = int(sys.argv[4]) if len(sys.argv) > 4 else len(ms)
    with cf.ThreadPoolExecutor(int(os.environ.get("JOBS", "4"))) as ex, open(sys.argv[2], 'a') as out:
        fs = {ex.submit(run, ms[i], i): i for i in range(a, b)}
        for fu in cf.as_completed(fs):
            r = fu.result()
            out.write(json.dumps(dict(r, idx=fs[fu])) + '\n')
            out.flush()
main()
