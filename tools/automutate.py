#!/usr/bin/env python3
"""Small random edits of the definitions of the model.

usage: automutate.py OUT.jsonl SEED PER_FILE [FILE ...]
       automutate.py OUT.jsonl MUTANTS.json [INDEX ...]     (edits listed as for mutate.py)

Every edit is made in a scratch copy.  An edit that the mutated file itself rejects (ill-typed)
is thrown away.  Otherwise the files that depend on the edited one are rebuilt until a proof
fails (concrete cases are left out); an edit after which everything is still proved survives and
has to be looked at.
"""
import json, os, random, re, shutil, subprocess, sys, concurrent.futures as cf

ROOT = os.path.dirname(os.path.dirname(os.path.abspath(__file__)))
THEORIES = os.path.join(ROOT, 'rocq', 'theories')
SCRATCH = os.environ.get('SCRATCH', '/root/work/amut')
ORDER = [l.strip()[len('theories/'):-2] for l in open(os.path.join(ROOT, 'rocq', '_CoqProject'))
         if l.strip().endswith('.v')]
ORDER = [f for f in ORDER if f != 'Conformance']
MODEL = ['PyBase', 'JsonData', 'Access', 'ArgChars', 'Small', 'Transformers', 'HeapEq', 'Cli', 'Parser', 'Shlex',
         'ParaTypes', 'MapperAgg', 'ArgsToJson', 'Registry', 'ParaGen', 'IOInfo', 'Text', 'IOGen', 'IOVars', 'Heap', 'Json',
         'Argparse', 'HeapText', 'GenHelpers', 'IOHelpers', 'Kinds']
START = re.compile(r'^\s*(?:Local |Global )?(?:Lemma|Theorem|Example|Corollary|Fact|Remark)\s+(\w+)')

def requires(name, d):
    return set(re.findall(r'Verif\.(\w+)', open(os.path.join(d, name + '.v')).read()))

def sorted_files(d):
    out, seen = [], set()
    def visit(f):
        if f in seen: return
        seen.add(f)
        for g in sorted(requires(f, d)):
            if g in ORDER: visit(g)
        out.append(f)
    for f in ORDER: visit(f)
    return out

def dependents(name, d):
    out, order = {name}, sorted_files(d)
    for f in order:
        if requires(f, d) & out:
            out.add(f)
    return [f for f in order if f in out]

def blank_comments(s):
    out, depth, i, instr = list(s), 0, 0, False
    while i < len(s):
        if not instr and s.startswith('(*', i): depth += 1; out[i] = out[i+1] = ' '; i += 2; continue
        if depth and s.startswith('*)', i): depth -= 1; out[i] = out[i+1] = ' '; i += 2; continue
        if depth:
            if s[i] != '\n': out[i] = ' '
        elif s[i] == '"': instr = not instr
        i += 1
    return ''.join(out)

SWAPS = [('true', 'false'), ('&&', '||'), ('<?', '<=?'), ('fst', 'snd'), ('STREAM_INPUT', 'OTHER_INPUT'),
         ('STREAM_OUTPUT', 'OTHER_OUTPUT'), ('CONFIG_INPUT', 'OTHER_INPUT'), ('KeyError', 'ValueError'),
         ('IndexError', 'KeyError'), ('AssertionError', 'TypeError'), ('TypeError', 'ValueError'),
         ('existsb', 'forallb'), ('firstn', 'skipn'), ('STDIN', 'STDOUT'), ('CONSEC_CHUNKS', 'ROUND_ROBIN_PLAIN'),
         ('CUSTOM_2_ARY', 'CUSTOM_N_ARY'), ('CONCATENATE', 'ADJ_LINES_MERGE')]

def siblings():
    """constructors without arguments, and the others of the same type"""
    out = {}
    for f in MODEL:
        t = blank_comments(open(os.path.join(THEORIES, f + '.v')).read())
        for m in re.finditer(r'^Inductive \w+ : Type :=(.*?)\.\s*$', t, re.M | re.S):
            cs = [c.strip() for c in m.group(1).split('|')]
            cs = [c for c in cs if re.fullmatch(r'\w+', c)]
            for c in cs: out[c] = [d for d in cs if d != c]
    return out
SIBLINGS = siblings()

def candidates(text):
    """(start, end, replacement, description)"""
    c = []
    t = blank_comments(text)
    strs = [(m.start(), m.end()) for m in re.finditer(r'"(?:[^"]|"")*"', t)]
    def in_str(p): return any(a <= p < b for a, b in strs)
    def add(m, new, what):
        if not in_str(m.start()): c.append((m.start(), m.end(), new, what))
    for a, b in SWAPS:
        for x, y in ((a, b), (b, a)):
            pat = r'(?<![\w.])' + re.escape(x) + r'(?![\w.?])' if x[0].isalpha() else re.escape(x)
            for m in re.finditer(pat, t): add(m, y, '%s for %s' % (y, x))
    for m in re.finditer(r'\bnegb ', t): add(m, '', 'negation dropped')
    for m in re.finditer(r'\brev ', t): add(m, '', 'reversal dropped')
    for m in re.finditer(r'\bif ([^\n]*?) then', t): add(m, 'if negb (%s) then' % m.group(1), 'condition negated')
    for m in re.finditer(r'(?<![\w."%])(\d+)(?![\w"])', t): add(m, str(int(m.group(1)) + 1), 'one more than %s' % m.group(1))
    for m in re.finditer(r'(?<![\w."%])([1-9]\d*)(?![\w"])', t): add(m, str(int(m.group(1)) - 1), 'one less than %s' % m.group(1))
    for m in re.finditer(r'\b(\w+) \+\+ (\w+)\b', t): add(m, '%s ++ %s' % (m.group(2), m.group(1)), 'appended in the other order')
    for m in re.finditer(r'\((\w+) (\w+) (\w+)\)', t):
        if m.group(2) != m.group(3): add(m, '(%s %s %s)' % (m.group(1), m.group(3), m.group(2)), 'arguments swapped')
    for m in re.finditer(r'; ([^;\[\]]*)\]', t): add(m, ']', 'last element dropped: ' + m.group(1).strip())
    for m in re.finditer(r'\[([^;\[\]]*); ', t): add(m, '[', 'first element dropped: ' + m.group(1).strip())
    for m in re.finditer(r'(?<=> )(\w+) :: (\w+ \w+)', t): add(m, m.group(2), 'element dropped')
    for m in re.finditer(r'=> Some [\w(][^|\n]*$', t, re.M): add(m, '=> None', 'None returned')
    for m in re.finditer(r'; ([^;\[\]\n]*)(?=;)', t): add(m, '', 'element dropped: ' + m.group(1).strip())
    for m in re.finditer(r'\| ([^|\n]*?) => ([^|\n]*)\n( *)\| ([^|\n]*?) => ([^|\n]*)(?=\n)', t):
        if m.group(2).strip() != m.group(5).strip():
            add(m, '| %s => %s\n%s| %s => %s' % (m.group(1), m.group(5).strip(), m.group(3), m.group(4), m.group(2).strip()), 'branches swapped')
    for m in re.finditer(r'\b([A-Za-z]\w*)\b', t):
        for y in SIBLINGS.get(m.group(1), []): add(m, y, '%s for %s' % (y, m.group(1)))
    for a, b in strs:
        if b - a > 2: c.append((a, b, t[a:b-1] + '~"', 'another string than ' + t[a:b]))
    return c

def definition_at(text, pos):
    ms = [m for m in re.finditer(r'^(?:Definition|Fixpoint|Inductive|Record|with|Function)\s+(\w+)', text, re.M) if m.start() <= pos]
    return ms[-1].group(1) if ms else '?'

def coqc(d, f):
    try:
        p = subprocess.run(['coqc', '-Q', '.', 'Verif', f + '.v'], cwd=d, capture_output=True, text=True, timeout=400)
        return p.returncode, p.stdout + p.stderr
    except subprocess.TimeoutExpired:
        return -1, 'timeout'

def run(m, idx):
    d = os.path.join(SCRATCH, 'a%d_%04d' % (os.getpid(), idx))
    shutil.rmtree(d, ignore_errors=True)
    shutil.copytree(THEORIES, d)
    p = os.path.join(d, m['file'] + '.v')
    s = open(p).read()
    open(p, 'w').write(s[:m['start']] + m['new'] + s[m['end']:])
    try:
        cases = []
        for f in dependents(m['file'], d):
            while True:
                rc, out = coqc(d, f)
                if rc == 0: break
                if f == m['file']: return dict(m, result='ill-typed')
                if rc == -1: return dict(m, result='killed', where=f + ' (timeout)', cases=cases)
                e = re.search(r'File "\./%s\.v", line (\d+)' % f, out)
                lines = open(os.path.join(d, f + '.v')).read().split('\n')
                k = i = int(e.group(1)) - 1
                while i >= 0 and not START.match(lines[i]): i -= 1
                if i < 0: return dict(m, result='broken', where=f + ': ' + out[-200:])
                if not lines[i].lstrip().startswith('Example'):
                    return dict(m, result='killed', where=f + '.' + START.match(lines[i]).group(1), cases=cases)
                # a concrete case only: leave it out and go on
                cases.append(f + '.' + START.match(lines[i]).group(1))
                while not re.search(r'\b(Qed|Defined)\.', lines[k]): k += 1
                open(os.path.join(d, f + '.v'), 'w').write('\n'.join(lines[:i] + lines[k + 1:]))
        if cases: return dict(m, result='cases only', cases=cases)
        return dict(m, result='survived')
    finally:
        shutil.rmtree(d, ignore_errors=True)

def main():
    global THEORIES
    os.makedirs(SCRATCH, exist_ok=True)
    snap = os.path.join(SCRATCH, 'snapshot%d' % os.getpid())
    shutil.copytree(THEORIES, snap)
    THEORIES = snap
    ms = []
    if sys.argv[2].endswith('.json'):
        for i, m in enumerate(json.load(open(sys.argv[2]))):
            s = open(os.path.join(THEORIES, m['file'] + '.v')).read()
            if (len(sys.argv) > 3 and str(i) not in sys.argv[3:]) or s.count(m['old']) != 1: continue
            a = s.index(m['old'])
            ms.append(dict(m, start=a, end=a + len(m['old']), line=s[:a].count('\n') + 1, text='', number=i))
    else:
        ms = random_edits()
    with cf.ThreadPoolExecutor(int(os.environ.get('JOBS', '2'))) as ex, open(sys.argv[1], 'a') as out:
        fs = {ex.submit(run, m, i): i for i, m in enumerate(ms)}
        for fu in cf.as_completed(fs):
            out.write(json.dumps(dict(fu.result(), idx=fs[fu])) + '\n')
            out.flush()

def random_edits():
    ms = []
    rnd = random.Random(int(sys.argv[2]))
    for f in sys.argv[4:] or MODEL:
        text = open(os.path.join(THEORIES, f + '.v')).read()
        cs = candidates(text)
        rnd.shuffle(cs)
        for a, b, new, what in cs[:int(sys.argv[3])]:
            line = text[:a].count('\n') + 1
            ms.append(dict(file=f, definition=definition_at(text, a), line=line, start=a, end=b, old=text[a:b], new=new, edit=what,
                           text=text.split('\n')[line - 1].strip()))
    rnd.shuffle(ms)
    return ms

main()
