#!/usr/bin/env python3
"""Automatic seeded bugs.  usage: automut.py OUT.jsonl WORKERS PER_DEF SEED [Model files...]
For every Definition/Fixpoint of the model files, up to PER_DEF random well-typed edits (boundary, operator, constant,
branch, exception, variable, key) are made in a scratch copy, and the files depending on it are rebuilt.  Failing lemmas are
admitted and the build continues until a property theorem is hit (or everything is rebuilt: a survivor)."""
import json, re, subprocess, sys, os, shutil, random, glob
from multiprocessing import Pool
sys.path.insert(0, os.path.dirname(os.path.abspath(__file__)))
BASE = os.environ.get('MUTBASE', '/tmp/mut/base')
KW = r'^\s*(?:Local |Global |#\[[^\]]*\] ?)*(Theorem|Lemma|Example|Corollary|Fact|Remark|Instance|Definition|Fixpoint|Record|Inductive|CoFixpoint)\s+([\w\']+)'
EXNS = ['KeyError', 'ValueError', 'TypeError', 'AssertionError', 'IndexError', 'AttributeError', 'OSError', 'ZeroDivisionError']

def deps():
    p = subprocess.run('coqdep -Q theories Verif theories/*.v', shell=True, cwd=BASE, capture_output=True, text=True).stdout
    d = {}
    for l in p.split('\n'):
        m = re.match(r'theories/(\w+)\.vo .*?: (.*)', l)
        if m: d[m.group(1)] = set(re.findall(r'theories/(\w+)\.vo\b', m.group(2))) - {m.group(1)}
    return d
DEPS = deps()
ORDER = []
def topo(f, seen=set()):
    if f in seen: return
    seen.add(f)
    for g in sorted(DEPS.get(f, ())): topo(g)
    ORDER.append(f)
for f in sorted(DEPS): topo(f)

def chain(f):
    aff = {f}
    for g in ORDER:
        if DEPS[g] & aff: aff.add(g)
    pre = re.match(r'[A-Z][a-z0-9]*', f).group(0)
    out = [g for g in ORDER if g in aff and g != f]
    # own area first, as far as dependencies allow
    need = set()
    def req(g):
        for h in DEPS[g]:
            if h in aff and h != f and h not in need: need.add(h); req(h)
        need.add(g)
    for g in out:
        if g.startswith(pre): req(g)
    return [g for g in out if g in need] + [g for g in out if g not in need]

def strip_comments(s):
    out = list(s); i = 0; depth = 0
    while i < len(s):
        if s.startswith('(*', i): depth += 1; out[i] = out[i+1] = ' '; i += 2; continue
        if s.startswith('*)', i) and depth: depth -= 1; out[i] = out[i+1] = ' '; i += 2; continue
        if depth and s[i] != '\n': out[i] = ' '
        i += 1
    return ''.join(out)

def sites(src):
    """(def name, start, end, replacement, kind)"""
    t = strip_comments(src)
    ms = list(re.finditer(KW, t, re.M)); res = []
    for n, m in enumerate(ms):
        if m.group(1) not in ('Definition', 'Fixpoint'): continue
        end = ms[n+1].start() if n + 1 < len(ms) else len(t)
        i = t.find(':=', m.end(), end)
        if i < 0: continue
        j = t.rfind('.', i, end)
        mm = re.search(r'\.\s*(\n|$)', t[i:end])
        if mm: j = i + mm.start()
        name, b = m.group(2), t[i+2:j]; off = i + 2; here = []
        def add(a, z, r, k): here.append((name, off + a, off + z, r, k))
        def op(rx, r, k):
            for x in re.finditer(rx, b): add(x.start(), x.end(), r, k)
        op(r'<\?', '<=?', 'boundary'); op(r'<=\?', '<?', 'boundary'); op(r'(?<![<>])=\?', '<?', 'comparison')
        for p, q in (('Nat.ltb', 'Nat.leb'), ('Nat.leb', 'Nat.ltb'), ('Nat.eqb', 'Nat.leb'), ('Z.ltb', 'Z.leb'), ('Z.leb', 'Z.ltb'), ('Qltb', 'Qle_bool'), ('Qle_bool', 'Qltb'), ('Qltb', '(fun a b => Qltb b a)'), ('Rlt_dec', 'Rle_dec'), ('Rle_dec', 'Rlt_dec')):
            op(r'\b' + re.escape(p) + r'\b', q, 'boundary')
        op(r'&&', '||', 'connective'); op(r'\|\|', '&&', 'connective')
        op(r'\btrue\b', 'false', 'flag'); op(r'\bfalse\b', 'true', 'flag')
        op(r'\bfst\b', 'snd', 'component'); op(r'\bsnd\b', 'fst', 'component')
        op(r'\bfirstn\b', 'skipn', 'slice'); op(r'\bskipn\b', 'firstn', 'slice')
        op(r'(?<=\s)\+(?=\s)', '-', 'operator'); op(r'(?<=\s)-(?=\s)', '+', 'operator'); op(r'(?<=\s)\*(?=\s)', '+', 'operator'); op(r'(?<=\s)/(?=\s)', '*', 'operator')
        op(r'(?<![\w.#"])0(?![\w.#"])', '1', 'constant'); op(r'(?<![\w.#"])1(?![\w.#"])', '2', 'constant'); op(r'(?<![\w.#"])1(?![\w.#"])', '0', 'constant'); op(r'(?<![\w.#"])2(?![\w.#"])', '3', 'constant')
        op(r'\bnegb\b', 'id', 'negation'); op(r'\brev\b', 'id', 'order')
        op(r'\bmin\b', 'max', 'minmax'); op(r'\bmax\b', 'min', 'minmax'); op(r'\bQmin\b', 'Qmax', 'minmax'); op(r'\bQmax\b', 'Qmin', 'minmax'); op(r'\bRmin\b', 'Rmax', 'minmax'); op(r'\bRmax\b', 'Rmin', 'minmax')
        op(r'\bsin\b', 'cos', 'function'); op(r'\bcos\b', 'sin', 'function'); op(r'\bexistsb\b', 'forallb', 'function'); op(r'\bforallb\b', 'existsb', 'function')
        op(r'\bQfloor\b', 'Qceiling', 'function'); op(r'\bmod\b', '/', 'function')
        for x in re.finditer(r'\bif (.+?) then\b', b): add(x.start(1), x.end(1), 'negb (' + x.group(1) + ')', 'branch')
        for x in re.finditer(r'\bErr (\w+Error)\b', b):
            e = random.choice([y for y in EXNS if y != x.group(1)]); add(x.start(1), x.end(1), e, 'exception')
        for x in re.finditer(r'"(\w[\w ]*)"', b): add(x.start(1), x.end(1), x.group(1) + 'x', 'key')
        head = t[m.end():i]
        for x in re.finditer(r'[({]([\w\' ]+?)\s*:\s', head + ' ' + b):
            vs = x.group(1).split()
            for v in vs:
                for w in vs:
                    if v != w:
                        for y in re.finditer(r'(?<![\w\'])' + re.escape(v) + r'(?![\w\'])', b): add(y.start(), y.end(), w, 'variable')
        res.append((name, here))
    return res

def compile_(scr, name):
    try: p = subprocess.run(['timeout', '400', 'coqc', '-Q', 'theories', 'Verif', 'theories/%s.v' % name], cwd=scr, capture_output=True, text=True)
    except Exception as e: return 1, '', str(e)
    return p.returncode, p.stdout, p.stderr

def admit(path, line):
    src = open(path).read()
    cur = None
    for m in re.finditer(KW, src, re.M):
        if src.count('\n', 0, m.start()) + (1 if src[m.start()] == '\n' else 0) <= line - 1: cur = m
    if cur is None: return None, 'no-block'
    name, kind = cur.group(2), cur.group(1)
    i = src.find('Proof', cur.start())
    nxt = re.compile(r'^(Qed|Defined)\.|\s(Qed|Defined)\.', re.M).search(src, cur.start())
    if i < 0 or not nxt or i > nxt.start(): return name, 'statement'
    if src.count('\n', 0, i) + 1 > line: return name, 'statement'
    open(path, 'w').write(src[:i] + 'Admitted.' + src[nxt.end():])
    return name, 'admitted'

def run(job):
    mid, f, name, st, en, rep, kind = job
    scr = '/tmp/mut/a%d' % os.getpid()
    shutil.rmtree(scr, ignore_errors=True); os.makedirs(scr)
    shutil.copytree(BASE + '/theories', scr + '/theories')
    p = scr + '/theories/%s.v' % f
    src = open(p).read()
    new = src[:st] + rep + src[en:]
    l0 = src.rfind('\n', 0, st) + 1; l1 = src.find('\n', en)
    open(p, 'w').write(new)
    edit = '%s  ==>  %s' % (src[l0:l1].strip()[:300], new[l0:new.find('\n', st + len(rep))].strip()[:300])
    failed, hit, notes = [], [], []
    for g in [f] + chain(f):
        rc = 1
        for _ in range(60):
            rc, out, err = compile_(scr, g)
            if rc == 0: break
            if rc == 124: notes.append('timeout in ' + g); failed.append(g + '.timeout'); break
            m = list(re.finditer(r'line (\d+), characters[^\n]*\nError', err)) or list(re.finditer(r'line (\d+), characters', err))
            if not m: notes.append(err[-200:]); break
            nm, s = admit(scr + '/theories/%s.v' % g, int(m[-1].group(1)))
            if s != 'admitted':
                if g == f: shutil.rmtree(scr, ignore_errors=True); return None
                failed.append('%s.%s' % (g, nm)); notes.append(s); break
            failed.append('%s.%s' % (g, nm))
            if g.endswith('Props') and re.match(r'C\d+_', nm): hit.append(nm); break
        if hit or rc != 0: break
        if g.endswith('Props') and failed:
            t = open(scr + '/theories/%s.v' % g).read()
            names = re.findall(r'^Print Assumptions (\w+)\.', t, re.M)
            chunks = re.split(r'(?=^Axioms:|^Closed under)', out, flags=re.M)
            chunks = [c for c in chunks if c.startswith('Axioms') or c.startswith('Closed')]
            bad = {x.split('.')[-1] for x in failed}
            for nme, c in zip(names, chunks):
                if any(re.search(r'(?<![\w\'])' + re.escape(b) + r'(?![\w\'])', c) for b in bad): hit.append(nme)
            if hit: break
    shutil.rmtree(scr, ignore_errors=True)
    return {'id': mid, 'definition': f + '.' + name, 'kind': kind, 'edit': edit, 'theorems_failed': hit, 'lemmas_failed': failed[:8], 'notes': notes, 'survived': not hit and not failed}

if __name__ == '__main__':
    outp, nw, per, seed = sys.argv[1], int(sys.argv[2]), int(sys.argv[3]), int(sys.argv[4])
    files = sys.argv[5:] or sorted(os.path.basename(x)[:-2] for x in glob.glob(BASE + '/theories/*Model.v'))
    random.seed(seed)
    done = set()
    if os.path.exists(outp): done = {json.loads(l)['id'] for l in open(outp)}
    jobs = []
    for f in files:
        src = open(BASE + '/theories/%s.v' % f).read()
        for name, here in sites(src):
            random.shuffle(here); byk = {}; pick = []
            for h in here: byk.setdefault(h[4], []).append(h)
            while len(pick) < per and byk:
                for k in list(byk):
                    pick.append(byk[k].pop())
                    if not byk[k]: del byk[k]
                    if len(pick) >= per: break
            for n, h in enumerate(pick):
                mid = '%s.%s.%d.%d' % (f, name, seed, n)
                if mid not in done: jobs.append((mid, f) + h)
    print(len(jobs), 'jobs'); sys.stdout.flush()
    with Pool(nw, maxtasksperchild=20) as pool, open(outp, 'a') as o:
        for r in pool.imap_unordered(run, jobs):
            if r is None: continue
            o.write(json.dumps(r) + '\n'); o.flush()
            if r['survived'] or not r['theorems_failed']: print('SURVIVED' if r['survived'] else 'LEMMA-ONLY', r['id'], r['kind'], r['edit'], r['lemmas_failed'], r['notes']); sys.stdout.flush()
