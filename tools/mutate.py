#!/usr/bin/env python3
"""Seeded-bug runner.  usage: mutate.py specs.json [ids...]
Each spec: {"id","file","old","new","claim","chain":[files after the edited one]}.
In a scratch copy the model is edited, then every file of the chain is rebuilt; a lemma whose proof breaks is
admitted and the build goes on, so that Print Assumptions in the Props file tells which property theorems are
hit.  Results are appended to seeded/LOG.jsonl."""
import json, re, subprocess, sys, os, shutil
ROOT = os.path.dirname(os.path.dirname(os.path.abspath(__file__)))
BASE = os.environ.get('MUTBASE', '/tmp/mut/base')   # a built snapshot of rocq/
SCR = os.environ.get('MUT', '/tmp/mut/w')
KW = r'^\s*(?:Local |Global |#\[[^\]]*\] ?)*(Theorem|Lemma|Example|Corollary|Fact|Remark|Instance|Definition|Fixpoint|Record|Inductive)\s+([\w\']+)'

def compile_(name):
    p = subprocess.run(['timeout', '600', 'coqc', '-Q', 'theories', 'Verif', 'theories/%s.v' % name], cwd=SCR, capture_output=True, text=True)
    return p.returncode, p.stdout, p.stderr

def blocks(src):
    ms = list(re.finditer(KW, src, re.M))
    return ms

def admit(path, line):
    src = open(path).read()
    off = sum(len(l) + 1 for l in src.split('\n')[:line - 1])
    cur = None
    for m in blocks(src):
        if m.start() <= off + 200 and src.count('\n', 0, m.start()) <= line - 1: cur = m
    if cur is None: return None, 'no-block'
    name, kind = cur.group(2), cur.group(1)
    i = src.find('Proof', cur.start())
    nxt = re.compile(r'^(Qed|Defined)\.|\s(Qed|Defined)\.', re.M).search(src, cur.start())
    if kind in ('Definition', 'Fixpoint', 'Record', 'Inductive') and (i < 0 or not nxt): return name, 'statement'
    if i < 0 or not nxt or i > nxt.start(): return name, 'statement'
    # error inside the statement?
    if src.count('\n', 0, i) + 1 > line and '.\n' in src[cur.start():i]: return name, 'statement'
    open(path, 'w').write(src[:i] + 'Admitted.' + src[nxt.end():])
    return name, 'admitted'

def run(spec):
    shutil.rmtree(SCR, ignore_errors=True)
    shutil.copytree(BASE, SCR)
    p = SCR + '/theories/%s.v' % spec['file']
    s = open(p).read()
    assert s.count(spec['old']) == spec.get('count', 1), (spec['id'], s.count(spec['old']))
    open(p, 'w').write(s.replace(spec['old'], spec['new']))
    failed, hit, notes = [], [], []
    for f in [spec['file']] + spec['chain']:
        for _ in range(80):
            rc, out, err = compile_(f)
            if rc == 0: break
            m = list(re.finditer(r'line (\d+), characters[^\n]*\nError', err)) or list(re.finditer(r'line (\d+), characters', err))
            m = m[-1] if m else None
            if rc == 124: notes.append('timeout in ' + f); break
            if not m: notes.append(err[-300:]); break
            name, st = admit(SCR + '/theories/%s.v' % f, int(m.group(1)))
            failed.append('%s.%s' % (f, name))
            if st != 'admitted': notes.append('%s.%s: %s: %s' % (f, name, st, err[-200:])); break
        if rc != 0: break
        if f.endswith('Props'):
            src = open(SCR + '/theories/%s.v' % f).read()
            names = re.findall(r'^Print Assumptions (\w+)\.', src, re.M)
            outs = re.split(r'(?=Closed under the global context|Axioms:)', out)[1:]
            adm = {x.split('.')[1] for x in failed}
            for n, o in zip(names, outs):
                if o.startswith('Axioms') and any(re.search(r'^%s\s*:' % re.escape(a), o, re.M) or re.search(r'\b%s\b' % re.escape(a), o) for a in adm): hit.append(n)
    return failed, hit, notes

if __name__ == '__main__':
    if not os.environ.get('NOBASE'):
        shutil.rmtree(BASE, ignore_errors=True); os.makedirs(BASE)
        subprocess.run('git -C %s archive HEAD rocq | tar x -C %s --strip-components=1 && cd %s && coq_makefile -f _CoqProject -o Makefile && make -j3' % (ROOT, BASE, BASE), shell=True, check=True, stdout=subprocess.DEVNULL)
    specs = json.load(open(sys.argv[1])); ids = set(sys.argv[2:])
    for sp in specs:
        if ids and sp['id'] not in ids: continue
        try: failed, hit, notes = run(sp)
        except AssertionError as e:
            print('BAD SPEC', e); continue
        rec = {'id': sp['id'], 'definition': sp['file'] + '.' + sp.get('def', ''), 'edit': '%s  ==>  %s' % (sp['old'].strip(), sp['new'].strip()),
               'claim': sp['claim'], 'theorems_failed': hit, 'lemmas_failed': failed, 'theorems_tightened': sp.get('tightened', []), 'notes': notes}
        print(sp['id'], 'HIT' if hit or failed else '*** SURVIVED ***', hit, failed[:6], notes)
        sys.stdout.flush()
        os.makedirs(ROOT + '/seeded', exist_ok=True)
        open(ROOT + '/seeded/LOG.jsonl', 'a').write(json.dumps(rec) + '\n')
