#!/usr/bin/env python3
"""Test the theorems against wrong programs.

usage: mutate.py BASE OUT [WORKERS] [START]
BASE is a compiled scratch copy of rocq/ (never /verif itself).  Every entry of
mutants.py is applied to a private copy, the statements of the dependent files are
rebuilt with -vos, and the proofs that mention the definition are replayed with -vok.
A lemma whose proof breaks is recorded and skipped, so later ones are still tried.
The property theorems reported are those whose proof uses a broken lemma."""
import sys, os, re, json, subprocess, shutil, time
from concurrent.futures import ThreadPoolExecutor
from queue import Queue
sys.path.insert(0, os.path.dirname(os.path.abspath(__file__)))
import mutants

BASE, OUT = sys.argv[1], sys.argv[2]
NW = int(sys.argv[3]) if len(sys.argv) > 3 else 3
START = int(sys.argv[4]) if len(sys.argv) > 4 else 0
TH = os.path.join(BASE, 'theories')
files = [l.strip().split('/')[-1][:-2] for l in open(BASE + '/_CoqProject') if l.strip().endswith('.v')]
text = {f: open(f'{TH}/{f}.v').read() for f in files}
claims = json.load(open('/verif/MANIFEST.json'))['claims']
PROP = {t: c['property'] for c in claims for t in c['theorems']}

def requires(t):
    r = set()
    for m in re.finditer(r'From\s+Verif\s+Require\s+(?:(?:Import|Export)\s+)?([^.]*)\.', t):
        r |= set(m.group(1).split())
    return r
dep = {f: requires(text[f]) & set(files) for f in files}
def closure(f, memo={}):
    if f not in memo:
        s = set(dep[f])
        for g in dep[f]: s |= closure(g)
        memo[f] = s
    return memo[f]
order = sorted(files, key=lambda f: (len(closure(f)), f))
# topological order
topo = []; seen = set()
def visit(f):
    if f in seen: return
    seen.add(f)
    for g in sorted(dep[f]): visit(g)
    topo.append(f)
for f in files: visit(f)

KW = r'(?:#\[[^\]]*\]\s*)?(?:Local\s+|Global\s+)?(Lemma|Theorem|Corollary|Example|Fact|Remark|Instance|Definition|Fixpoint|Ltac|Record|Inductive|Class|Notation|Let|Tactic Notation)\s+'
def strip_comments(t):
    out = []; d = 0; i = 0
    while i < len(t):
        if t.startswith('(*', i): d += 1; i += 2; out.append('  '); continue
        if t.startswith('*)', i) and d: d -= 1; i += 2; out.append('  '); continue
        out.append(t[i] if d == 0 or t[i] == '\n' else ' '); i += 1
    return ''.join(out)
def blocks(t):
    s = strip_comments(t)
    ms = list(re.finditer(r'(?m)^\s*' + KW + r'([A-Za-z_][\w\']*)', s))
    res = []
    for a, b in zip(ms, ms[1:] + [None]):
        res.append((a.group(2), a.group(1), a.start(), b.start() if b else len(s), s[a.start():(b.start() if b else len(s))]))
    return res
nodes = {}      # (file,name) -> set of identifiers
byname = {}
for f in files:
    for name, kind, st, en, body in blocks(text[f]):
        nodes[(f, name)] = set(re.findall(r"[A-Za-z_][\w']*", body))
        byname.setdefault(name, []).append(f)
users = {}
for (f, n), ids in nodes.items():
    for i in ids:
        if i == n or i not in byname: continue
        cand = [f] if f in byname[i] else [g for g in byname[i] if g in closure(f)]
        for g in cand: users.setdefault((g, i), set()).add((f, n))
def dependents(start):
    st = list(start); r = set(start)
    while st:
        x = st.pop()
        for y in users.get(x, ()):
            if y not in r: r.add(y); st.append(y)
    return r

def coqc(d, f, mode, tmo):
    try:
        p = subprocess.run(['coqc', '-q', '-Q', 'theories', 'Verif', mode, f'theories/{f}.v'], cwd=d,
                           capture_output=True, text=True, timeout=tmo)
        return p.returncode, p.stdout + p.stderr
    except subprocess.TimeoutExpired:
        return 124, ''
def fail_lemma(d, f, out):
    m = re.search(r'File "[^"]*", line (\d+)', out)
    if not m: return None
    t = open(f'{d}/theories/{f}.v').read()
    pos = sum(len(l) + 1 for l in t.split('\n')[:int(m.group(1)) - 1])
    mm = re.search(r'characters (\d+)-', out)
    if mm: pos += int(mm.group(1))
    cur = None
    for b in blocks(t):
        if b[2] <= pos: cur = b
    return cur, t
def admit(d, f, cur, t):
    name, kind, st, en, body = cur
    m = re.search(r'\bProof\b', body); q = re.search(r'\b(Qed|Defined)\.', body)
    if not m or not q or q.group(1) == 'Defined': return False
    t2 = t[:st + m.start()] + 'Proof. Admitted.' + t[st + q.end():]
    open(f'{d}/theories/{f}.v', 'w').write(t2)
    return True
def check(d, f, mode, tmo, failed, limit):
    """returns True when the file is usable in this mode"""
    for k in range(limit):
        rc, out = coqc(d, f, mode, tmo)
        if rc == 0: return True
        if rc == 124: failed.append((f, '<timeout>')); return False
        r = fail_lemma(d, f, out)
        if not r or not r[0]: failed.append((f, '<' + out.strip()[-120:] + '>')); return False
        cur, t = r
        if (f, cur[0]) in failed: failed.append((f, '<stuck>')); return False
        failed.append((f, cur[0]))
        if not admit(d, f, cur, t): return False
    return False

def run_one(idx, d):
    f, dn, old, new, claim = mutants.M[idx]
    t0 = time.time()
    t = text[f]
    s = re.search(r'(Definition|Fixpoint|Record) ' + re.escape(dn) + r'\b', t).start()
    e = re.search(r'\n\(\*\*|\n\nDefinition|\n\nEnd|\nEnd ', t[s:]); e = s + (e.start() if e else len(t))
    blk = t[s:e]; assert old in blk
    touched = set([f]); want = set(re.findall(r'C\d\d', claim))
    open(f'{d}/theories/{f}.v', 'w').write(t[:s] + blk.replace(old, new, 1) + t[e:])
    failed = []; dead = set(); built = set(); checked = []
    def build(g):
        """-vos of g and everything between f and g"""
        if g in built: return g not in dead
        if g != f and f not in closure(g): return True
        ok = all([build(h) for h in topo if h in dep[g]])
        built.add(g); touched.add(g)
        if not ok: dead.add(g); return False
        if not check(d, g, '-vos', 300, failed, 12): dead.add(g); return False
        return True
    res = {}
    def kills():
        st = set()
        for (g, n) in failed:
            if n.startswith('<'): continue
            st.add((g, n))
        for g in dead: st |= {(g, b) for (h, b) in nodes if h == g}
        return sorted({n for (g, n) in dependents(st) if n in PROP})
    if not build(f):
        res['note'] = 'model does not compile: ' + str(failed)
    else:
        direct = [g for g in topo if f in closure(g) and re.search(r'\b' + re.escape(dn) + r'\b', strip_comments(text[g]))]
        rest = [g for g in topo if f in closure(g) and g not in direct]
        for g in direct + rest:
            hit = want & {PROP[k] for k in kills()}
            if hit and (g in rest or time.time() - t0 > 120): break
            if time.time() - t0 > 3000: res['note'] = 'stopped after 50 min'; break
            if not build(g): continue
            checked.append(g)
            if not check(d, g, '-vok', 400, failed, 6):
                pass
    ks = kills()
    res.update(dict(index=idx, file=f'rocq/theories/{f}.v', definition=dn, old=old, new=new, claim=claim,
               lemmas_failed=[f'{g}.{n}' for g, n in failed], theorems_failed=ks,
               properties=sorted({PROP[k] for k in ks}), files_replayed=len(checked), seconds=round(time.time() - t0)))
    for g in touched:
        open(f'{d}/theories/{g}.v', 'w').write(text[g])
        for ext in ('vos', 'vok'):
            open(f'{d}/theories/{g}.{ext}', 'w').close()
    return res

def main():
    q = Queue()
    for w in range(NW):
        d = f'/tmp/mutw{w}'
        shutil.rmtree(d, ignore_errors=True); shutil.copytree(BASE, d); q.put(d)
    done = set()
    if os.path.exists(OUT): done = {tuple(json.loads(l)[k] for k in ('definition', 'old', 'new')) for l in open(OUT)}
    todo = [i for i in range(START, len(mutants.M)) if mutants.M[i][1:4] not in done]
    def job(i):
        d = q.get()
        try: r = run_one(i, d)
        except Exception as ex: r = dict(index=i, definition=mutants.M[i][1], old=mutants.M[i][2], new=mutants.M[i][3], error=repr(ex))
        q.put(d)
        with open(OUT, 'a') as o: o.write(json.dumps(r) + '\n')
    with ThreadPoolExecutor(NW) as ex: list(ex.map(job, todo))
if __name__ == '__main__': main()
