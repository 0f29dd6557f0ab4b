#!/usr/bin/env python3
"""Mutation tests of the theorems.  Usage: mutate.py MUTATIONS.json [WORKERS]

Every entry {"file","old","new","definition","edit","breaks"} is applied to a scratch copy of rocq/ (outside the repository), the files
depending on the edited one are compiled again, lemmas whose proofs break are admitted in the scratch copy in order to go on, and the
theorems of Props/ that break or depend on admitted lemmas are reported.  One JSON line per entry on the standard output."""
import json, os, re, shutil, subprocess, sys, tempfile
from concurrent.futures import ThreadPoolExecutor
ROOT = os.path.join(os.path.dirname(os.path.dirname(os.path.abspath(__file__))), 'rocq')
def deps():
    d = {}
    for l in open(os.path.join(ROOT, '.Makefile.d')) if os.path.exists(os.path.join(ROOT, '.Makefile.d')) else []:
        m = re.match(r'(theories/\S+)\.vo .*?: (.*)', l)
        if m: d[m.group(1) + '.v'] = [x[:-3] + '.v' for x in m.group(2).split() if x.endswith('.vo') and x.startswith('theories/')]
    return d
D = deps()
def affected(f):
    out, todo = set(), [f]
    while todo:
        x = todo.pop()
        if x in out: continue
        out.add(x)
        todo += [y for y in D if x in D[y]]
    order, seen = [], set()
    def visit(x):
        if x in seen: return
        seen.add(x)
        for y in D[x]:
            if y in out: visit(y)
        order.append(x)
    for x in sorted(out): visit(x)
    return order
HEAD = re.compile(r'^\s*(?:Global |Local |#\[[^\]]*\]\s*)?(Lemma|Theorem|Example|Corollary|Fact|Remark|Definition|Fixpoint|Inductive|Instance|Program Definition|Record|Notation|Ltac|Axiom)\s+([\w\']+)?', re.M)
def run(cwd, f, limit):
    p = subprocess.run(['timeout', str(limit), 'coqc', '-time', '-Q', '.', 'Verif', f], cwd=cwd, stdout=subprocess.PIPE, stderr=subprocess.STDOUT, universal_newlines=True)
    return p.returncode, p.stdout
def admit(path, pos, bad):
    s = open(path).read()
    heads = [m for m in HEAD.finditer(s) if m.start() <= pos]
    if not heads: return None
    h = heads[-1]
    if h.group(1) not in ('Lemma', 'Theorem', 'Example', 'Corollary', 'Fact', 'Remark'): return None
    name = h.group(2)
    p = re.compile(r'Proof\b').search(s, h.end()); q = re.compile(r'\b(Qed|Defined)\s*\.').search(s, h.end())
    if not p or not q or p.start() > pos or name in bad:
        # the statement itself, or already admitted: drop the command with its Print Assumptions
        if not q: return None
        if 'Admitted.' in s[h.start():q.start()]: return None
        end = q.end()
        s = s[:h.start()] + ' ' * 0 + re.sub(r'[^\n]', ' ', s[h.start():end]) + s[end:]
        s = re.sub(r'Print Assumptions ' + re.escape(name) + r'\.', lambda m: ' ' * len(m.group(0)), s)
        open(path, 'w').write(s)
        return name
    s = s[:p.start()] + 'Admitted.' + re.sub(r'[^\n]', ' ', s[p.start() + 9:q.end()]) + s[q.end():]
    open(path, 'w').write(s)
    return name
def one(i, m, wd):
    th = os.path.join(wd, 'theories')
    f = 'theories/' + m['file']
    src = open(os.path.join(wd, f)).read()
    res = dict(m)
    if src.count(m['old']) < 1: return dict(m, error='old text not found')
    if src.count(m['old']) > 1 and not m.get('all'): return dict(m, error='old text %d times' % src.count(m['old']))
    files = affected(f)
    saved = {}
    for x in files:
        for e in ('.v', '.vo', '.glob', '.vos', '.vok'):
            p = os.path.join(wd, x[:-2] + e)
            if os.path.exists(p): saved[p] = (open(p, 'rb').read(), os.stat(p))
    broken, gone, stuck, tainted = [], [], [], set()
    try:
        open(os.path.join(wd, f), 'w').write(src.replace(m['old'], m['new']))
        done = set()
        for x in files:
            if any(y in stuck for y in D[x]):
                stuck.append(x); continue
            path = os.path.join(wd, x)
            ok, bad = False, []
            for _ in range(60):
                rc, out = run(th, x[len('theories/'):], m.get('timeout', 150))
                if rc == 0: ok = True; break
                text = open(path, 'rb').read()
                if rc == 124:
                    c = re.findall(r'^Chars (\d+) - (\d+)', out, re.M)
                    posb = int(c[-1][1]) + 2 if c else 0
                else:
                    mm = re.findall(r'line (\d+), characters (\d+)-(\d+):\s*\n(?:.*\n)*?\s*(?:Error|Syntax)', out)
                    mm = re.findall(r'File "[^"]*", line (\d+), characters (\d+)-\d+:\n(?!Warning)', out) or mm
                    if not mm: break
                    ln, ch = int(mm[-1][0]), int(mm[-1][1])
                    posb = sum(len(l) + 1 for l in text.split(b'\n')[:ln - 1]) + ch
                pos = len(text[:posb].decode(errors='ignore'))
                n = admit(path, pos, bad)
                if n is None: break
                bad.append(n); broken.append(n)
            if not ok:
                stuck.append(x)
                res.setdefault('stuck_at', []).append(x + ': ' + out[-300:])
                continue
            if '/Props/' in x:
                names = re.findall(r'Print Assumptions ([\w\']+)\.', open(path).read())
                blocks = re.findall(r'^(Closed under the global context|Axioms:)', out, re.M)
                parts = re.split(r'^(?=Closed under the global context|Axioms:)', out, flags=re.M)[1:]
                for n, b in zip(names, parts):
                    if b.startswith('Axioms:'): tainted.add(n)
    finally:
        for x in files:
            for e in ('.vo', '.glob', '.vos', '.vok'):
                p = os.path.join(wd, x[:-2] + e)
                if os.path.exists(p) and p not in saved: os.remove(p)
        for p, (b, st) in saved.items():
            open(p, 'wb').write(b); os.utime(p, ns=(st.st_atime_ns, st.st_mtime_ns))
    props = set(n for n in broken if re.match(r'C\d\d_', n)) | tainted
    res['broken_lemmas'] = [n for n in broken if not re.match(r'C\d\d_', n)]
    res['failed'] = sorted(props)
    if stuck: res['stuck'] = stuck
    return res
def main():
    ms = json.load(open(sys.argv[1])); w = int(sys.argv[2]) if len(sys.argv) > 2 else 4
    dirs = []
    for k in range(w):
        d = tempfile.mkdtemp(prefix='mutate-'); shutil.rmtree(d); shutil.copytree(ROOT, d); dirs.append(d)
    import queue
    q = queue.Queue()
    for d in dirs: q.put(d)
    def job(a):
        d = q.get()
        try: return one(a[0], a[1], d)
        except Exception as e: return dict(a[1], error=repr(e))
        finally: q.put(d)
    with ThreadPoolExecutor(w) as ex:
        for r in ex.map(job, enumerate(ms)):
            print(json.dumps(r), flush=True)
    for d in dirs: shutil.rmtree(d)
main()
