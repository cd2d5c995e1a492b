#!/usr/bin/env python3
"""Check which theorems notice a seeded bug in the model.

usage: mutate.py MUTANTS.json BASE WORK RESULTS [id ...]

BASE holds the .v files, compiled, each with its `coqc -time` output in NAME.time.
Every mutant is {"id", "file", "old", "new", "breaks", "claims", "what"}: `old` must occur
exactly once in the file.  With RECOUNT set nothing is replayed: the theorems that failed are
worked out again from the proofs recorded as failed.  All files are recompiled without proofs (-vos); then every
proof that transitively mentions the edited definition is replayed in coqtop, against the
statements of the other files.  A theorem fails if its own proof or that of a lemma
it uses fails.  With FIRST set the replay stops behind the first file with a failing proof, so that
the theorems named are only those that use the proofs of that file.  A mutant may have `edits`, a list of
{"file", "old", "new"}, and `only`, the files to replay: with them a bug is put into the model and into the
pictures of the model at once, to see whether theorems with a description of their own notice it.
"""
import json, os, re, shutil, subprocess, sys, time, select
from concurrent.futures import ThreadPoolExecutor

BASE, WORK, RES = sys.argv[2:5]
PROJ = [l.strip()[9:-2] for l in open('/verif/rocq/_CoqProject') if l.strip().endswith('.v')]
PROJ = [f for f in PROJ if f not in ('Assumptions', 'Tests') and os.path.exists(f'{BASE}/{f}.time')]
ERR = re.compile(rb'(^|\n)(Error|Anomaly|Toplevel input|Syntax error)')
HEAD = re.compile(rb'^\s*(?:Local\s+)?(Lemma|Theorem|Corollary|Example|Fact|Remark)\s+([\w\']+)')


class Node:
    def __init__(self, file, start, end, names):
        self.file, self.start, self.end, self.names = file, start, end, names
        self.proof = None      # list of (a, b) sentences after the statement
        self.sentences = []
        self.section = False
        self.refs = set()
    @property
    def name(self):
        return self.names[0] if self.names else '?'


class File:
    pass


def load(f):
    F = File()
    F.name = f
    F.src = open(f'{BASE}/{f}.v', 'rb').read()
    F.sents = [(int(m[1]), int(m[2])) for m in re.finditer(rb'^Chars (\d+) - (\d+) ', open(f'{BASE}/{f}.time', 'rb').read(), re.M)]
    F.nodes = []
    i, depth = 0, 0
    while i < len(F.sents):
        a, b = F.sents[i]
        t = F.src[a:b]
        m = HEAD.match(t)
        if re.match(rb'\s*Section\b', t): depth += 1
        if re.match(rb'\s*End\b', t): depth = max(0, depth - 1)
        if m and i + 1 < len(F.sents) and F.src[F.sents[i+1][0]:F.sents[i+1][1]].strip() == b'Proof.':
            j = i + 1
            while F.src[F.sents[j][0]:F.sents[j][1]].strip() not in (b'Qed.', b'Defined.'): j += 1
            n = Node(f, a, F.sents[j][1], [m[2].decode()])
            n.proof = F.sents[i+1:j+1]
            n.sentences = [F.sents[i]]
            i = j + 1
        else:
            n = Node(f, a, b, [])
            n.sentences = [F.sents[i]]
            m = re.match(rb'\s*(?:Local\s+)?Ltac\s+([\w\.]+)', t)
            n.ltac = m[1].decode() if m else None
            i += 1
        n.section = depth > 0
        F.nodes.append(n)
    return F


def graph():
    files = {f: load(f) for f in PROJ}
    table = {}
    globs = {}
    for f, F in files.items():
        starts = [n.start for n in F.nodes]
        import bisect
        def at(pos, F=F, starts=starts):
            k = bisect.bisect_right(starts, pos) - 1
            return F.nodes[k] if k >= 0 and pos < F.nodes[k].end else None
        refs = []
        for line in open(f'{BASE}/{f}.glob'):
            w = line.split()
            if not w: continue
            m = re.match(r'R(\d+):(\d+)$', w[0])
            if m and len(w) >= 5 and w[1].startswith('Verif.'):
                refs.append((int(m[1]), w[1][6:], w[3]))
            elif len(w) >= 4 and w[0] in ('def', 'prf', 'ind', 'constr', 'rec', 'proj', 'not', 'inst', 'abbrev', 'scheme', 'var', 'ax'):
                p = int(w[1].split(':')[0])
                n = at(p)
                if n is not None:
                    table[(f, w[3])] = n
                    if w[3] not in n.names: n.names.append(w[3])
        globs[f] = (refs, at)
    ltacs = [(n.ltac, n) for F in files.values() for n in F.nodes if getattr(n, 'ltac', None)]
    for f, F in files.items():
        refs, at = globs[f]
        for p, lib, name in refs:
            n = at(p)
            m = table.get((lib, name))
            if n is not None and m is not None and m is not n: n.refs.add(m)
        for n in F.nodes:
            t = F.src[n.start:n.end].decode()
            for l, ln in ltacs:
                if ln is not n and re.search(r'\b' + re.escape(l) + r'\b', t): n.refs.add(ln)
            if getattr(n, 'ltac', None):
                for w in set(re.findall(r"[\w']+", t)):
                    for (g, k), m in table.items():
                        if k == w and m is not n and PROJ.index(g) <= PROJ.index(f): n.refs.add(m)
    return files


def closure(files, seed):
    """All nodes that reach a node of seed."""
    back = {}
    for F in files.values():
        for n in F.nodes:
            for m in n.refs: back.setdefault(m, set()).add(n)
    seen, todo = set(seed), list(seed)
    while todo:
        for m in back.get(todo.pop(), ()):
            if m not in seen: seen.add(m); todo.append(m)
    return seen


def required(todo):
    """The files that these files need, directly or not."""
    seen, todo = set(), list(todo)
    while todo:
        f = todo.pop()
        if f in seen: continue
        seen.add(f)
        head = re.search(r'From Verif Require Import ([^.]*)\.', open(f'{BASE}/{f}.v').read())
        todo += head[1].split() if head else []
    return seen


class Top:
    def __init__(self, cwd):
        self.cwd = cwd
        self.p = subprocess.Popen(['bash', '-c', 'ulimit -v 8000000; exec coqtop -q -emacs -Q . Verif'], cwd=cwd, stdin=subprocess.PIPE,
                                  stdout=subprocess.PIPE, stderr=subprocess.STDOUT, bufsize=0)
        self.buf = b''
        self.read(60)
        self.send(b'Set Silent.', 60)
    def read(self, t):
        end = time.time() + t
        while b'</prompt>' not in self.buf:
            r, _, _ = select.select([self.p.stdout], [], [], max(0, end - time.time()))
            if not r: return None
            d = os.read(self.p.stdout.fileno(), 65536)
            if not d: return None
            self.buf += d
        k = self.buf.index(b'</prompt>') + 9
        out, self.buf = self.buf[:k], self.buf[k:]
        return out
    def send(self, s, t):
        self.p.stdin.write(s + b'\n')
        out = self.read(t)
        if out is None: return None, b'timeout'
        return not ERR.search(out), out
    def close(self):
        self.p.kill(); self.p.wait()


def check_file(F, affected, work, log):
    """Replays the affected proofs of one file; returns the names of those that fail."""
    failed = {}
    dead = set()
    while True:
        top = Top(work)
        restart = False
        for n in F.nodes:
            stmt = F.src[n.sentences[0][0]:n.sentences[0][1]]
            ok, out = top.send(stmt, 200)
            if n.proof is None:
                if not ok and not stmt.startswith(b'Set ') and n not in dead:
                    failed.setdefault('@' + n.name + ':' + stmt[:40].decode(), out[-300:].decode('utf8', 'replace'))
                continue
            if not ok:
                failed.setdefault(n.name, out[-300:].decode('utf8', 'replace')); continue
            if n in dead or (n not in affected and not n.section):
                top.send(b'Admitted.', 60); continue
            for a, b in n.proof:
                ok, out = top.send(F.src[a:b], 150)
                if ok is None:
                    failed[n.name] = 'timeout'; dead.add(n); restart = True; break
                if not ok:
                    failed[n.name] = out[-400:].decode('utf8', 'replace')
                    o2, _ = top.send(b'Admitted.', 60)
                    if not o2: dead.add(n); restart = o2 is None
                    break
            if restart: break
        top.close()
        if not restart: return failed


def run(mut, files):
    mid = mut['id']
    work = f'{WORK}/{mid}'
    shutil.rmtree(work, ignore_errors=True)
    os.makedirs(work)
    for f in PROJ: shutil.copy(f'{BASE}/{f}.v', work)
    edits = mut.get('edits') or [{'file': mut['file'], 'old': mut['old'], 'new': mut['new']}]
    seed = set()
    texts = {}
    for e in edits:
        f = e['file']
        t = texts.get(f) or open(f'{work}/{f}.v').read()
        assert t.count(e['old']) == 1, (mid, t.count(e['old']), e['old'])
        texts[f] = t.replace(e['old'], e['new'])
        base = files[f].src
        k = base.index(e['old'].encode())
        for n in files[f].nodes:
            if n.start < k + len(e['old'].encode()) and k < n.end: seed.add(n)
    for f, t in texts.items(): open(f'{work}/{f}.v', 'w').write(t)
    affected = closure(files, seed)
    first = min(PROJ.index(f) for f in texts)
    # statements
    res = {'id': mid, 'failed': {}, 'build': None}
    t0 = time.time()
    todo = [f for f in PROJ[first:] if f not in texts and f in mut.get('only', PROJ) and any(n in affected and n.proof for n in files[f].nodes)]
    def replay(f):
        r = check_file(files[f], affected, work, res)
        if r: res['failed'].setdefault(f, {}).update(r)
        return f in res['failed']
    needed = required(mut['only']) if 'only' in mut else set(PROJ)
    for i, f in enumerate(PROJ):
        if f not in needed: continue
        if i < first:
            shutil.copy(f'{BASE}/{f}.vo', f'{work}/{f}.vo'); continue
        for attempt in range(12):
            r = subprocess.run(['coqc', '-vos', '-Q', '.', 'Verif', f + '.v'], cwd=work, capture_output=True)
            if r.returncode == 0: break
            m = re.search(rb'File "[^"]*", line (\d+), characters (\d+)', r.stderr)
            src = open(f'{work}/{f}.v', 'rb').read()
            pos = sum(len(l) + 1 for l in src.split(b'\n')[:int(m[1]) - 1]) + int(m[2]) if m else -1
            F = files[f]
            # only for files whose text is unchanged so far
            hit = [n for n in F.nodes if n.start <= pos < n.end] if src == F.src else []
            if not hit:
                res['build'] = f + ': ' + r.stderr.decode()[-400:]
                return finish(res, files, mut, work)
            n = hit[0]
            res['failed'].setdefault(f, {})[n.name] = r.stderr.decode()[-300:]
            if n.proof:
                a, b = n.proof[0][0], n.end
                pad = b'Proof. Admitted.'
            else:
                a, b, pad = n.start, n.end, b''
            new = src[:a] + pad + re.sub(rb'[^\n]', b' ', src[a:b])[len(pad):] + src[b:]
            F.src_work = new
            open(f'{work}/{f}.v', 'wb').write(new)
            if attempt: res['build'] = f + ': several statement failures'
        os.rename(f'{work}/{f}.vos', f'{work}/{f}.vo') if os.path.exists(f'{work}/{f}.vos') else None
        if os.environ.get('FIRST') and f in todo:
            if replay(f): break
            todo.remove(f)
    else:
        for f in todo: replay(f)
    res['seconds'] = round(time.time() - t0)
    return finish(res, files, mut, work)


def finish(res, files, mut, work):
    bad = {n for f, d in res['failed'].items() for n in files[f].nodes if n.proof and n.names[0] in d}
    up = closure(files, bad)
    res['direct'] = sorted(n.name for n in bad)
    res['theorems'] = sorted(n.name for n in up if n.proof and re.match(r'C\d+_', n.name))
    res['claims_hit'] = sorted({t.split('_')[0] for t in res['theorems']})
    res['missed'] = [c for c in mut['claims'] if c not in res['claims_hit']]
    json.dump(res, open(f'{RES}/{mut["id"]}.json', 'w'), indent=1)
    shutil.rmtree(work, ignore_errors=True)
    print(mut['id'], res.get('seconds'), 'missed' if res['missed'] else 'ok', res['missed'], 'hit', ' '.join(res['claims_hit']), res['build'] or '', flush=True)


if __name__ == '__main__':
    muts = json.load(open(sys.argv[1]))
    ids = sys.argv[5:]
    os.makedirs(RES, exist_ok=True); os.makedirs(WORK, exist_ok=True)
    files = graph()
    muts = [m for m in muts if (m['id'] in ids if ids else not os.path.exists(f'{RES}/{m["id"]}.json'))]
    if os.environ.get('RECOUNT'):
        for m in json.load(open(sys.argv[1])):
            if os.path.exists(f'{RES}/{m["id"]}.json') and (not ids or m['id'] in ids):
                finish(json.load(open(f'{RES}/{m["id"]}.json')), files, m, f'{WORK}/none')
        sys.exit()
    def go(m):
        try: run(m, files)
        except AssertionError as e: print('BAD EDIT', e, flush=True)
    with ThreadPoolExecutor(int(os.environ.get('JOBS', '3'))) as ex: list(ex.map(go, muts))
