#!/usr/bin/env python3
"""Build a scratch copy of the development with one definition changed.

Lemmas whose proof no longer goes through are admitted in the copy (only there), and the
build goes on; a theorem has failed when Print Assumptions then lists such a lemma, or
when its own proof had to be admitted.

usage: mutate.py MUTANTS.json [id ...]   results go to /tmp/mut/results/<id>.json
"""
import json, os, re, subprocess, sys, threading, shutil
ROOT = os.environ.get('ROOT', '/verif/rocq')
WORK = os.environ.get('MUT', '/tmp/mut')
JOBS = int(os.environ.get('JOBS', '3'))
TIMEOUT = int(os.environ.get('TIMEOUT', '240'))
HEAD = re.compile(r'^\s*(?:#\[[^\]]*\]\s*)?(?:Local\s+|Global\s+)?(Lemma|Theorem|Example|Corollary|Fact|Remark|Instance)\s+([\w\']+)')
END = re.compile(r'\b(Qed|Defined)\.')


def order():
    files = [l.strip()[len('theories/'):-2] for l in open(ROOT + '/_CoqProject') if l.startswith('theories/')]
    deps = {}
    for f in files:
        src = open('%s/theories/%s.v' % (ROOT, f)).read()
        d = set()
        for m in re.finditer(r'From Verif Require (?:Import |Export )?([^.]*)\.', src):
            d |= set(m.group(1).split())
        deps[f] = d & set(files)
    return files, deps


def blocks(src):
    """(start of the statement, start of its proof, end, kind, name), in characters."""
    out, pos = [], 0
    lines = src.split('\n')
    offs, o = [], 0
    for l in lines:
        offs.append(o)
        o += len(l) + 1
    for i, l in enumerate(lines):
        m = HEAD.match(l)
        if not m:
            continue
        p = re.compile(r'\bProof\b[^.]*\.').search(src, offs[i])
        e = END.search(src, p.end()) if p else None
        if p and e:
            out.append((offs[i], p.start(), e.end(), m.group(1), m.group(2)))
    return out


class Mut:
    def __init__(self, mid, spec):
        self.id, self.spec = mid, spec
        self.dir = WORK + '/work'
        self.admitted = {}
        self.broken = {}

    def prepare(self):
        shutil.rmtree(self.dir, ignore_errors=True)
        shutil.copytree(ROOT, self.dir)
        p = '%s/theories/%s.v' % (self.dir, self.spec['file'])
        s = open(p).read()
        for old, new in self.spec['edits']:
            if s.count(old) < 1:
                raise SystemExit('%s: text not found: %r' % (self.id, old))
            if s.count(old) > 1 and not self.spec.get('all'):
                raise SystemExit('%s: text not unique: %r' % (self.id, old))
            s = s.replace(old, new)
        open(p, 'w').write(s)

    def coqc(self, f):
        try:
            r = subprocess.run(['timeout', str(TIMEOUT), 'coqc', '-Q', 'theories', 'Verif', 'theories/%s.v' % f],
                               cwd=self.dir, stdout=subprocess.PIPE, stderr=subprocess.STDOUT, text=True)
        except Exception as e:
            return 1, str(e)
        return r.returncode, r.stdout

    def where_slow(self, f):
        r = subprocess.run('timeout %d coqc -time -Q theories Verif theories/%s.v' % (TIMEOUT, f), shell=True,
                           cwd=self.dir, stdout=subprocess.PIPE, stderr=subprocess.STDOUT, text=True, errors='replace')
        last = 0
        for m in re.finditer(r'^Chars (\d+) - (\d+) ', r.stdout, re.M):
            last = int(m.group(2))
        return last + 2

    def build(self, f):
        path = '%s/theories/%s.v' % (self.dir, f)
        for _ in range(80):
            code, out = self.coqc(f)
            if code == 0:
                return True, out
            src = open(path).read()
            if code in (124, 137):
                at = self.where_slow(f)
            else:
                m = None
                for m in re.finditer(r'File "[^"]*", line (\d+), characters (\d+)-', out):
                    pass
                if not m:
                    self.broken[f] = out[-400:]
                    return False, out
                lines = src.split('\n')
                at = sum(len(l) + 1 for l in lines[:int(m.group(1)) - 1]) + int(m.group(2))
            hit = [b for b in blocks(src) if b[0] <= at <= b[2]]
            if not hit:
                self.broken[f] = out[-400:]
                return False, out
            b = hit[-1]
            self.admitted.setdefault(f, []).append(b[4])
            if at < b[1]:  # the statement itself no longer typechecks
                src = src[:b[0]] + 'Axiom %s : True.' % b[4] + src[b[2]:]
                self.broken.setdefault(f, 'statement of ' + b[4])
            else:
                src = src[:b[1]] + 'Proof. Admitted.' + src[b[2]:]
            open(path, 'w').write(src)
        self.broken[f] = 'too many failures'
        return False, ''

    def run(self):
        self.prepare()
        files, deps = order()
        dirty = set()
        for f in files:
            if f == self.spec['file'] or deps[f] & dirty:
                dirty.add(f)
        done = {f: True for f in files if f not in dirty}
        outs = {}
        lock, todo = threading.Lock(), [f for f in files if f in dirty]
        cond = threading.Condition(lock)

        def worker():
            while True:
                with cond:
                    while True:
                        if not todo:
                            return
                        f = next((g for g in todo if all(d in done for d in deps[g])), None)
                        if f:
                            todo.remove(f)
                            break
                        cond.wait()
                if all(done[d] for d in deps[f]):
                    ok, out = self.build(f)
                else:
                    ok, out = False, ''
                with cond:
                    done[f] = ok
                    outs[f] = out
                    cond.notify_all()
        ts = [threading.Thread(target=worker) for _ in range(JOBS)]
        [t.start() for t in ts]
        [t.join() for t in ts]
        failed, closed = [], []
        for f in files:
            if not f.startswith('Props'):
                continue
            src = open('%s/theories/%s.v' % (ROOT, f)).read()
            names = re.findall(r'^Theorem (\w+)', src, re.M)
            prints = re.findall(r'^Print Assumptions (\w+)\.', src, re.M)
            if f not in dirty:
                closed += names
                continue
            if not done[f]:
                failed += names
                continue
            chunks = re.findall(r'^(Closed under the global context|Axioms:\n(?:(?!Axioms:|Closed under).*\n?)*)', outs[f], re.M)
            if len(chunks) != len(prints):
                self.broken.setdefault(f, 'assumptions not read: %d %d' % (len(chunks), len(prints)))
            st = {}
            for n, c in zip(prints, chunks):
                st[n] = c.startswith('Closed')
            for n in names:
                (closed if st.get(n) else failed).append(n)
        res = {'id': self.id, 'spec': self.spec, 'failed': failed, 'admitted': self.admitted, 'broken': self.broken,
               'unbuilt': [f for f in files if not done[f]], 'built_again': len(dirty)}
        os.makedirs(WORK + '/results', exist_ok=True)
        json.dump(res, open('%s/results/%s.json' % (WORK, self.id), 'w'), indent=1)
        claims = self.spec['claims']
        missed = [c for c in claims if not any(n.startswith(c + '_') or n == c for n in failed)]
        print(self.id, 'OK' if not missed else 'MISSED ' + ','.join(missed), '| failed', len(failed),
              ' '.join(n for n in failed if any(n.startswith(c + '_') for c in claims)),
              '| unbuilt', res['unbuilt'] if res['unbuilt'] else '-', flush=True)


if __name__ == '__main__':
    muts = json.load(open(sys.argv[1]))
    want = sys.argv[2:] or list(muts)
    for m in want:
        if os.path.exists('%s/results/%s.json' % (WORK, m)) and not sys.argv[2:]:
            continue
        Mut(m, muts[m]).run()
