#!/usr/bin/env python3
"""Test the theorems against edited ("buggy") models.

usage: mutate.py EDITS.json [first [last]]

EDITS.json: list of {"file", "old", "new", "definition", "edit", "claim"}. For each edit a scratch
copy of rocq/ is changed and rebuilt. A proof that fails is replaced by Admitted so that the build
can go on; at the end Print Assumptions tells which property theorems rest on a failed proof.
One line per edit is appended to seeded/LOG.jsonl (field theorems_failed).

With MUT_TARGETED=1 only the files which state theorems of the claim are rebuilt and asked; such a
line carries the field "files_checked"."""
import json, os, re, shutil, subprocess, sys

ROOT = os.path.dirname(os.path.dirname(os.path.abspath(__file__)))
BASE = os.environ.get('MUT_BASE', '/tmp/mut/base')
WORK = os.environ.get('MUT_WORK', '/tmp/mut/work')
JOBS = os.environ.get('MUT_JOBS', '2')


TARGETED = os.environ.get('MUT_TARGETED')


def targets(e):
    """The property files with theorems of the claim."""
    if not TARGETED:
        return []
    ids = re.findall(r'C\d\d', e['claim'])
    d = os.path.join(BASE, 'theories')
    return e.get('targets') or [f for f in sorted(os.listdir(d)) if f.startswith('Properties_') and f.endswith('.v')
            and any(re.search(r'^Theorem %s_' % i, open(os.path.join(d, f)).read(), re.M) for i in ids)]


def make(d, files=()):
    goals = ['theories/' + f + 'o' for f in files]
    p = subprocess.run(['make', '-k', '-j' + JOBS, 'COQC=timeout 400 coqc'] + goals, cwd=d,
                       stdout=subprocess.PIPE, stderr=subprocess.STDOUT, text=True)
    return p.returncode, p.stdout


def prepare():
    if not os.path.isdir(BASE):
        shutil.copytree(os.path.join(ROOT, 'rocq'), BASE)
        subprocess.run(['coq_makefile', '-f', '_CoqProject', '-o', 'Makefile'], cwd=BASE, check=True)
        rc, out = make(BASE)
        assert rc == 0, out[-2000:]


def enclosing(src, line):
    """(name, start, end) of the proof around a line; offsets of Proof..Qed."""
    off = sum(len(l) + 1 for l in src.split('\n')[:line - 1])
    end_of_line = src.find('\n', off)
    best = None
    for m in re.finditer(r'^\s*(?:#\[[^\]]*\]\s*)?(?:Local\s+|Global\s+)?(?:Lemma|Theorem|Example|Corollary|Fact|Remark|Instance)\s+(\w+)', src, re.M):
        if m.start() <= end_of_line:
            best = m
        else:
            break
    if not best:
        return None
    p = re.compile(r'\bProof\b').search(src, best.end())
    q = re.compile(r'\b(Qed|Defined)\.').search(src, best.end())
    if not p or not q or p.start() > q.start():
        return None
    if off > q.end():
        return None
    return best.group(1), p.start(), q.end()


def run(e):
    if os.path.isdir(WORK):
        shutil.rmtree(WORK)
    subprocess.run(['cp', '-a', BASE, WORK], check=True)
    path = os.path.join(WORK, 'theories', e['file'])
    s = open(path).read()
    assert s.count(e['old']) >= 1, ('not found', e)
    s = s.replace(e['old'], e['new'], 1)
    open(path, 'w').write(s)
    files = targets(e)
    admitted, broken, rounds = [], [], 0
    while True:
        rounds += 1
        rc, out = make(WORK, files)
        if rc == 0 or rounds > 60:
            break
        locs = re.findall(r'File "\./theories/(\w+\.v)", line (\d+), characters[^\n]*\n(?:Error|[^\n]*\n?Error)', out)
        seen, progress = set(), False
        for f, ln in locs:
            if f in seen:
                continue
            seen.add(f)
            fp = os.path.join(WORK, 'theories', f)
            src = open(fp).read()
            x = enclosing(src, int(ln))
            if x is None:
                broken.append('%s:%s' % (f, ln))
                continue
            name, a, b = x
            if (f, name) in admitted:
                broken.append('%s:%s' % (f, name))
                continue
            # keep the number of lines
            src = src[:a] + 'Proof. Admitted.' + '\n' * src[a:b].count('\n') + src[b:]
            open(fp, 'w').write(src)
            admitted.append((f, name))
            progress = True
        if not progress:
            t = re.findall(r'\[Makefile:\d+: (theories/\w+)\.vo\] Error 124', out)
            broken += [x + ' (timeout)' for x in t]
            if not broken:
                broken.append('unknown: ' + out[-400:])
            break
    # assumptions of property theorems
    failed, checked = [], 0
    for f in sorted(os.listdir(os.path.join(WORK, 'theories'))):
        if not (f.startswith('Properties_') and f.endswith('.v')) or (files and f not in files):
            continue
        fp = os.path.join(WORK, 'theories', f)
        names = re.findall(r'^Theorem (\w+)', open(fp).read(), re.M)
        mod = f[:-2]
        if not os.path.exists(fp + 'o') or (os.path.getmtime(fp + 'o') < os.path.getmtime(fp)):
            failed += [mod + ' (not built)']
            continue
        t = 'From Verif Require Import %s.\n' % mod + ''.join(
            'Goal True. idtac "@@ %s". Abort.\nPrint Assumptions %s.\n' % (n, n) for n in names)
        open(os.path.join(WORK, 'q.v'), 'w').write(t)
        o = subprocess.run(['coqc', '-Q', os.path.join(WORK, 'theories'), 'Verif', os.path.join(WORK, 'q.v')],
                           stdout=subprocess.PIPE, stderr=subprocess.STDOUT, text=True).stdout
        for part in o.split('@@ ')[1:]:
            n = part.split()[0]
            checked += 1
            if 'Axioms:' in part:
                failed.append(n)
    more = {'files_checked': files} if files else {}
    return {**more, 'definition': e['definition'], 'edit': e['edit'], 'claim': e['claim'],
            'theorems_failed': failed, 'proofs_failed': ['%s:%s' % (f[:-2], n) for f, n in admitted],
            'not_typechecking': broken, 'theorems_tightened': e.get('tightened', [])}


def main():
    os.makedirs('/tmp/mut', exist_ok=True)
    edits = json.load(open(sys.argv[1]))
    a = int(sys.argv[2]) if len(sys.argv) > 2 else 0
    b = int(sys.argv[3]) if len(sys.argv) > 3 else len(edits)
    prepare()
    for i, e in enumerate(edits[a:b]):
        try:
            r = run(e)
        except AssertionError as x:
            print(a + i, 'SKIP', x, flush=True)
            continue
        print(a + i, e['definition'], '|', e['claim'], '->', r['theorems_failed'], r['not_typechecking'], flush=True)
        with open(os.environ.get('MUT_LOG', os.path.join(ROOT, 'seeded', 'LOG.jsonl')), 'a') as fh:
            fh.write(json.dumps(r) + '\n')


main()
