"""Try the theorems against wrong programs.

usage: mutate.py BATCH.json [id ...]

Each entry of the batch: id, file (in theories), old, new (text edit of a model file),
definition, claim (the claim the edit breaks).  For every entry the edit is made in a
scratch copy, everything is rebuilt; lemmas whose proof fails are admitted one after the
other until the build goes through, and a property theorem counts as failed if its own
proof failed or it depends on a lemma that did.  One line per entry is appended to
seeded/LOG.jsonl.
"""
import json, os, re, subprocess, sys, shutil

BASE = '/tmp/mutbase'
HERE = os.path.dirname(os.path.dirname(os.path.abspath(__file__)))
STMT = re.compile(r'\b(Lemma|Theorem|Example|Corollary|Fact|Remark)\s+([\w\']+)')

def sh(cmd, cwd, timeout=3000):
    return subprocess.run(cmd, shell=True, cwd=cwd, capture_output=True, text=True, timeout=timeout)

def prepare():
    """A built copy, and the section variables every lemma uses."""
    shutil.rmtree(BASE, ignore_errors=True)
    shutil.copytree(HERE + '/rocq', BASE)
    listed = open(BASE + '/_CoqProject').read().split()
    for f in os.listdir(BASE + '/theories'):
        if f.endswith('.v') and 'theories/' + f not in listed:
            os.remove(BASE + '/theories/' + f)
    sh('coq_makefile -f _CoqProject -o Makefile; rm -f theories/*.vo', BASE)
    r = sh("make -O -j4 COQEXTRAFLAGS='-set \"Suggest Proof Using\"' 2>&1", BASE)
    using = {}
    for part in re.split(r'(?m)^(?=COQC theories/)', r.stdout):
        f = re.match(r'COQC theories/(\w+\.v)', part)
        for m in re.finditer(r'The proof of ([\w\']+)\s+should start with one of the following commands:\s+Proof using ([^.]*)\.', part):
            using[f.group(1) + ':' + m.group(1)] = m.group(2).strip()
    json.dump(using, open(BASE + '/using.json', 'w'))

def stuck(work, f):
    """Position of the sentence that does not end in a file that was stopped."""
    r = sh('timeout 300 coqc -time -Q theories Verif theories/%s 2>&1' % f, work)
    ends = [int(x) for x in re.findall(r'(?m)^Chars \d+ - (\d+)', r.stdout)]
    return ends[-1] + 1 if ends else 0

def admit(text, pos, using, f):
    """Admit the statement around pos; None if pos is not inside a proof."""
    last = None
    for m in STMT.finditer(text, 0, pos + 1):
        last = m
    if last is None:
        return None, None
    p = re.compile(r'\bProof\b[^.]*\.').search(text, last.end())
    if p is None or p.start() > pos:
        return None, last.group(2)
    q = re.compile(r'\b(Qed|Defined)\.').search(text, p.end())
    if q is None or q.end() < pos:
        return None, last.group(2)
    u = using.get(f + ':' + last.group(2))
    return text[:p.start()] + ('Proof using %s. Admitted.' % (u or 'Type') if u is not None else 'Proof. Admitted.') + text[q.end():], last.group(2)

def attempt(mu):
    using = json.load(open(BASE + '/using.json'))
    work = '/tmp/mut_' + mu['id']
    shutil.rmtree(work, ignore_errors=True)
    sh('cp -a %s %s' % (BASE, work), '/')
    edits = mu.get('edits') or [[mu['file'], mu['old'], mu['new']]]
    for f, old, new in edits:
        path = work + '/theories/' + f
        t = open(path).read()
        if t.count(old) != 1:
            return {'error': '%s: %d occurrences' % (f, t.count(old))}
        open(path, 'w').write(t.replace(old, new))
    failed, broken = [], []
    for rnd in range(200):
        r = sh("make -k -j2 COQC='timeout 400 coqc' 2>&1", work, 12000)
        errs = re.findall(r'File "\./theories/(\w+\.v)", line (\d+), characters (\d+)-\d+:\nError', r.stdout)
        errs = [(f, sum(len(l) + 1 for l in open(work + '/theories/' + f).read().split('\n')[:int(ln) - 1]) + int(ch)) for f, ln, ch in errs]
        errs += [(f, stuck(work, f)) for f in re.findall(r'theories/(\w+\.v)o\] Error 124', r.stdout)]
        if not errs:
            break
        progress = False
        for f, pos in errs:
            path = work + '/theories/' + f
            t = open(path).read()
            t2, name = admit(t, pos, using, f)
            if t2 is None:
                broken.append(f + ':' + (name or str(pos)))
            else:
                failed.append(name); progress = True
                open(path, 'w').write(t2)
        if not progress:
            break
    # property theorems: own proof failed, or an admitted lemma among the assumptions
    thms = {}
    for f in sorted(os.listdir(work + '/theories')):
        if not f.startswith('Prop') or not f.endswith('.v'):
            continue
        names = re.findall(r'\bTheorem\s+([\w\']+)', open(HERE + '/rocq/theories/' + f).read())
        if not os.path.exists(work + '/theories/' + f + 'o'):
            for n in names: thms[n] = 'file does not compile'
            continue
        if os.path.getmtime(work + '/theories/' + f + 'o') == os.path.getmtime(BASE + '/theories/' + f + 'o'):
            continue   # not rebuilt
        out = sh('coqc -Q theories Verif theories/%s 2>&1' % f, work).stdout
        parts = re.split(r'(?m)^(?=Axioms:|Closed under the global context)', out)[1:]
        for n, part in zip(re.findall(r'Print Assumptions\s+([\w\']+)\.', open(work + '/theories/' + f).read()), parts):
            ax = set(re.findall(r'(?m)^([\w\'.]+)(?=\s*:)', part))
            if any(a.split('.')[-1] in failed for a in ax):
                thms[n] = 'failed'
    shutil.rmtree(work, ignore_errors=True)
    return {'lemmas': failed, 'broken': broken, 'failed': sorted(set(thms) | {n for n in failed if re.match(r'C\d+_', n)})}

if __name__ == '__main__':
    if sys.argv[1] == 'prepare':
        prepare(); sys.exit()
    batch = json.load(open(sys.argv[1]))
    only = set(sys.argv[2:])
    for mu in batch:
        if only and mu['id'] not in only: continue
        r = attempt(mu)
        print(mu['id'], json.dumps(r), flush=True)
        if 'error' in r: continue
        entry = {'id': mu['id'], 'definition': mu['definition'], 'edit': mu.get('edit') or (mu['old'] + '  ->  ' + mu['new']),
                 'claim_broken': mu['claim'], 'failed_theorems': r['failed'], 'broken': r['broken'], 'tightened': mu.get('tightened', [])}
        open(HERE + '/seeded/LOG.jsonl', 'a').write(json.dumps(entry) + '\n')
