#!/usr/bin/env python3
"""Mutation runner. usage: mutate.py JOBS.json   (list of {file, old, new, definition, edit, claim})
For each job: fresh scratch copy of rocq (outside /verif), apply the edit to the model file, rebuild;
a lemma whose proof no longer goes through is Admitted *in the scratch copy* and recorded, so that the
Print Assumptions output tells exactly which property theorems break. Appends to seeded/LOG.jsonl."""
import sys, json, subprocess, shutil, os, re, concurrent.futures
ROOT = os.environ.get('MROOT', '/verif')
HEAD = re.compile(r'^\s*(?:Local |Global )?(Lemma|Theorem|Example|Corollary|Fact|Remark)\s+(\w+)')
def run(job, k):
    d = os.environ.get('MDIR', '/tmp/mut') + '/%d' % k
    shutil.rmtree(d, ignore_errors=True)
    shutil.copytree(ROOT + '/rocq', d, ignore=shutil.ignore_patterns('.*.aux'))
    p = d + '/theories/' + job['file']
    s = open(p).read()
    if s.count(job['old']) < 1: return dict(job, result='PATTERN NOT FOUND')
    s2 = s.replace(job['old'], job['new'], 1)
    open(p, 'w').write(s2)
    failed, dropped = [], []
    subprocess.run('coq_makefile -f _CoqProject -o Makefile', shell=True, cwd=d, capture_output=True)
    props_out = ''
    for it in range(60):
        try: r = subprocess.run('make -j2 2>&1', shell=True, cwd=d, capture_output=True, text=True, timeout=1500)
        except subprocess.TimeoutExpired: return dict(job, result='TIMEOUT', failed=failed)
        props_out += r.stdout
        if r.returncode == 0: break
        m = re.search(r'File "\./(theories/\w+\.v)", line (\d+)', r.stdout)
        if not m: return dict(job, result='BUILD ERROR', out=r.stdout[-500:], failed=failed)
        f, ln = d + '/' + m.group(1), int(m.group(2))
        lines = open(f).read().split('\n')
        i = ln - 1
        while i >= 0 and not HEAD.match(lines[i]): i -= 1
        if i < 0: return dict(job, result='DEFINITION ERROR %s:%d' % (m.group(1), ln), out=r.stdout[-700:], failed=failed)
        kind, name = HEAD.match(lines[i]).groups()
        # end of proof
        j = i
        while j < len(lines) and not re.search(r'\b(Qed|Defined|Admitted)\.', lines[j]): j += 1
        if j < ln - 1: return dict(job, result='DEFINITION ERROR %s:%d' % (m.group(1), ln), out=r.stdout[-700:], failed=failed)
        body = '\n'.join(lines[i:j+1])
        st = re.split(r'\bProof\b', body)[0].rstrip()
        if kind == 'Example' or (name in failed):
            dropped.append(name); new = ''
        else:
            failed.append(name); new = st + '\nProof. Admitted.'
        lines[i:j+1] = [new]
        open(f, 'w').write('\n'.join(lines))
    # which property theorems rest on admitted lemmas
    broken = set(x for x in failed if re.match(r'C\d\d\d?_', x))
    th = {}
    for fn in os.listdir(d + '/theories'):
        if fn.endswith('Props.v') and 'COQC theories/' + fn in props_out:
            r = subprocess.run(['coqc', '-Q', 'theories', 'Verif', 'theories/' + fn], cwd=d, capture_output=True, text=True)
            names = re.findall(r'(?m)^Print Assumptions (\w+)\.', open(d + '/theories/' + fn).read())
            chunks = re.split(r'(?m)^(?=Closed under the global context|Axioms:|Section Variables:)', r.stdout)[1:]
            for n, c in zip(names, chunks):
                if any(re.search(r'\b%s\b' % re.escape(x), c) for x in failed): broken.add(n)
    shutil.rmtree(d, ignore_errors=True)
    return dict(job, result='killed' if broken else 'SURVIVED', failed_theorems=sorted(broken), failed_lemmas=failed, failed_examples=dropped)
if __name__ == '__main__':
    jobs = json.load(open(sys.argv[1]))
    nolog = '--nolog' in sys.argv
    with concurrent.futures.ThreadPoolExecutor(2) as ex:
        for r in ex.map(lambda a: run(a[1], a[0]), enumerate(jobs)):
            print(r['result'], '|', r['definition'], '|', r['edit'], '|', r.get('failed_theorems'), r.get('failed_lemmas'), r.get('out', ''), flush=True)
            if r['result'] in ('killed', 'SURVIVED') and not nolog:
                e = {k: r[k] for k in ('definition', 'edit', 'claim', 'result', 'failed_theorems', 'failed_lemmas', 'failed_examples')}
                e['tightened'] = r.get('tightened', [])
                open(ROOT + '/seeded/LOG.jsonl', 'a').write(json.dumps(e, ensure_ascii=False) + '\n')
