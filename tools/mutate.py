"""usage: mutate.py MUTATIONS.json OUT.jsonl   -- try each edit in a scratch copy of the model, see which proofs fail.
A mutation: {"file", "def", "old", "new", "claim"}; "old" must occur exactly once in the file."""
import json, os, re, subprocess, sys, shutil
src = os.environ.get('MUTSRC', '/verif/rocq')
muts = json.load(open(sys.argv[1])); out = sys.argv[2]
work = os.environ.get('MUTDIR', '/tmp/mut/w')
def enclosing(path, line):
    L = open(path).read().split('\n')[:line]
    for x in reversed(L):
        m = re.match(r'\s*(?:Local |Global )?(Theorem|Lemma|Example|Corollary|Definition|Fixpoint|Remark|Fact)\s+([\w\']+)', x)
        if m: return m.group(2)
    return '?'
for m in muts:
    shutil.rmtree(work, ignore_errors=True); subprocess.run(['cp', '-a', src, work], check=True)
    p = f"{work}/theories/{m['file']}"
    t = open(p).read()
    if t.count(m['old']) != 1:
        print('SKIP', t.count(m['old']), m['def'], m['old']); continue
    open(p, 'w').write(t.replace(m['old'], m['new']))
    if os.environ.get('FIRST'):   # stop at the first proof that fails; the tests of the model do not count as proofs
        q = f'{work}/_CoqProject'; c = open(q).read(); open(q, 'w').write(c.replace('theories/Conform.v\n', ''))
    r = subprocess.run('coq_makefile -f _CoqProject -o Makefile >/dev/null && timeout 1500 make %s -j%s 2>&1' % ('' if os.environ.get('FIRST') else '-k', os.environ.get('J', '2')), shell=True, cwd=work, capture_output=True, text=True)
    fails = []
    for f, l in re.findall(r'File "\./theories/(\w+\.v)", line (\d+), characters [^\n]*\nError', r.stdout):
        n = enclosing(f"{work}/theories/{f}", int(l))
        if (f, n) not in fails: fails.append((f, n))
    rec = {"definition": f"{m['file']}: {m['def']}", "edit": f"{m['old']}  -->  {m['new']}", "claim": m['claim'],
           "failed": [f"{f}: {n}" for f, n in fails], "tightened": []}
    open(out, 'a').write(json.dumps(rec, ensure_ascii=False) + '\n')
    print(m['def'], '|', m['claim'][:60], '|', rec['failed'], flush=True)
