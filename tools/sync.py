#!/usr/bin/env python3
"""Keep _CoqProject and MANIFEST.json in step with rocq/theories.
- every theories/*.v is listed in _CoqProject
- every `Theorem Cxx_...` in *Props.v is attached to property Cxx in MANIFEST.json
- every Theorem in *Props.v is followed by Print Assumptions
status/notes come from tools/notes.json ({"C01": {"status":..., "note":...}})."""
import re, json, glob, os
root = os.path.dirname(os.path.dirname(os.path.abspath(__file__)))
th = os.path.join(root, 'rocq', 'theories')
files = sorted(os.path.basename(f) for f in glob.glob(th + '/*.v'))
with open(os.path.join(root, 'rocq', '_CoqProject'), 'w') as f:
    f.write('-Q theories Verif\n' + ''.join('theories/%s\n' % x for x in files))
thms = {}
findings = {}
for fn in files:
    if not fn.endswith('Props.v'): continue
    p = os.path.join(th, fn)
    s = open(p).read()
    parts = re.split(r'(?m)^(?=Theorem )', s)
    out = [parts[0]]
    for part in parts[1:]:
        name = re.match(r'Theorem (\w+)', part).group(1)
        m = re.search(r'Qed\.\n?', part)
        if 'Print Assumptions %s.' % name not in s:
            part = part[:m.end()].rstrip('\n') + '\nPrint Assumptions %s.\n' % name + part[m.end():]
        out.append(part)
        thms.setdefault(name[:3], []).append(name)
        if name.endswith('_refuted'):
            pre = s[:s.index('Theorem %s ' % name) if 'Theorem %s ' % name in s else s.index('Theorem ' + name)]
            c = re.findall(r'\(\*\*(.*?)\*\)', pre, re.S)
            c = re.sub(r'\s+', ' ', c[-1]).strip() if c else ''
            c = re.sub(r'^(C\d+ )?\(?[Ff]inding(\s*\([^)]*\))?\)?:?\s*', '', c)
            c = re.sub(r'^C\d+ \(finding\):\s*|^C\d+ finding:\s*', '', c)
            findings.setdefault(name[:3], []).append('%s (%s)' % (c, name))
    s2 = ''.join(out)
    if s2 != s: open(p, 'w').write(s2)
notes = json.load(open(os.path.join(root, 'tools', 'notes.json')))
props = [json.loads(l)['id'] for l in open(os.path.join(root, 'properties.jsonl')) if l.strip()]
claims = []
for pid in props:
    n = notes.get(pid, {})
    t = thms.get(pid, [])
    st = n.get('status', 'proved' if t else 'partial')
    claims.append({'property': pid, 'status': st, 'theorems': t, 'note': (n.get('note', 'Proved for the conditions in the theorems.' if t else 'not yet modelled') + (' Deviations of the code from the plain reading, proved by witness: ' + ' '.join(findings[pid]) if pid in findings else ''))})
json.dump({'claims': claims}, open(os.path.join(root, 'MANIFEST.json'), 'w'), indent=1, ensure_ascii=False)
missing = [p for p in props if p not in thms]
unknown = [p for p in thms if p not in props]
print('properties', len(props), 'theorems', sum(map(len, thms.values())), 'missing', missing, 'unknown', unknown)
