#!/usr/bin/env python3
"""Lists, for every function of /repo/pdf2docx, whether some definition of the model cites its lines."""
import ast, re, glob, os, sys
R = '/repo/pdf2docx/'
funcs = {}
for f in glob.glob(R + '**/*.py', recursive=True):
    rel = f[len(R):]
    t = ast.parse(open(f, encoding='utf-8').read())
    def walk(n, pre):
        for c in ast.iter_child_nodes(n):
            if isinstance(c, ast.ClassDef): walk(c, pre + c.name + '.')
            elif isinstance(c, (ast.FunctionDef,)):
                lo = min([c.lineno] + [d.lineno for d in c.decorator_list])
                funcs.setdefault(rel, []).append((pre + c.name, lo, c.end_lineno)); walk(c, pre + c.name + '.')
            else: walk(c, pre)
    walk(t, '')
by = {}
for rel in funcs: by.setdefault(os.path.basename(rel), []).append(rel)
cites = {}
for v in sorted(glob.glob('/verif/rocq/theories/*.v')):
    s = open(v).read(); vn = os.path.basename(v)[:-2]
    for m in re.finditer(r'((?:[\w.]+/)*\w+\.py):\s*((?:\d+(?:\s*-\s*\d+)?(?:,\s*|\s+and\s+)?)+)', s):
        p = m.group(1).replace('pdf2docx/', '')
        rels = [r for r in by.get(os.path.basename(p), []) if r.endswith(p)]
        for a, _, b in re.findall(r'(\d+)(\s*-\s*(\d+))?', m.group(2)):
            for r in rels: cites.setdefault(r, []).append((int(a), int(b or a), vn))
for rel in sorted(funcs):
    yes, no = [], []
    for n, lo, hi in funcs[rel]:
        c = sorted({v for a, b, v in cites.get(rel, []) if a <= hi and b >= lo})
        (yes if c else no).append(n)
    print('* `%s`: %d of %d functions.' % (rel, len(yes), len(yes) + len(no)) + (' Not modelled: ' + ', '.join('`%s`' % x for x in no) + '.' if no else ''))
