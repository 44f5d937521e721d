#!/usr/bin/env python3
"""The flux kernels of /repo are written three times, once per index direction, and the model has one
definition per kernel.  This script checks on the text that the j and k copies are the i copy with the
direction renamed (arrays iF/isx/ix/iS -> jF/..., the shifted index moved to its own place, the name of the
face-normal velocity U/V/W), so that one definition covers all three.
Usage: directions.py [repo]; prints the statements that differ."""
import re, sys, difflib
R = (sys.argv[1] if len(sys.argv) > 1 else '/repo') + '/src/compute/advFlux/'

def norm(block, d):
    t = '\n'.join(block)
    t = re.sub(r'//[^\n]*', ' ', t)
    t = re.sub(r'"[^"]*"', '""', t)
    t = re.sub(r'\b%s(F|s[xyz]|S|c[xyz]|n[xyz])\b' % d, r'A\1', t)
    t = re.sub(r'\brange_%s\b' % d, 'range', t)
    pos = 'ijk'.index(d)
    def f(m):
        sh = ''
        for n, (a, b) in enumerate(zip(m.groups(), 'ijk')):
            a = a.replace(' ', '')
            if a == b:
                continue
            sh = a[1:] if n == pos and a[0] == b else 'WRONG' + a
        return '(C' + sh
    t = re.sub(r'\(\s*(i[^,()]*),\s*(j[^,()]*),\s*(k[^,()]*)(?=[,)])', f, t)
    t = re.sub(r'\b%s\b' % 'UVW'[pos], 'Vn', t)
    # the upper bound of the faces is one larger in its own direction
    own = ['b.n%s + b.ng%s' % (x, '' if x == d else ' - 1') for x in 'ijk']
    t = t.replace('{' + ', '.join(own) + '}', '{OWN}')
    return [s for s in re.sub(r'\s+', ' ', t).split(';')]

bad = 0
for fn in ['KEEP.cpp', 'KEEPpe.cpp', 'KEPaEC.cpp', 'centralDifference.cpp', 'fourthOrderKEEP.cpp', 'hllc.cpp',
           'rusanov.cpp', 'ausmPlusUp.cpp', 'muscl2hllc.cpp', 'muscl2rusanov.cpp', 'scalarDissipation.cpp']:
    L = open(R + fn).read().split('\n')
    s = [n for n, l in enumerate(L) if re.search(r'MDRange3? *range_\w\(|MDRange3 range_', l)]
    if len(s) != 3:
        print(fn, 'has', len(s), 'ranges (one loop serves all directions)')
        continue
    s.append(len(L))
    ns = [norm(L[s[a]:s[a + 1]], 'ijk'[a]) for a in range(3)]
    # what stands before the first loop only declares constants
    for q in (1, 2):
        for l in difflib.unified_diff([x.strip(' }') for x in ns[0]], [x.strip(' }') for x in ns[q]], lineterm='', n=0):
            if l[:3] in ('---', '+++') or l[:2] == '@@' or l[1:].strip().startswith(('const int order', 'const double aq', 'constexpr')):
                continue
            print(fn, 'ijk'[q], l[:160]); bad += 1
print('differences:', bad)
