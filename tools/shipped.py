#!/usr/bin/env python3
"""Write rocq/theories/Shipped.v: the files of /repo/config/proxy as terms of type Config.node."""
import glob, re

def lines(path):
    out = []
    for n, l in enumerate(open(path), 1):
        l = l.replace('\t', ' ')
        l = re.sub(r'\s+#.*$', '', l.rstrip('\n')).rstrip()
        if l.strip() and not l.strip().startswith('#'):
            out.append((len(l) - len(l.lstrip()), l.strip()))
    return out

def scalar(s):
    s = s.strip()
    if s == '[]': return ('seq', [])
    if len(s) > 1 and s[0] == s[-1] and s[0] in '"\'': s = s[1:-1]
    assert not s.startswith(('[', '{', '&', '*', '|', '>')), s
    return ('scalar', s)

def block(ls, i, ind):
    if ls[i][1].startswith('- '):
        items = []
        while i < len(ls) and ls[i][0] == ind and ls[i][1].startswith('- '):
            ls[i] = (ind + 2, ls[i][1][2:].strip())
            v, i = block(ls, i, ind + 2)
            items.append(v)
        return ('seq', items), i
    m = []
    while i < len(ls) and ls[i][0] == ind:
        k, _, v = ls[i][1].partition(':')
        assert _ == ':'
        i += 1
        if v.strip(): m.append((k.strip(), scalar(v)))
        else:
            assert ls[i][0] > ind
            n, i = block(ls, i, ls[i][0])
            m.append((k.strip(), n))
    return ('map', m), i

def coq(n, d):
    pad = '\n' + ' ' * d
    if n[0] == 'scalar': return 'NScalar "%s"' % n[1]
    if n[0] == 'seq': return 'NSeq [' + '; '.join(coq(x, d + 2) for x in n[1]) + ']'
    return 'NMap [' + (';' + pad).join('("%s", %s)' % (k, coq(v, d + 2)) for k, v in n[1]) + ']'

out = ['''(** * Shipped: the files of /repo/config/proxy

    Written by tools/shipped.py from the files: maps, sequences and scalars as yaml-cpp yields them. *)
From Coq Require String.
From Verif Require Import Base Config.
Import String.StringSyntax.
#[local] Open Scope string_scope.
#[local] Open Scope list_scope.
''']
for path in sorted(glob.glob('/repo/config/proxy/*/*/*.yml')):
    a, b, c = path[len('/repo/config/proxy/'):-4].split('/')
    ls = lines(path)
    n, i = block(ls, 0, 0)
    assert i == len(ls), (path, i, len(ls), ls[i])
    name = '%s_%s_%s' % (a.replace('preshared_public_keys', 'preshared'), b, c)
    out.append('(** %s:1-%d *)\nDefinition %s : node :=\n  %s.\n' % (path[6:], len(open(path).readlines()), name, coq(n, 4)))
open('/verif/rocq/theories/Shipped.v', 'w').write('\n'.join(out))
