"""Transcribe the three .npy files of /repo/spherical_functions into rocq/theories/TableData.v.

A double is written as (M, e), meaning M * 2^e with 2^52 <= M < 2^53, or (0, 0).  The Wigner table has the symmetries
(mp, m) -> (m, mp) and (mp, m) -> (-mp, -m) up to a few entries; only those with |mp| <= m are written (the largest of the
four), and separately every entry of the file that differs from what the symmetries give.
"""
import math
import struct
import sys

def load(name):
    d = open('/repo/spherical_functions/%s.npy' % name, 'rb').read()
    assert d[:6] == b'\x93NUMPY' and b"'<f8'" in d[:128] and b"'fortran_order': False" in d[:128]
    off = 10 + struct.unpack('<H', d[8:10])[0]
    return struct.unpack('<%dd' % ((len(d) - off) // 8), d[off:])

def pair(x):
    if x == 0.0:
        return (0, 0)
    m, e = math.frexp(x)
    M = int(math.ldexp(m, 53))
    assert 2 ** 52 <= M < 2 ** 53 and math.ldexp(M, e - 53) == x
    return (M, e - 53)

def lst(l, ind=''):
    return '[' + (';\n' + ind).join(l) + ']'

def num(p):
    return '(0x%x, %d)' % p if p[1] >= 0 else '(0x%x, (%d))' % p

b, l, w = load('binomial_coefficients'), load('ladder_operator_coefficients'), load('Wigner_coefficients')
out = ['(** Generated by tools/gen_tables.py from the .npy files in spherical_functions/: the doubles of the three tables as [(M, e)], for M * 2^e. *)',
       'Require Import ZArith List.', 'Import ListNotations.', 'Open Scope Z_scope.', '']
out += ['(** spherical_functions/binomial_coefficients.npy, all %d entries in the order of the file *)' % len(b),
        'Definition binomial_file : list (Z * Z) :=\n  ' + lst([num(pair(x)) for x in b], '   ') + '.', '']
out += ['(** spherical_functions/ladder_operator_coefficients.npy, all %d entries in the order of the file *)' % len(l),
        'Definition ladder_file : list (Z * Z) :=\n  ' + lst([num(pair(x)) for x in l], '   ') + '.', '']
pos = {}
i = 0
for t in range(65):
    for mp in range(-t, t + 1, 2):
        for m in range(-t, t + 1, 2):
            pos[t, mp, m] = w[i]
            i += 1
assert i == len(w)
def canon(mp, m):
    if abs(mp) > abs(m):
        mp, m = m, mp
    return (-mp, -m) if m < 0 else (mp, m)
quarter = {}
for (t, mp, m), x in pos.items():
    c = (t,) + canon(mp, m)
    quarter[c] = max(x, quarter.get(c, x))
exceptions = [(k, x) for k, x in pos.items() if x != quarter[(k[0],) + canon(k[1], k[2])]]
rows = []
for t in range(65):
    rows.append(lst([lst([num(pair(quarter[t, mp, m])) for mp in range(-m, m + 1, 2)]) for m in range(t % 2, t + 1, 2)]))
out += ['(** spherical_functions/Wigner_coefficients.npy: for every 2 ell, for every 2 m >= 0, the entries with |mp| <= m; %d in the file *)' % len(w),
        'Definition Wigner_file_quarter : list (list (list (Z * Z))) :=\n  ' + lst(rows, '   ') + '.', '']
out += ['(** The entries of Wigner_coefficients.npy that these symmetries do not give: (2 ell, 2 mp, 2 m) and the double *)',
        'Definition Wigner_file_exceptions : list (Z * Z * Z * (Z * Z)) :=\n  ' + lst(['((%d, (%d), (%d)), %s)' % (k + (num(pair(x)),)) for k, x in exceptions], '   ') + '.']
open('/verif/rocq/theories/TableData.v', 'w').write('\n'.join(out) + '\n')
