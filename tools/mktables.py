#!/usr/bin/env python3
"""Transcribe the lookup tables of /repo/src/posit8_tbl.cpp and posit12_tbl.cpp into Coq data files.

Each table becomes a list of rows; a row is one hexadecimal number holding COLS entries of W bits,
entry number c of the row in bits W*c .. W*c+W-1."""
import re

def load(fn):
    t = {}
    lines = open(fn).read().split('\n')
    s = '\n'.join(lines)
    for m in re.finditer(r'\w+\s+(op\w+)\[\]\s*=\s*\{(.*?)\}', s, re.S):
        line = s[:m.start()].count('\n') + 1
        t[m.group(1)] = (line, [int(x) for x in m.group(2).split(',') if x.strip()])
    return t

def emit(out, src, tables, cols):
    t = load('/repo/src/' + src)
    f = open('/verif/rocq/theories/' + out, 'w')
    f.write('(** Generated by tools/mktables.py from /repo/src/%s. Rows of %d entries, entry [c] of a row\n'
            '    in bits w*c .. w*c+w-1, two\'s complement. *)\n' % (src, cols))
    f.write('From Coq Require Import ZArith List.\nImport ListNotations.\nOpen Scope Z_scope.\n')
    for name, w in tables:
        line, vals = t[name]
        f.write('\n(** src/%s %d-%d: %s, %d entries of %d bits. *)\n' % (src, line, line + 1, name, len(vals), w))
        f.write('Definition %s_rows : list Z := [\n' % name)
        rows = []
        for i in range(0, len(vals), cols):
            z = 0
            for c, v in enumerate(vals[i:i + cols]):
                z |= (v & ((1 << w) - 1)) << (w * c)
            rows.append('  0x%x' % z)
        f.write(';\n'.join(rows) + '].\n')
    f.close()

emit('Tbl8.v', 'posit8_tbl.cpp', [('opadd', 8), ('opmul', 8), ('opdiv', 8), ('opinv', 8), ('opsquare', 8),
                                  ('opexp2', 8), ('ophalf', 8), ('op2float', 32)], 256)
emit('Tbl12.v', 'posit12_tbl.cpp', [('opinv', 16), ('opsquare', 16), ('opexp2', 16), ('op2float', 32)], 64)
