#!/usr/bin/env python3
"""Transcribe src/qdlib/cfd_table_{1,2}.h into rocq/theories/Model/Tables.v (usage: tables.py <repo>)."""
import os, re, sys
from decimal import Decimal
repo = sys.argv[1]
out = os.path.join(os.path.dirname(os.path.abspath(__file__)), '..', 'rocq/theories/Model/Tables.v')
rows = {}
for d, name in ((0, 'cfd_table_1.h'), (1, 'cfd_table_2.h')):
    for l in open(os.path.join(repo, 'src/qdlib', name)):
        m = re.match(r'_cfc\[(HOFD_MAXORDER/2\+)?(\d+)\]\[(\d+)\] = (.*);', l)
        if m:
            sign, digits, exp = Decimal(m[4]).as_tuple()
            v = int(''.join(map(str, digits)))
            rows.setdefault((25 if m[1] else 0) + int(m[2]), {})[int(m[3])] = (-v if sign else v, -exp)
with open(out, 'w') as f:
    f.write('''(** The finite difference coefficients of src/qdlib/cfd_table_1.h (rows 0-24, all lines) and cfd_table_2.h (rows 25-49,
    all lines), generated by tools/tables.py from the C++ text.  (m, k) is the decimal literal m * 10^-k.  The literals
    are taken exactly; their rounding to double is not modelled.  Elements of _cfc not assigned in these files are 0
    (HOFD.h:103-105). *)
From Coq Require Import List ZArith QArith.
Import ListNotations.

Definition cfd_rows : list (list (Z * Z)) := [
''')
    f.write(';\n'.join('  [' + '; '.join('(%d, %d)%%Z' % rows[r][j] for j in sorted(rows[r])) + ']' for r in sorted(rows)))
    f.write('''
].

Definition dec_q (x : Z * Z) : Q := fst x # Z.to_pos (10 ^ snd x)%Z.
Definition cfd_table : list (list Q) := map (fun r => map dec_q r ++ repeat (0#1) (26 - length r)) cfd_rows.
''')
    assert sorted(rows) == list(range(50))
    for r in rows: assert sorted(rows[r]) == list(range(r % 25 + 2)), r
    for r in rows:
        for v in rows[r].values(): assert v[1] >= 0
