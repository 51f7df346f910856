#!/usr/bin/env python3
"""Generate rocq/theories/DataBvShipped.v: the text of /repo/src/runtime/bvparm2011sel.cif and its records."""
ls = open('/repo/src/runtime/bvparm2011sel.cif').read().split('\n')
if ls[-1] == '': ls = ls[:-1]
def q(s): return '"' + s.replace('"', '""') + '"'
def z(v): return str(int(v)) if int(v) >= 0 else '(%d)' % int(v)
i = [k for k, l in enumerate(ls) if l.split()[:1] == ['_valence_param_B']][0]
j = next(k for k in range(i + 1, len(ls)) if not ls[k].strip())
def text(name, a, b):
    return '(** src/runtime/bvparm2011sel.cif:%d-%d *)\nDefinition %s : list string := [\n%s]%%string.' % (a + 1, b, name, ';\n'.join(q(l) for l in ls[a:b]))
rs = [l.split() for l in ls[j + 1:] if l.strip() and not l.split()[0].startswith('#')]
o = ['''(** The shipped bond valence parameters, generated by tools/shipped_bv.py: the text of src/runtime/bvparm2011sel.cif and the
    records that are in it. *)
From Coq Require Import List ZArith String.
Import ListNotations.
Open Scope list_scope.
''', text('cif_head', 0, i), text('cif_mark', i, i + 1), text('cif_rest', i + 1, j), text('cif_blank', j, j + 1), text('cif_body', j + 1, len(ls)),
'(** atom, valence, atom, valence, Ro and B; src/runtime/bvparm2011sel.cif *)',
'Definition shipped_bonds : list (string * Z * string * Z * (string * string)) := [\n%s]%%Z.' % ';\n'.join(
    '(%s%%string, %s, %s%%string, %s, (%s%%string, %s%%string))' % (q(w[0]), z(w[1]), q(w[2]), z(w[3]), q(w[4]), q(w[5])) for w in rs)]
open('/verif/rocq/theories/DataBvShipped.v', 'w').write('\n'.join(o) + '\n')
