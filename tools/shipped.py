#!/usr/bin/env python3
"""Generate rocq/theories/DataShipped.v: the text of three data files of /repo/src/runtime and their records."""
import re
D = '/repo/src/runtime/'
def lines(f):
    t = open(D + f).read()
    ls = t.split('\n')
    return ls[:-1] if ls[-1] == '' else ls
def q(s): return '"' + s.replace('"', '""') + '"'
def ztxt(v): return str(int(v)) if int(v) >= 0 else '(%d)' % int(v)
o = ['''(** The shipped data files, generated by tools/shipped.py: the text of src/runtime/ionlist.dat (lines 1-107), src/runtime/nsftable.dat
    (lines 1-400) and src/runtime/f0_WaasKirf.dat (lines 1-913), and the records that are in them. *)
From Coq Require Import List ZArith String.
Import ListNotations.
Open Scope list_scope.
''']
def text(name, f):
    o.append('(** src/runtime/%s *)' % f)
    o.append('Definition %s : list string := [\n%s]%%string.' % (name, ';\n'.join(q(l) for l in lines(f))))
text('ionlist_dat', 'ionlist.dat')
rs = [l.split() for l in lines('ionlist.dat') if l.strip() and not l.startswith('#')]
o.append('(** symbol, atomic number, charges; src/runtime/ionlist.dat *)')
o.append('Definition shipped_ions : list (string * Z * list Z) := [\n%s]%%Z.' % ';\n'.join('(%s%%string, %s, [%s])' % (q(w[0]), ztxt(w[1]), '; '.join(ztxt(v) for v in w[2:])) for w in rs))
text('nsftable_dat', 'nsftable.dat')
rs = []
for l in lines('nsftable.dat'):
    if l == '' or l.startswith('#'): continue
    w = l.split(',')
    if w[3] == '': continue
    m = re.match(r'^(\d+)-([A-Za-z]+)(?:-(\d+))?$', w[0])
    rs.append((m.group(1), m.group(2), m.group(3), w[1], w[3]))
o.append('(** atomic number, symbol, mass number and abundance or half-life of an isotope, scattering length; src/runtime/nsftable.dat *)')
o.append('Definition shipped_neutrons : list (string * string * option (string * string) * string) := [\n%s]%%string.' % ';\n'.join(
    '(%s, %s, %s, %s)' % (q(z), q(el), 'None' if a is None else 'Some (%s, %s)' % (q(a), q(life)), q(b)) for z, el, a, life, b in rs))
text('waaskirf_dat', 'f0_WaasKirf.dat')
rs = []
ls = lines('f0_WaasKirf.dat')
sym = None
for i, l in enumerate(ls):
    if l.startswith('#S'): sym = l.split()[2]
    if l.startswith('#L'): rs.append((sym, ls[i + 1].split()))
o.append('(** symbol and the eleven numbers; src/runtime/f0_WaasKirf.dat *)')
o.append('Definition shipped_formulas : list (string * list string) := [\n%s]%%string.' % ';\n'.join('(%s, [%s])' % (q(s), '; '.join(q(x) for x in w)) for s, w in rs))
open('/verif/rocq/theories/DataShipped.v', 'w').write('\n'.join(o) + '\n')
