#!/usr/bin/env python3
"""Generate rocq/theories/XsData.v from /repo's cross-section files (decimal digits kept exactly)."""
from decimal import Decimal
D='/repo/tokamak_neutron_source/data/cross_sections/'
out=['(** The shipped cross-section files, generated by tools/mkxs.py: every line of the file is kept.',
'    Energies in units of 1e-9 MeV, cross sections in units of 1e-43 barn (both exact). *)',
'From Coq Require Import ZArith List.','Import ListNotations.','Local Open Scope Z_scope.','',
'(** A line of a text file as np.genfromtxt sees it: nothing left after the comment sign, a row with the',
'    two columns, or a line with another number of columns. *)',
'Inductive line := Comment | Row (energy sigma : Z) | Bad.','']
for nm,f in [('TT','T_T_He_2n'),('DT','D_T_He_n'),('DDp','D_D_T_p'),('DDn','D_D_He3_n'),('DHe3','D_He3_He_p')]:
    ls=open(D+f+'.txt').read().splitlines()
    items=[]
    for l in ls:
        w=l.split('#')[0].split()
        if not w: items.append('Comment')
        elif len(w)==2:
            e=Decimal(w[0])*10**9; s=Decimal(w[1])*10**43
            assert e==int(e) and s==int(s)
            items.append(f'Row {int(e)} {int(s)}')
        else: items.append('Bad')
    out.append(f'(** /repo/tokamak_neutron_source/data/cross_sections/{f}.txt:1-{len(ls)} *)')
    out.append(f'Definition lines_{nm} : list line := [')
    out.append(';\n'.join(items)); out.append('].\n')
open('/verif/rocq/theories/XsData.v','w').write('\n'.join(out))
