"""Generate rocq/theories/SpectraData.v from the shipped T-T spectra file (exact decimal values)."""
import re
src = '/repo/tokamak_neutron_source/data/spectra/T_T_spectra.txt'
out = '/verif/rocq/theories/SpectraData.v'
lines = open(src).read().split('\n')
rows = [(i + 1, l.split()) for i, l in enumerate(lines) if l.strip() and not l.startswith('#')]
def dec(t):  # 0.ddddddddddddE+xx -> (mantissa, exponent) with value mantissa * 10^-exponent
    m = re.fullmatch(r'0\.(\d{12})E([+-]\d+)', t)
    a, e = int(m.group(1)), 12 - int(m.group(2))
    while a and a % 10 == 0: a //= 10; e -= 1
    assert e >= 0 or True
    if e < 0: a *= 10 ** (-e); e = 0
    return a, e
with open(out, 'w') as f:
    f.write(f'''(** The shipped T-T neutron spectra, generated by tools/mkspec.py: every value of the file, exactly.
    A value [V m e] is m * 10^-e. Energies in MeV, spectra in 1/MeV, one per temperature. *)
From Coq Require Import ZArith List.
Import ListNotations.

Inductive dec := V (m : Z) (e : N).

(** /repo/tokamak_neutron_source/data/spectra/T_T_spectra.txt:{rows[0][0]}-{rows[-1][0]} *)
''')
    for k in range(0, len(rows), 50):
        f.write(f'Definition tt_part{k // 50} : list (dec * list dec) := [\n')
        f.write(';\n'.join('(V %d %d, [%s])' % (*dec(r[0]), '; '.join('V %d %d' % dec(t) for t in r[1:])) for _, r in rows[k:k + 50]))
        f.write('].\n')
    f.write('Definition tt_rows : list (dec * list dec) :=\n  ' + ' ++ '.join(f'tt_part{k}' for k in range(len(rows) // 50)) + '.\n')
