#!/bin/bash
# build quickly and show errors only
cd ${1:-/verif/rocq} && coq_makefile -f _CoqProject -o Makefile >/dev/null && timeout 600 make -j4 2>&1 | grep -v '^COQ\|^Axioms:\|^Closed\|^ClassicalDed\|^FunctionalExt\|^  : \|^Classical_Prop\|^make\|^sig_\|^functional_ext' | grep -v "^    (forall\|^    {n : nat" | tail -${2:-30}
