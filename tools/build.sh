#!/bin/bash
# regenerate _CoqProject from theories/ and build
cd "$(dirname "$0")/../rocq" || exit 1
{ echo "-Q theories Verif"; ls theories/*.v; } > _CoqProject
coq_makefile -f _CoqProject -o Makefile >/dev/null && timeout ${T:-800} make -j4 2>&1 | grep -v -e '^COQC' -e '^COQDEP' -e 'Closed under'
