#!/bin/sh
# Regenerates rocq/_CoqProject from the files present.
cd "$(dirname "$0")/../rocq" || exit 1
{ echo "-Q theories Verif"; ls theories/Model/*.v theories/Spec/*.v theories/Proofs/*.v theories/Properties/*.v; } > _CoqProject
coq_makefile -f _CoqProject -o Makefile
