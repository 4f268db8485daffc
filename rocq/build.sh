#!/bin/sh
# Regenerates the file list of _CoqProject and builds everything.
cd "$(dirname "$0")" || exit 1
{ echo "-Q theories Verif"; find theories -name '*.v' | LC_ALL=C sort; } > _CoqProject
coq_makefile -f _CoqProject -o Makefile && make -j4 "$@"
