#!/bin/sh
# usage: tools/addfiles.sh Name...   append modules to rocq/_CoqProject
cd "$(dirname "$0")/../rocq" || exit 1
for f in "$@"; do grep -qx "theories/$f.v" _CoqProject || echo "theories/$f.v" >> _CoqProject; done
coq_makefile -f _CoqProject -o Makefile
