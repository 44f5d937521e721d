#!/bin/sh
# build, manifest, commit, vcheck
cd /verif/rocq && coq_makefile -f _CoqProject -o Makefile && make -j4 2>&1 | grep -E "Error|error|\*\*\*" -B4 
cd /verif && python3 tools/mkprops.py && python3 tools/mkmanifest.py && git add -A && git commit -qm "$1"
vcheck 2>&1 | tail -1
