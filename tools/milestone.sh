#!/bin/sh
# build, regenerate the manifest, commit, check
cd /verif/rocq && coq_makefile -f _CoqProject -o Makefile && timeout 2400 make -j4 2>&1 | grep -v "^COQC\|Closed\|^COQDEP\|make\[" 
python3 /verif/tools/gen_manifest.py; cd /verif; git add -A; git commit -qm "$1"; vcheck | tail -30
