#!/bin/bash
# build, manifest, commit, vcheck
cd /verif/rocq && coq_makefile -f _CoqProject -o Makefile && timeout 1800 make -j4 2>&1 | grep -B2 -A8 "Error" && exit 1
cd /verif && python3 tools/props.py && python3 tools/manifest.py | tail -3 && git add -A && git commit -qm "$1" && vcheck | tail -1 | grep -o '"manifest_status.*'
