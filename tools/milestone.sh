#!/bin/bash
# usage: milestone.sh "message": regenerate lists, build, commit, vcheck
set -e
cd /verif && python3 tools/gen_props.py && python3 tools/gen_manifest.py | grep -v ^check
cd rocq && coq_makefile -f _CoqProject -o Makefile && make -j4 2>&1 | grep -E "Error|error|rror:"  || true; cd ..
python3 tools/gen_assumptions.py >/dev/null; python3 tools/gen_design.py
git add -A && git commit -qm "$1" && vcheck | tail -${2:-25} | grep -o "manifest_status.*" | cut -c1-400
