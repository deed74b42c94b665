#!/bin/sh
# built snapshot of the last commit for tools/mutate.py
set -e
mkdir -p /tmp/mutsrc
cd /verif && git archive HEAD rocq | tar x -C /tmp/mutsrc
cd /tmp/mutsrc/rocq && coq_makefile -f _CoqProject -o Makefile && make -j3 >/dev/null 2>&1 && echo snapshot ok
