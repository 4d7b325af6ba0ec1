#!/bin/sh
# Build quietly, with a time limit for each invocation.
ulimit -v 9000000; cd /verif/rocq && timeout ${1:-600} make -j4 2>&1 | grep -v "^Closed\|COQC\|COQDEP\|^Axioms" | head -${2:-40}
