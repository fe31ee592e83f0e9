#!/bin/sh
# add theory files to _CoqProject
for f in "$@"; do grep -q "theories/$f.v" /verif/rocq/_CoqProject || echo "theories/$f.v" >> /verif/rocq/_CoqProject; done
