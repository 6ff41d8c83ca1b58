#!/bin/sh
# Recompile every *Props.v (the rest must be built) and print the assumptions of
# any theorem that is not closed.  Prints the number of closed theorems.
cd "$(dirname "$0")/../rocq" || exit 1
tmp=$(mktemp -d)
for f in theories/*Props.v; do
  coqc -Q theories Verif -o "$tmp/$(basename "$f" .v).vo" "$f"
done | grep -v '^Closed under the global context$' ; rm -rf "$tmp"
grep -h '^Print Assumptions' theories/*Props.v | wc -l
