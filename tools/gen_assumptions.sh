#!/bin/bash
# prints the assumptions of every theorem of MANIFEST.json (needs a finished build in rocq/)
cd /verif/rocq/theories
mkdir -p /tmp/w/asm
for f in Properties_*.v; do
  m=${f%.v}
  { echo "From Verif Require $m."; grep -oE '^(Theorem|Lemma) +C[0-9]{2}_\w+' $f | awk '{print $2}' | while read t; do echo "Goal True. idtac \"@@ $t\". exact I. Qed."; echo "Print Assumptions $m.$t."; done; } > /tmp/w/asm/A_$m.v
done
