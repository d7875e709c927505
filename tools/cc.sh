#!/bin/bash
# cc.sh File [timeout]: compile with timeout; on timeout report last sentence
cd /verif/rocq
timeout ${2:-120} coqc -Q theories Verif -time theories/$1.v > /tmp/w/cc.out 2>&1; r=$?
if [ $r = 124 ]; then echo TIMEOUT; tail -2 /tmp/w/cc.out; exit 1; fi
grep -v '^Chars' /tmp/w/cc.out | head -${3:-60}
awk '/^Chars/{for(i=1;i<=NF;i++) if($i=="secs") t=$(i-1); if (t>3) print}' /tmp/w/cc.out | head
exit $r
