#!/bin/bash
# show.sh File line : print goals after the first <line> lines
cd /verif/rocq
head -n $2 theories/$1.v > /tmp/w/Show_$1.v
echo "Show. " >> /tmp/w/Show_$1.v
timeout 100 coqtop -Q theories Verif -l /tmp/w/Show_$1.v < /dev/null 2>&1 | tail -${3:-60}
