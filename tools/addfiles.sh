#!/bin/bash
# list every theory file in _CoqProject in dependency order
cd /verif/rocq
{ echo "-Q theories Verif"; coqdep -Q theories Verif -sort theories/*.v 2>/dev/null | tr ' ' '\n' | grep '\.v$'; } > /tmp/cp && cp /tmp/cp _CoqProject
wc -l _CoqProject
