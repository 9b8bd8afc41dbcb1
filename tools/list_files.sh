#!/bin/sh
# Regenerates rocq/_CoqProject: the flags line plus every theories/*.v file.
cd "$(dirname "$0")/../rocq" || exit 1
{ echo "-Q theories Verif"; ls theories/*.v; } > _CoqProject
