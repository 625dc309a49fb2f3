#!/bin/sh
timeout ${TCOQC:-240} coqc "$@"; r=$?
if [ $r = 124 ]; then for a in "$@"; do l=$a; done; echo "TIMEOUT $l" >&2; fi
exit $r
