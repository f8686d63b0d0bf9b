#!/bin/sh
# Runs the extracted model on the test documents of /repo and compares with the results
# the repository's own tests expect (spine_json_lib/test/test_spine_animation_editor.py).
# Needs the compiled theories (make in /verif/rocq) and ocamlfind; works in /tmp only.
set -e
here=$(cd "$(dirname "$0")" && pwd)
mkdir -p /tmp/spine_validate && cd /tmp/spine_validate
cp "$here/ext.txt" ext.v; cp "$here/main.txt" main.ml
coqc -Q /verif/rocq/theories Verif ext.v
rm -f m.mli
ocamlfind ocamlopt -w -a m.ml main.ml -o t
ulimit -s unlimited
./t
