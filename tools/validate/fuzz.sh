#!/bin/sh
# fuzz.sh json|text|files [seed [cases]]: compares the extracted model of JSON texts (json_loads,
# json_dumps, str()), of int, float, str.strip and the regular expressions, or of the file system (os.path, os.makedirs, open) with Python's own modules on
# random inputs.  Nothing of /repo is run.  Needs the compiled theories and ocamlfind; works in /tmp.
set -e
here=$(cd "$(dirname "$0")" && pwd)
mkdir -p /tmp/spine_fuzz_$1 && cd /tmp/spine_fuzz_$1
cp "$here/$1/Ex.txt" Ex.v; cp "$here/$1/drv.txt" drv.ml; cp "$here/$1/fuzz.py" .
coqc -Q /verif/rocq/theories Verif Ex.v
rm -f model.mli
ocamlfind ocamlopt -w -a model.ml drv.ml -o drv
python3 fuzz.py "${2:-1}" "${3:-4000}"
