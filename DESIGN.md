# Formal model of spine-json-lib in Rocq (Coq 8.16.1)

Target: `/repo` (Python 2/3 source of spine-json-lib). Nothing in `/repo` is run; the model was
written by reading it. Standard library only, no axioms, no functors, no plugins.

## Build

    cd rocq && coq_makefile -f _CoqProject -o Makefile && make -j4

The property theorems are in the files `Prop*.v`: each is one `Theorem` proved by `exact` of a lemma
from a `*Facts.v`/`Editor*.v`/`Graph*.v` file, followed by `Print Assumptions`, and by `Example`s that
run the model on a concrete case meeting the hypotheses (so that no theorem is vacuous).
`properties.jsonl` states the properties in words, `MANIFEST.json` maps them to theorems.
A property that is false of the code has a theorem `…_refuted` (an `exists` with a computed witness),
and a further property (C54 onwards) that states exactly what does hold.

## How the model is built

* **Exceptions are values.** `res A = Ok | Err`; code that mutates an object and may raise is in a
  state+exception monad `M S A = S -> S * res A` that keeps the partly changed state when it raises.
* **Dictionaries** are insertion-ordered association lists with Python's assignment rule (an
  overwritten key keeps its place). **frozensets** are lists; wherever the code iterates over a set
  the order comes from a parameter `enum` over which the theorems quantify (C51).
* **Numbers**: `int` is `Z`, `float` is IEEE binary64 (`Coq.Floats.SpecFloat`, computable, axiom free);
  `int == float`, `*`, `int(s)`, `int(s,16)` and `float(s)` are defined in `PyNum.v`.
* **Strings** are byte strings: the UTF-8 encoding of the Python string. A byte at which no UTF-8
  character begins stands for the lone surrogate that `surrogateescape` uses. `int()`, `float()` and the
  regular expressions see a string through `folded` (`Unicode.v`), which replaces every character outside
  ASCII by one of its class: digits of any script by 0-9, blanks, letters, the rest. The tables of these
  classes (`UnicodeTables.v`, written by `tools/gen_unicode.py`) are those of Unicode 14 (Python 3.11).
* **Loops**: recursion on the data where possible; otherwise fuel, and theorems show that the fuel
  suffices or speak about `EDiverges` explicitly (C36/C68: the only loop that can run forever).
* **Objects**: two models. The main one has value semantics; it assumes that the JSON given by the
  caller is a tree (as `json.load` returns it). `Heap.v` is a separate model with object identity
  for what is shared between caller, editor and class constants (C53, C87, C88).
* **Element classes**: `Classes.v` has the 28 classes as tables and the traversals written out for the
  shape of a document. Two independent transcriptions guard against errors: `tools/gen_tables.py`
  reads the tables from the source text (`SpecTables.v`, compared by `C89_declared`/`C07_declared`),
  and `Traverse.v` mirrors the generic, reflective traversals of `base_type.py` on objects of any
  shape, which `C90_*` proves to do the same.

Every definition of a model file cites the source lines it mirrors. The `Spec*.v` files hold the
notions the theorems are stated with; they do not use the model's functions except to read attributes.

## Files (`rocq/theories/`)

| model file | models |
|---|---|
| `PyBase.v`, `PyNum.v`, `Json.v` | Python notions: exceptions, dicts, sets, string methods, numbers, JSON values |
| `Unicode.v`, `UnicodeTables.v` (generated) | UTF-8, classes of characters |
| `Repr.v` | `repr` of floats and strings |
| `Version.v`, `VersionOps.v` | `data/spine_version_type.py`, `data/constants.py` |
| `Tags.v` | `utils.py` (tags in names) |
| `Classes.v` | `data/data_types/*.py`, construction part of `data/spine_anim_data.py` |
| `Traverse.v`, `Elements.v` | `data/data_types/base_type.py` on arbitrary objects and for arbitrary classes |
| `DrawOrder.v` | `data/data_types/draworder.py` |
| `AnimData.v` | methods of `data/spine_anim_data.py`, `data_types/slot.py`, `data_types/animation.py` |
| `Graph.v` | `graph/spamnode.py`, `factories.py`, `dagraph.py`, `graph_validator.py` |
| `Nodes.v` | `SpamNode` as a value, `AnimationEraserResult` |
| `SpineGraph.v` | `deserializer/spine_nodes.py`, `spine_graph_container.py` |
| `Editor.v` | `spine_animation_editor.py` |
| `JsonText.v` | `json.load`, `json.dumps` and `json.dump` as the library calls them |
| `Files.v` | the calls that read or write files; file system as `os` and `open` see it |
| `Cast.v` | `utils.py` (`cast_element`) |
| `Heap.v` | `copy.deepcopy`, loading and export with object identity |

| specification | used for |
|---|---|
| `SpecVersion.v`, `SpecTags.v` | C01, C02, C04, C05 |
| `SpecVersionOps.v` | C123, C124 |
| `SpecGraphJson.v` | C125 |
| `SpecAnim.v` (`stops_at`), `SpecFail.v` | C126–C129 |
| `SpecLoad.v` | C130, C131 |
| `SpecContainer.v`, `SpecRefs.v` | C132, C133 |
| `SpecAgain.v` (with `SpecFail.v`) | C135 |
| `SpecAny.v` (with `SpecFail.v`, `SpecReload.v`) | C136–C140 |
| `SpecCare.v` | C141 (C142, C145–C148, C153 use `SpecAny.v`) |
| `SpecTables.v` (generated), `SpecDoc.v`, `SpecTraverse.v` | C03, C06-C11, C55-C58, C89, C90 |
| `SpecForeign.v`, `SpecElements.v` | C149, C150, C151 |
| `SpecScale.v` | C152 |
| `SpecRescale.v` | C154, C155 |
| `SpecGraph.v`, `SpecSpine.v` | C12-C27, C59-C61, C63 |
| `SpecAnim.v`, `SpecDraw.v` | C28-C39, C62, C64-C68 |
| `SpecEditor.v`, `SpecErase.v` | C31, C40-C52, C69-C86, C109-C116 |
| `SpecText.v`, `SpecUnicode.v`, `SpecFloats.v`, `SpecNums.v`, `SpecCast.v` | C91-C96, C119 |
| `SpecProduct.v` | C120 (and the scales in C48, C76) |
| `SpecFiles.v` | C97-C103 |
| `SpecReload.v` | C104, C105 |
| `SpecNumbers.v` | C106, C107 |
| `SpecOffsets.v` | C108 |
| `SpecHeap.v` | C53, C87, C88 |
| `SpecLayout.v` | C117 |
| `SpecRepr.v` | C121, C122 (and floats in C117) |
| `SpecEqual.v` | C118 |

All other files hold lemmas (first comment of each file says which) and the `Prop*.v` theorems.

## Trusted base

1. The Coq 8.16.1 kernel (with `vm_compute`, used for examples and witnesses) and the build tools.
2. `Print Assumptions` prints "Closed under the global context" for **every** theorem listed in
   `MANIFEST.json`: no axiom of the standard library is used. (`coqchk -o` lists the module-type
   parameters `Coq.ssr.ssrunder.Under_rel.*` of the standard library, which are loaded with the
   prelude; no theorem depends on them.)
3. That the model says what the code does: read function by function, see the citations. Nothing was
   executed. The tables of the classes are checked against the source text by `tools/gen_tables.py`
   (trusted: Python's `ast` and that script) only for generation; the comparison itself is a theorem.
4. The rules of Python written down in `PyBase.v`, `PyNum.v`, `Unicode.v`, `Repr.v`, `Json.v`, `JsonText.v`, `Files.v`,
   and the Unicode tables.

The model was compared with other sources (none of this is part of the proofs):

* `Conform.v` has the repository's unit tests as `Example`s on the model.
* `tools/validate/run.sh` extracts the model, runs it on the test documents of the repository and
  compares with the results its tests expect.
* `tools/validate/fuzz.sh json` compares the JSON reader and writer, `fuzz.sh text` `int`, `float`,
  `str.strip` and the regular expressions, and `fuzz.sh files` the file system, with Python's own
  `json`, builtins, `re`, `os` and `open` on random inputs (9000, 150000 and 16000 cases, no
  difference). Only Python's standard library is run.

### Not modelled

* texts of exceptions (kept: the kind, and the attribute names of SpineParsingException), printed
  messages, Python's recursion limit, memory and time;
* the wrapper `ErasingResult` (its fields are the result),
  the abstract classes `IGraphParser`, `INodeFactory`, `SpamNode.state`;
* other encodings than UTF-8 for files (the library writes ASCII), and strings with lone surrogates that
  are not as above;
* symbolic links, permissions, full disks, name lengths and other processes in the file system;
* Python's limit on the number of digits of `int(str)` (4300).

### Inputs outside the model

Where the model would have to describe Python behaviour it does not contain it returns the error
`EUnmodelled`; theorems that speak of success are not affected, and theorems that speak of failure
name their error or exclude this one. The inputs are: names (of bones, slots, skins, attachments, …)
that are neither strings nor null; a list where the code expects a dictionary, if its elements are all
ints in range, since the result is a dictionary with ints as keys (every other list, string or number
fails, and that is modelled); an empty list or string as attachments; a node factory that returns None; a JSON text with an
escape of a half of a surrogate pair (`C93_refused`). All of this concerns loading: the calls on a loaded
editor never return `EUnmodelled`, nor `EDiverges`, also after calls that failed (`C129_exceptions`, `C136_raises`).

## What was found

False as first stated, with witnesses (the exact statement that holds is in brackets):
C02 comparisons are component-wise, `4.0 >= 3.8` is False [C54]; C03 the clean-up for old versions
never runs [C55]; C08 null keyframe name is exported [C56]; C09, C10 exports that cannot be read back
or that change [C57]; C11 point, clipping, boundingbox and region attachments are refused [C58];
C19 ids off the cycle are reported [C59]; C22 order not topological, heads listed twice [C60, C61];
C23 names containing `_KIND` are cut [C63]; C31 a visible mesh goes with another attachment of its name
[C80]; C32 TypeError in the analysis [C64]; C34 linked mesh replaced by the wrong attachment [C66];
C36 a cycle of bones makes loading run forever [C68]; C38 zero offsets are dropped [C62]; C41, C84 a
refused erase has effects [C69, C82]; C42, C43 references left [C70, C71]; C44, C49 scaling is undone
[C72, C77]; C45, C46, C86 images_references wrong for odd or shared names [C73, C74, C85]; C48 root is
scaled twice [C76]; C50 a second clean-up can remove more [C78]; C52 version 4.0 is taken for old [C79];
C95 casts to boolean that give a string [C96]; C99 saving to a bare file name always fails [C100];
C104 exports that cannot be loaded again [C105]; C112 erasing skins in two calls keeps more images
[C113]; C115 scaling after erasing skins is undone by a clean-up, before is not [C116, C77];
C134 a failed clean-up makes later ones fail [C135]; C139 after a failed clean-up the next one can drop images
that are needed [C140–C142]; C151 `get` of an element can return a method instead of the default;
C154 a scale of 1 comes back as 1.0 and scales differently.

## Mutation testing

`tools/mutate.py` edits one definition in a scratch copy and replays only the proofs between it and
the theorems (by the dependencies recorded in the `.glob` files). `seeded/LOG.jsonl` has one line per
attempt: definition, edit, claim that becomes false, theorems that failed, theorems tightened.
A theorem counts as failed if its proof, or that of a lemma it rests on, no longer checks. This does
not show that the theorem itself is false of the edited program; an equivalent edit can break a proof
too (`p25`). `failed_lemmas` has the proofs that were seen to fail. The check stops once an expected
theorem is reached, so other theorems may fail as well. A file that is not checked in time counts for
nothing: such lines have no failed theorems and the note "Stopped by the time limit." (Six lines,
`p2 p3 p5 p19 p25 w2`, once listed theorems only because of the time limit; they were run again.)
