# Formal model of pcb-tools: design

Source: `/repo/gerber` (python), read as text only; nothing of it is run.
Technique: shallow executable model in Rocq/Coq 8.16.1 (`rocq/theories`), stdlib only.

## Conventions

* **One Gallina function per python function**, branch by branch. Each definition cites file and
  lines; simplifications are stated in that comment.
* **Exceptions are values**: `res A = Ok a | Err e`, with `e` one of the python exception classes
  (`PyBase.v`). Mutation becomes returning the new state, or an explicit heap where sharing matters
  (`HeapModel.v`, `GroupModel.v`). Loops become structural recursion or folds; where a loop has no
  structural measure it gets fuel, running out is an error value of its own, and the theorems exclude it.
* **Text** is `list ascii`. Regular expressions are transcribed literally into a small regex AST and
  run by a total backtracking matcher with python's greedy semantics and named groups (`Regex.v`).
* **Numbers.** Python floats are modelled as exact rationals `Qc` (canonical rationals, Leibniz
  equality). `%`-formatting formats the exact value (round half to even), as python does. `float(text)` and
  `str(float)` are modelled with rounding to 53 bits and an unbounded exponent (`FloatCodec.v`, `ReprModel.v`)
  where the property is about text; otherwise the rounding of arithmetic is idealised away. Geometry with angles
  uses the reals of the standard library.
* **Layout.** `*Model.v` (and `GerberText.v`, `GerberEval.v`, `GerberConv.v`, `ExcellonFile.v`, `Regex.v`) hold
  definitions only; `*Spec.v` the independent vocabulary the properties are stated in; `*Proofs.v` and
  the other files lemmas; `Prop*.v` the property theorems, each with an `Example` meeting its hypotheses and
  `Print Assumptions` beneath.
* **Refutations.** Where the faithful model violates the English property, a theorem
  `..._refuted` gives a witness and a theorem `..._partial` the strongest statement
  found that does hold; MANIFEST marks the property `partial`.
* **Mutation testing.** `seeded/LOG.jsonl` lists edits of the model (realistic bugs), the claim each breaks, the
  first statements which then no longer compile, and theorems tightened because an edit had survived.

## Trusted base

* The Coq 8.16.1 kernel (with `vm_compute`); no plugins beyond the stdlib's tactics (`ring`, `field`, `lia`, `lra`, `nra`).
* No axioms of our own and no library but the standard one. Theorems about text, integers and rationals are closed
  under the global context. Theorems about real numbers depend on axioms of the standard library:
  `ClassicalDedekindReals.sig_forall_dec`, `ClassicalDedekindReals.sig_not_dec`,
  `FunctionalExtensionality.functional_extensionality_dep`, and some on `Classical_Prop.classic`. The last section
  lists them per theorem, as printed by `Print Assumptions`.
* The reading of the python code, and of python's own functions (`float`, `str`, `%`, `split`, `strip`, `re`,
  sorting, `atan2`, `asin`), in the definitions cited below.
* The specifications (`*Spec.v`), which are what the theorems say.

## What is modelled

| python | model | not modelled |
|---|---|---|
| `utils.py` 32-300, 345-458 | NumModel, FmtModel, DetectModel, GeomModel (`rotate_point`), HullModel, AmRenderModel (`nearly_equal`), CenterModel (`sq_distance`), ValidModel (`validate_coordinates`) | |
| `cam.py` 26-260 | SettingsModel, SetStrModel (`__str__`); GerberConv, ExcellonModel (use of settings) | writing the image to a file |
| `common.py` 44-71 | DetectModel | file access |
| `am_read.py`, `am_eval.py` | MacroModel | - |
| `am_statements.py` | AmModel (reading, writing, conversion), MacroGeomModel (shapes), BareModel (`from_primitive`) | `__str__` |
| `gerber_statements.py` | GerberText (reading and writing), GerberConv (conversion and offset), AmModel (macros), DumpModel (`__str__`) | - |
| `rs274x.py` 73-800 | SplitModel, GerberText (`_parse`), GerberEval (`evaluate` and helpers, `bounds`, `bounding_box`), GerberConv, WriterModel | `dump_json`; `_find_center` is a parameter of GerberEval, its model over the reals is CenterModel; included files are a function from names to texts |
| `excellon.py` 85-795 | ExcellonModel (parser), ExcellonFile (hits, slots, conversion, offset, write, `path_length`, `hit_count`, `update_tool`, `bounding_box`), ReportModel (`report`), HitStrModel (`__str__` of hits) | writing the report to a file |
| `excellon.py` 62-84, 797-904 | SniffModel (`loads`, `detect_excellon_format`) | order of dictionary keys before python 3.7; pi is any number |
| `excellon_tool.py`, `excellon_settings.py` | ToolModel | opening files |
| `excellon_statements.py` | ExcellonModel (reading), ExcellonFile (writing), DrillStrModel (`__str__`), ToolReprModel (`__repr__` of tools) | - |
| `primitives.py` | HeapModel (`to_inch`, `to_metric`, `offset` on object graphs), BoxModel, GeomModel (boxes, arcs, corners of polygons), CacheModel (memoized boxes), GroupModel (macro groups), HullModel (`Line.vertices`), VertModel (`vertices` of rectangles, diamonds, chamfered rectangles and outlines, `segments`) | `equivalent` except where the writer uses it |
| `operations.py` 25-83 | HeapModel | `scale`, `rotate` (not implemented there) |
| `__main__.py` (gerber-render), `layers.load_layer` | MainModel | argument parsing; --width and --height (they only change the scale, which is a parameter); how a layer is drawn is a parameter (CairoModel); other backends |
| `layers.py`, `pcb.py`, `utils.listdir` | LayersModel, DirModel | the file system (`from_directory` is modelled from the list of file names and the outcome of reading each; the directory is taken to be absolute) |
| `ipc356.py` | IpcModel, IpcReprModel (`__repr__` of records) | `__repr__` of nets |
| `render/rs274x_backend.py` 15-510 | WriterModel, AmRenderModel (macro flashes, with the comparison of shapes of `primitives.py`), BareModel (groups without a statement) | the characters that dimensions give to a macro name are a parameter |
| `render/render.py` 138-172 | WriterModel, CairoModel | colours and other attributes |
| `render/excellon_backend.py` | DrillOutModel (rendered primitives with or without their hits; writing one statement per line is what a caller does) | macro groups and test records, which the context passes over |
| `render/theme.py`, `render/cairo_backend.py` 79-131, 167-200, 551-568 (colours), `render/render.py` 240-246 | ThemeModel (the picture of a single layer is a parameter; cairo's OVER on premultiplied colours) | python attributes of a theme that are not settings |
| `rs274x.py` 267-277, `render/render.py` 138-170 (from the evaluated file to the image) | ShowModel | lines with macro pens, arcs with pens that are not round |
| `rs274x.py` 267-277 with `cam.py` 262-283, `cairo_backend.py` 64-68 with `excellon.py` 224-234 (from text to image, size of a drill image) | DrillShowModel | the interleaving of reading and evaluation |
| `cam.py` 262-286, `rs274x.py` 134-148, `excellon.py` 207-234, `primitives.py` 1299-1309, 1602-1680 (images of single files, drill files) | CamShowModel | a context that has been used before; writing the image to a file |
| `render/cairo_backend.py` 38-200, 533-566, `render/render.py` 62-136, `cam.py` 263-286 (a context in use: settings, clearing, drawing, saving, in any order) | SessionModel | what a layer looks like (CairoModel), the SVG document (a parameter) |
| `render/cairo_backend.py` 33-131, 170-560, 583-607 | CairoModel (over the reals; of cairo itself: paths, strokes with round caps, the operators OVER and CLEAR and clipping are modelled as sets of points; the rule for the inside of a contour is a parameter; no antialiasing) | `dump` |
| `excellon_statements.py` 123-136, 238-268, 751-763 (comparing and copying tools, linked tools) | ToolEqModel | comparing a tool with an object of another class |
| `rs274x.py` 150-155, 584-585, 613-614 (what macro statements hold after reading) | MacroFileModel | statements are evaluated after all have been read |
| `gerber_statements.py` 70-71, `excellon_statements.py` 53-55, 70-71 (`__eq__`) | StmtEqModel | how ids are drawn; `instructions` of macros; attributes of drill tools (a tool is known by its place) |
| `primitives.py` 70-71 (`__eq__`) | PrimEqModel | primitives of different classes; memoized vertices and segments |
| `layers.py` 262-295 (comparison of layers) | LookupModel | hashing |
| `rs274x.py` 314-318 (`dump_str`), `gerber_statements.py` (`__str__`) | DumpModel | order of dictionary keys before python 3.7 |
| `ipc356.py` 140-149, `render/cairo_backend.py` 518-531 (images of netlists) | NetShowModel | the font (what `show_text` paints is a parameter) |

Not modelled at all: `excellon_report`, `ncparam`, the parsing of command-line arguments (`argparse`), file-system errors.

## Properties

Status as in `MANIFEST.json`; *partial* with a `_refuted` theorem means that the property as worded is false of the code.

| Id | Title | Status | Proved in | Model | How |
|---|---|---|---|---|---|
| C01 | Coordinate text round trip | proved | `PropNum.v` | NumModel, FloatCodec | digit lemmas by induction on digit lists; rounding to 53 bits by its error bound |
| C02 | Written coordinate is within half a unit in the last place | proved | `PropNum.v` | NumModel, FloatCodec | digit lemmas by induction on digit lists; rounding to 53 bits by its error bound |
| C03 | Shape of written coordinates | proved | `PropNum.v` | NumModel, FloatCodec | digit lemmas by induction on digit lists; rounding to 53 bits by its error bound |
| C04 | Coordinate encoding preserves order | proved | `PropNum.v` | NumModel, FloatCodec | digit lemmas by induction on digit lists; rounding to 53 bits by its error bound |
| C05 | Meaning of coordinate digit strings | proved | `PropNum.v` | NumModel, FloatCodec | digit lemmas by induction on digit lists; rounding to 53 bits by its error bound |
| C06 | Explicit decimal points override the format | proved | `PropNum.v` | NumModel, FloatCodec | digit lemmas by induction on digit lists; rounding to 53 bits by its error bound |
| C07 | Unsupported precision is rejected, not mangled | proved | `PropNum.v` | NumModel, FloatCodec | digit lemmas by induction on digit lists; rounding to 53 bits by its error bound |
| C08 | Unit conversion functions are inverse, linear and order preserving | proved | `PropNum.v` | NumModel, FloatCodec | digit lemmas by induction on digit lists; rounding to 53 bits by its error bound |
| C09 | zeros and zero_suppression stay complementary | proved | `PropSettings.v` | SettingsModel | invariant over lists of assignments; case analysis |
| C10 | Settings item assignment validates and is local | proved | `PropSettings.v` | SettingsModel | invariant over lists of assignments; case analysis |
| C11 | Settings constructor accepts exactly the documented combinations | proved | `PropSettings.v` | SettingsModel | invariant over lists of assignments; case analysis |
| C12 | A file object carries its parser settings faithfully | partial | `PropSettings.v` | SettingsModel | invariant over lists of assignments; case analysis |
| C13 | Macro arithmetic means what it says | partial | `PropMacro.v` | MacroModel | shunting-yard correctness by induction on expressions; evaluation by induction on the code |
| C14 | Macro instruction evaluation is compositional | proved | `PropMacro.v` | MacroModel | shunting-yard correctness by induction on expressions; evaluation by induction on the code |
| C15 | Macro variables: binding, default and scope | proved | `PropMacro.v` | MacroModel | shunting-yard correctness by induction on expressions; evaluation by induction on the code |
| C16 | Unbalanced macro parentheses are rejected | proved | `PropMacro.v` | MacroModel | shunting-yard correctness by induction on expressions; evaluation by induction on the code |
| C17 | Command splitting loses nothing but line breaks | proved | `PropSplit.v` | SplitModel | induction over the characters |
| C18 | Line-ending convention does not matter | proved | `PropSplit.v` | SplitModel | induction over the characters |
| C19 | Coordinate statement write/read round trip | proved | `PropGerberText.v` | GerberText, Regex, FmtModel | symbolic execution of the regex matcher; induction over statement lists; recursion on include depth |
| C20 | Statement text classification round trip | partial | `PropGerberText.v` | GerberText, Regex, FmtModel | symbolic execution of the regex matcher; induction over statement lists; recursion on include depth |
| C21 | Whole Gerber file write/read round trip | partial | `PropGerberText.v` | GerberText, Regex, FmtModel | symbolic execution of the regex matcher; induction over statement lists; recursion on include depth |
| C22 | Parsing terminates and never duplicates input | proved | `PropGerberText.v` | GerberText, Regex, FmtModel | symbolic execution of the regex matcher; induction over statement lists; recursion on include depth |
| C23 | Include nesting is bounded | proved | `PropGerberText.v` | GerberText, Regex, FmtModel | symbolic execution of the regex matcher; induction over statement lists; recursion on include depth |
| C24 | Image equals the Gerber graphics-state semantics (strokes and flashes) | proved | `PropGerberEval.v` | GerberEval | refinement of the evaluator to an independent graphics-state machine; invariants over statement lists |
| C25 | Modal defaults can be made explicit | proved | `PropGerberEval.v` | GerberEval | refinement of the evaluator to an independent graphics-state machine; invariants over statement lists |
| C26 | Already drawn objects are never changed by later statements | proved | `PropGerberEval.v` | GerberEval | refinement of the evaluator to an independent graphics-state machine; invariants over statement lists |
| C27 | Comments, unknown and deprecated statements do not affect the image | proved | `PropGerberEval.v` | GerberEval | refinement of the evaluator to an independent graphics-state machine; invariants over statement lists |
| C28 | Region contours become exactly one filled region each | proved | `PropGerberEval.v` | GerberEval | refinement of the evaluator to an independent graphics-state machine; invariants over statement lists |
| C29 | Using an undefined aperture is an error, never a silent default | proved | `PropGerberEval.v` | GerberEval | refinement of the evaluator to an independent graphics-state machine; invariants over statement lists |
| C30 | File extents enclose every primitive, tightly | proved | `PropGerberEval.v` | GerberEval | refinement of the evaluator to an independent graphics-state machine; invariants over statement lists |
| C31 | Gerber unit conversion round trip and idempotence | partial | `PropGerberConv.v` | GerberConv | simulation between a file and its moved or converted copy |
| C32 | Offsetting a Gerber file translates its image | partial | `PropGerberConv.v`, `PropScale.v` | GerberConv; GerberConv.v, GerberEval.v, CenterModel.v | simulation between a file and its moved or converted copy; simulation: evaluation commutes with the enlargement of the whole evaluator state; induction over the statements |
| C33 | Scaling dimensions only: conversion never alters counts and angles | partial | `PropGerberConv.v` | GerberConv | simulation between a file and its moved or converted copy |
| C34 | Rendering primitives to Gerber and evaluating them back is the identity | partial | `PropWriter.v` | WriterModel | simulation between the state of the writer and that of the evaluator |
| C35 | Generated D-codes are unique, valid and defined before use | partial | `PropWriter.v` | WriterModel | simulation between the state of the writer and that of the evaluator |
| C36 | Excellon drilling semantics | proved | `PropExcellon.v` | ExcellonModel | refinement to an independent drilling machine; induction over lines |
| C37 | Incremental and absolute programs are interchangeable | proved | `PropExcellon.v` | ExcellonModel | refinement to an independent drilling machine; induction over lines |
| C38 | Repeat hole drills an arithmetic progression | proved | `PropExcellon.v` | ExcellonModel | refinement to an independent drilling machine; induction over lines |
| C39 | Hit counters equal the number of hits | partial | `PropExcellon.v` | ExcellonModel | refinement to an independent drilling machine; induction over lines |
| C40 | Excellon coordinate statement round trip | partial | `PropExcellonFile.v` | ExcellonFile | induction over hits and statements |
| C41 | Excellon file write/read preserves the drilling job | partial | `PropExcellonFile.v` | ExcellonFile | induction over hits and statements |
| C42 | Excellon unit conversion converts the whole job | partial | `PropExcellonFile.v` | ExcellonFile | induction over hits and statements |
| C43 | Excellon offset translates every hit and nothing else | partial | `PropExcellonFile.v` | ExcellonFile | induction over hits and statements |
| C44 | Path length per tool | partial | `PropExcellonFile.v` | ExcellonFile | induction over hits and statements |
| C45 | Updating a tool affects exactly that tool | proved | `PropExcellonFile.v` | ExcellonFile | induction over hits and statements |
| C46 | Layer sorting is an ordered selection | proved | `PropLayers.v` | DetectModel, LayersModel | sortedness and permutation lemmas; induction over lines |
| C47 | Board sides are disjoint and complete | partial | `PropLayers.v` | DetectModel, LayersModel | sortedness and permutation lemmas; induction over lines |
| C48 | File format detection depends on the first telling line only | proved | `PropLayers.v` | DetectModel, LayersModel | sortedness and permutation lemmas; induction over lines |
| C49 | Bounding boxes enclose their shape | partial | `PropGeom.v` | GeomModel, BoxModel | order reasoning and trigonometry over R |
| C50 | Arc bounding boxes enclose the arc | partial | `PropGeom.v` | GeomModel, BoxModel | order reasoning and trigonometry over R |
| C51 | Cached geometry is never stale | partial | `PropCache.v` | CacheModel, BoxModel | invariant over histories of assignments and reads |
| C52 | Primitive unit conversion scales geometry | partial | `PropHeap.v` | HeapModel | heap invariants and frame lemmas over an explicit object store |
| C53 | Rotation is a rigid motion | proved | `PropGeom.v` | GeomModel, BoxModel | order reasoning and trigonometry over R |
| C54 | Moving a macro group moves its parts rigidly | proved | `PropGroup.v` | GroupModel | heap frame lemmas |
| C55 | IPC netlist continuation lines | partial | `PropIpc.v` | IpcModel | column lemmas; induction over lines |
| C56 | IPC nets partition test records and keep adjacency | partial | `PropIpc.v` | IpcModel | column lemmas; induction over lines |
| C57 | File operations leave their argument untouched | proved | `PropHeap.v` | HeapModel | heap invariants and frame lemmas over an explicit object store |
| C58 | Round trip in formats without integer or without decimal digits | partial | `PropNum.v` | NumModel, FloatCodec | digit lemmas by induction on digit lists; rounding to 53 bits by its error bound |
| C59 | Values too large for the format are not silently corrupted | partial | `PropNum.v` | NumModel, FloatCodec | digit lemmas by induction on digit lists; rounding to 53 bits by its error bound |
| C60 | Macro comments have no effect | partial | `PropMacro.v`, `PropComment.v` | MacroModel; MacroModel, AmModel | shunting-yard correctness by induction on expressions; evaluation by induction on the code; induction over the blocks before the comment |
| C61 | A leading minus in a macro modifier negates its operand | partial | `PropMacro.v` | MacroModel | shunting-yard correctness by induction on expressions; evaluation by induction on the code |
| C62 | Terminated Gerber data is never dropped | partial | `PropSplit.v` | SplitModel | induction over the characters |
| C63 | Aperture dimensions are written to within 1/2000 | proved | `PropGerberText.v` | GerberText, Regex, FmtModel | symbolic execution of the regex matcher; induction over statement lists; recursion on include depth |
| C64 | Decimal strings are exact | partial | `PropExcellonFile.v` | ExcellonFile | induction over hits and statements |
| C65 | Drill file bounding box is the smallest enclosing box | proved | `PropExcellonFile.v` | ExcellonFile | induction over hits and statements |
| C66 | Settings equality means equal settings | proved | `PropSettings.v` | SettingsModel | invariant over lists of assignments; case analysis |
| C67 | A listed extension decides the layer class | partial | `PropLayers.v` | DetectModel, LayersModel | sortedness and permutation lemmas; induction over lines |
| C68 | Internal layers are numbered by their file name | partial | `PropLayers.v` | DetectModel, LayersModel | sortedness and permutation lemmas; induction over lines |
| C69 | Copper layers and board bounds | proved | `PropLayers.v` | DetectModel, LayersModel | sortedness and permutation lemmas; induction over lines |
| C70 | The kind of file decides its layer kind | partial | `PropLayers.v` | DetectModel, LayersModel | sortedness and permutation lemmas; induction over lines |
| C71 | IPC test record columns | partial | `PropIpc.v` | IpcModel | column lemmas; induction over lines |
| C72 | IPC parameters take effect from their line on | proved | `PropIpc.v` | IpcModel | column lemmas; induction over lines |
| C73 | IPC outline and conductor coordinates | partial | `PropIpc.v` | IpcModel | column lemmas; induction over lines |
| C74 | IPC rendering by side; components and vias | proved | `PropIpc.v` | IpcModel | column lemmas; induction over lines |
| C75 | Stroked arcs stay inside their bounding box | partial | `PropGeom.v` | GeomModel, BoxModel | order reasoning and trigonometry over R |
| C76 | The sweep of an arc is the angle it travels | partial | `PropGeom.v` | GeomModel, BoxModel | order reasoning and trigonometry over R |
| C77 | The box of a group is the box of its parts | proved | `PropGeom.v` | GeomModel, BoxModel | order reasoning and trigonometry over R |
| C78 | A rendered file, written and read back, shows the same primitives | proved | `PropWriter.v` | WriterModel | simulation between the state of the writer and that of the evaluator |
| C79 | Moving a primitive moves its bounding boxes, converting scales them | partial | `PropCache.v` | CacheModel, BoxModel | invariant over histories of assignments and reads |
| C80 | Numbers pass through str() and float() unchanged | proved | `PropAm.v` | AmModel, ReprModel | symbolic execution of writing and reading; rounding lemmas for str() |
| C81 | An aperture macro statement written and read back has the same primitives | partial | `PropAm.v` | AmModel, ReprModel | symbolic execution of writing and reading; rounding lemmas for str() |
| C82 | Unit conversion of an aperture macro converts its lengths exactly once | proved | `PropAm.v` | AmModel, ReprModel | symbolic execution of writing and reading; rounding lemmas for str() |
| C83 | Macro primitives are read as the format's table says | partial | `PropAm.v` | AmModel, ReprModel | symbolic execution of writing and reading; rounding lemmas for str() |
| C84 | convex_hull returns the convex hull | proved | `PropHull.v` | HullModel, GeomModel | chain invariant of the recursion; separating directions |
| C85 | convex_hull refuses points without an area | partial | `PropHull.v` | HullModel, GeomModel | chain invariant of the recursion; separating directions |
| C86 | The outline of a line drawn with a rectangle | proved | `PropHull.v` | HullModel, GeomModel | chain invariant of the recursion; separating directions |
| C87 | The shape of a centre line primitive | partial | `PropMacroGeom.v` | MacroGeomModel, HullModel | coordinates after undoing the rotation; trigonometry |
| C88 | The shape of a vector line primitive | partial | `PropMacroGeom.v` | MacroGeomModel, HullModel | coordinates after undoing the rotation; trigonometry |
| C89 | The shape of an outline primitive | proved | `PropMacroGeom.v` | MacroGeomModel, HullModel | coordinates after undoing the rotation; trigonometry |
| C90 | The shape of circle and polygon primitives | partial | `PropMacroGeom.v` | MacroGeomModel, HullModel | coordinates after undoing the rotation; trigonometry |
| C91 | The shape of a thermal primitive | partial | `PropMacroGeom.v` | MacroGeomModel, HullModel | coordinates after undoing the rotation; trigonometry |
| C92 | A macro shows all its primitives | partial | `PropMacroGeom.v` | MacroGeomModel, HullModel | coordinates after undoing the rotation; trigonometry |
| C93 | Tool tables are read as written | partial | `PropTool.v` | ToolModel | reading of each line by the generalised reader lemmas; simulation of the header by induction |
| C94 | Comments in the header of drill files | partial | `PropTool.v` | ToolModel | reading of each line by the generalised reader lemmas; simulation of the header by induction |
| C95 | Drill reports are read as written | proved | `PropTool.v` | ToolModel | reading of each line by the generalised reader lemmas; simulation of the header by induction |
| C96 | Settings files are read as written | partial | `PropTool.v` | ToolModel | reading of each line by the generalised reader lemmas; simulation of the header by induction |
| C97 | Drill files with a stated format are read without settings | proved | `PropSniff.v` | SniffModel | marks left by each line of a file as an invariant of the parser; minimum over the options |
| C98 | How the number format of a drill file is detected | proved | `PropSniff.v` | SniffModel | marks left by each line of a file as an invariant of the parser; minimum over the options |
| C99 | Metric drill files without a stated format | partial | `PropSniff.v` | SniffModel | marks left by each line of a file as an invariant of the parser; minimum over the options |
| C100 | Centres of arcs in single quadrant mode | partial | `PropCenter.v` | CenterModel, GeomModel | candidates on the same radius are mirror images; the sweep of mirrored arcs |
| C101 | Images of layers | partial | `PropCairo.v`, `PropCairoExact.v` | CairoModel, GeomModel, BoxModel; t | paths scale with the context; one primitive after the other, point by point; arcs by their angles; h |
| C102 | Images of inverted layers | partial | `PropCairo.v`, `PropCairoExact.v` | CairoModel, GeomModel, BoxModel; t | paths scale with the context; one primitive after the other, point by point; arcs by their angles; h |
| C103 | Shapes in images | partial | `PropCairo.v` | CairoModel, GeomModel, BoxModel | paths scale with the context; one primitive after the other, point by point; arcs by their angles |
| C104 | Full circles in images | partial | `PropCairo.v` | CairoModel, GeomModel, BoxModel | paths scale with the context; one primitive after the other, point by point; arcs by their angles |
| C105 | Macros in images | partial | `PropCairo.v` | CairoModel, GeomModel, BoxModel | paths scale with the context; one primitive after the other, point by point; arcs by their angles |
| C106 | Scale of images of several layers | partial | `PropCairo.v` | CairoModel, GeomModel, BoxModel | paths scale with the context; one primitive after the other, point by point; arcs by their angles |
| C107 | Comparison of macro shapes | partial | `PropAmRender.v` | AmRenderModel, AmShareModel | comparison lemma per shape; invariant of the table of macros and simulation between writer and evaluator; invariant of the store of macro statements |
| C108 | Files with macro flashes | partial | `PropAmRender.v` | AmRenderModel, AmShareModel | comparison lemma per shape; invariant of the table of macros and simulation between writer and evaluator; invariant of the store of macro statements |
| C109 | The statement kept with a macro flash | partial | `PropAmRender.v` | AmRenderModel, AmShareModel | comparison lemma per shape; invariant of the table of macros and simulation between writer and evaluator; invariant of the store of macro statements |
| C110 | Plating stated in drill files | partial | `PropPlate.v` | ExcellonModel, ToolModel | invariant of the tool tables over the header; the body changes no plating (induction over state changes) |
| C111 | Corners of rectangles and diamonds | partial | `PropVert.v` | VertModel | corner by corner over R; turning keeps the order of corners; induction over the list for pairs |
| C112 | Corners of chamfered rectangles | partial | `PropVert.v` | VertModel | corner by corner over R; turning keeps the order of corners; induction over the list for pairs |
| C113 | Segments join all pairs of corners | proved | `PropVert.v` | VertModel | corner by corner over R; turning keeps the order of corners; induction over the list for pairs |
| C114 | Drill programs that mill slots | partial | `PropRout.v` | ExcellonModel (modes of the parser) | simulation of programs by induction; the height of the tool as an invariant of the parser |
| C115 | Milling needs a lowered tool | proved | `PropRout.v` | ExcellonModel (modes of the parser) | simulation of programs by induction; the height of the tool as an invariant of the parser |
| C116 | Drill files rendered into an Excellon context | partial | `PropDrillOut.v` | DrillOutModel | simulation of the context by the meaning of programs (RoutSpec), composed with C114; invariants of the context |
| C117 | Written drill programs raise the tool | partial | `PropDrillOut.v` | DrillOutModel | simulation of the context by the meaning of programs (RoutSpec), composed with C114; invariants of the context |
| C118 | Written drill programs define their tools | proved | `PropDrillOut.v` | DrillOutModel | simulation of the context by the meaning of programs (RoutSpec), composed with C114; invariants of the context |
| C119 | Drill reports list every tool with its numbers | partial | `PropReport.v` | ReportModel | words and lines of concatenations; the rounding bound of the formatter; induction over the tool table |
| C120 | Drill reports state the data mode and the units | partial | `PropReport.v` | ReportModel | words and lines of concatenations; the rounding bound of the formatter; induction over the tool table |
| C121 | Layers are drawn in the colours of the theme | partial | `PropTheme.v` | ThemeModel | closed form of repeated painting; the generator of the theme as a counter, induction over layers |
| C122 | Colours of images of boards | proved | `PropTheme.v` | ThemeModel | closed form of repeated painting; the generator of the theme as a counter, induction over layers |
| C123 | Sides of layers in themes | partial | `PropTheme.v` | ThemeModel | closed form of repeated painting; the generator of the theme as a counter, induction over layers |
| C124 | Loading a directory loads every readable visible file and stops at unexpected errors | proved | `PropDir.v` | DirModel.v (LayersModel.v) | induction over the list of files; case analysis of splitext; concrete witness for the KiCad names |
| C125 | A board is called after its files | partial | `PropDir.v` | DirModel.v (LayersModel.v) | induction over the list of files; case analysis of splitext; concrete witness for the KiCad names |
| C126 | A converted Gerber file shows the same image when it is read again | partial | `PropScale.v` | GerberConv.v, GerberEval.v, CenterModel.v | simulation: evaluation commutes with the enlargement of the whole evaluator state; induction over the statements |
| C127 | Drill files with slots can be written | partial | `PropSlotWrite.v`, `PropExcellonFile.v` | ExcellonFile.v; ExcellonFile | induction over tools and hits; induction over hits and statements |
| C128 | A group of shapes without a statement is written as a macro that shows the shapes | partial | `PropBare.v` | BareModel.v (AmModel.v, AmRenderModel.v) | line feeds after commas do not change how a macro is read (induction over the scanner steps), then the round trip of C81; case analysis of shapes; concrete witness file |
| C129 | A Gerber file written in a number format shows its image up to the resolution of the format | proved | `PropRound.v` | GerberText.v, NumModel.v, GerberEval.v, GerberConv.v | the text of a statement is the text of the statement with rounded numbers, which is read back exactly; closeness of images by induction over the statements on the independent semantics |
| C130 | Converting a file to the other unit, writing it and reading it again shows the converted image up to the resolution of the format | proved | `PropRound.v` | GerberText.v, NumModel.v, GerberEval.v, GerberConv.v | the text of a statement is the text of the statement with rounded numbers, which is read back exactly; closeness of images by induction over the statements on the independent semantics |
| C131 | gerber-render of a directory writes an image of each side and one of the copper | partial | `PropMain.v` | MainModel.v (DirModel.v, LayersModel.v, ThemeModel.v) | the lists of layers from C47 and C69, the images from C121; induction over the files; concrete witnesses |
| C132 | gerber-render of files draws them in their order with the chosen theme | partial | `PropMain.v` | MainModel.v (DirModel.v, LayersModel.v, ThemeModel.v) | the lists of layers from C47 and C69, the images from C121; induction over the files; concrete witnesses |
| C133 | A drill file written in its number format drills the same holes up to the resolution of the format | partial | `PropDrillRound.v` | ExcellonModel.v, ExcellonFile.v | the text of the file is the text of the file with rounded numbers, to which C41 applies; conversion by C42 |
| C134 | A drill file converted to the other unit, written and read again drills the same holes | partial | `PropDrillRound.v` | ExcellonModel.v, ExcellonFile.v | the text of the file is the text of the file with rounded numbers, to which C41 applies; conversion by C42 |
| C135 | The image of a Gerber file shows what the file says | partial | `PropShow.v`, `PropCairoExact.v` | ShowModel, GerberEval, CairoModel; t | each primitive of the evaluated file is turned into what the context draws; composed with C24 and C101; h |
| C136 | The inverted image of a Gerber file shows what the file leaves out | partial | `PropShow.v` | ShowModel, GerberEval, CairoModel | each primitive of the evaluated file is turned into what the context draws; composed with C24 and C101 |
| C137 | render() of a file shows the whole file | partial | `PropCamShow.v`, `PropCairoExact.v` | CamShowModel, ShowModel, GerberEval, ExcellonModel, CairoModel; t | the box of the boxes is the smallest box around the marks; then as C135, with the whole box in the picture; drill programs by composition with C36; h |
| C138 | The image of a drill file shows its holes and slots | partial | `PropCamShow.v`, `PropCairoExact.v` | CamShowModel, ShowModel, GerberEval, ExcellonModel, CairoModel; t | the box of the boxes is the smallest box around the marks; then as C135, with the whole box in the picture; drill programs by composition with C36; h |
| C139 | Moving a Gerber file does not change its image | partial | `PropSimilar.v` | CamShowModel, GerberConv, GerberEval, CairoModel | similar marks (magnified and moved) cover similar points and take similar boxes; with C32 and C126; for conversions the clipping and the masks are compared pixel by pixel |
| C140 | A converted Gerber file has the same image at the corresponding scale | partial | `PropSimilar.v` | CamShowModel, GerberConv, GerberEval, CairoModel | similar marks (magnified and moved) cover similar points and take similar boxes; with C32 and C126; for conversions the clipping and the masks are compared pixel by pixel |
| C141 | render_layers does not depend on what the context was used for before | proved | `PropSession.v` | SessionModel | contexts as state transformers: what clear() leaves determines all that follows (two contexts with the same visible state give the same results); invariants over all sequences of calls |
| C142 | CamFile.render on a context which has been used gives what it gives on a new one | partial | `PropSession.v` | SessionModel | contexts as state transformers: what clear() leaves determines all that follows (two contexts with the same visible state give the same results); invariants over all sequences of calls |
| C143 | Saving an image leaves the context as it is | partial | `PropSession.v` | SessionModel | contexts as state transformers: what clear() leaves determines all that follows (two contexts with the same visible state give the same results); invariants over all sequences of calls |
| C144 | Colours and opacity of a context stay within their limits | proved | `PropSession.v` | SessionModel | contexts as state transformers: what clear() leaves determines all that follows (two contexts with the same visible state give the same results); invariants over all sequences of calls |
| C145 | Rendering a layer adds it to the image | partial | `PropSession.v` | SessionModel | contexts as state transformers: what clear() leaves determines all that follows (two contexts with the same visible state give the same results); invariants over all sequences of calls |
| C146 | Image offsets, mirroring and scale factors keep what they say | partial | `PropImageParam.v` | GerberText, GerberEval | the regular expressions of the parameters matched on arbitrary decimals; induction over the statements of the file |
| C147 | Image parameters act on the image | partial | `PropImageParam.v` | GerberText, GerberEval | the regular expressions of the parameters matched on arbitrary decimals; induction over the statements of the file |
| C148 | Image of a Gerber text | partial | `PropDrillShow.v` | DrillShowModel, CamShowModel, ExcellonFile, ExcellonModel, GerberText | composition of the readers (C21, C36), the changes of drill files (C41-C43) and an exact description of the image of a drill file, pixel for pixel |
| C149 | Image of a moved drill file | partial | `PropDrillShow.v` | DrillShowModel, CamShowModel, ExcellonFile, ExcellonModel, GerberText | composition of the readers (C21, C36), the changes of drill files (C41-C43) and an exact description of the image of a drill file, pixel for pixel |
| C150 | Image of a converted drill file | partial | `PropDrillShow.v` | DrillShowModel, CamShowModel, ExcellonFile, ExcellonModel, GerberText | composition of the readers (C21, C36), the changes of drill files (C41-C43) and an exact description of the image of a drill file, pixel for pixel |
| C151 | Image of a rewritten drill file | partial | `PropDrillShow.v` | DrillShowModel, CamShowModel, ExcellonFile, ExcellonModel, GerberText | composition of the readers (C21, C36), the changes of drill files (C41-C43) and an exact description of the image of a drill file, pixel for pixel |
| C152 | All parameters of a tool definition | partial | `PropToolDef.v` | ExcellonModel, ExcellonFile | induction over the parameters of the definition |
| C153 | Control statements of drill files survive writing and reading | partial | `PropDrillLines.v` | ExcellonModel, ExcellonFile | case analysis over the statements, then induction over the sequence; regular expressions via first-match lemmas |
| C154 | Tool changes without a number | partial | `PropNextTool.v` | ExcellonModel | simulation of the reader by the program with changes spelled out; tools once known stay known |
| C155 | Images of netlists | partial | `PropNetShow.v`, `PropCairoExact.v` | NetShowModel; t | dots and names are united on the surface; the image of a layer of circles; refuted by one point and bounds away from the origin; h |
| C156 | Equivalent tools | partial | `PropToolEq.v` | ToolEqModel | the comparison decides equality of all parameters; conversion is injective; induction over linked tools |
| C157 | Linked tools | partial | `PropToolEq.v` | ToolEqModel | the comparison decides equality of all parameters; conversion is injective; induction over linked tools |
| C158 | Gerber files which state no format | proved | `PropNoFormat.v` | t | h |
| C159 | A Gerber file with aperture macros keeps its image when it is read and written again | partial | `PropMacroFile.v` | MacroFileModel, AmModel, GerberText | what every macro statement holds after reading, by induction over the statements; symbolic execution of writing and reading; simulation between the evaluation of both files |
| C160 | Drill hits converted to another unit one by one | partial | `PropHitConv.v` | ExcellonFile, ExcellonModel | induction over the list of hits, with the tools converted so far |
| C161 | All parts of a Gerber format statement | partial | `PropFormatStmt.v` | GerberText | symbolic execution of the format pattern on every statement |
| C162 | What is read of a drill tool stays | proved | `PropKept.v` | ExcellonModel, ExcellonFile | invariant: every line keeps the tools read before |
| C163 | A netlist is read record by record | partial | `PropNetFile.v` | IpcModel | induction over the records, with the units and names of the parser as invariant |
| C164 | Drill files which state no units | proved | `PropUnstated.v` | ExcellonModel, ExcellonFile | simulation between the parser and the program, as for C36 |
| C165 | The primitives of a Gerber file hold what its image shows | partial | `PropObject.v` | GerberConv, GerberEval, HeapModel | the placement of objects follows the list of primitives by induction; conversion by the exactness lemma of HeapProofs |
| C166 | Lines of a drill file that draw nothing do not change the drawing | partial | `PropIdle.v` | ExcellonModel | every step of the parser commutes with one more statement that is neither a tool definition nor a selection; induction on the remaining lines; the pending line is characterised by induction on the lines before |
| C167 | What a drill file has drilled stays when it goes on | partial | `PropStay.v` | ExcellonModel | hits are only appended and statements only added, by the case analysis of ExcellonProofs and induction on the lines |
| C168 | Lines of a netlist that are no records do not change what is read | partial | `PropNetIdle.v` | IpcModel | no step of the parser looks at the statements read before; induction on the lines with the pending line as state |
| C169 | A file ends at its end statement | partial | `PropEnd.v` | GerberEval, ExcellonModel, IpcModel | the end statement is neutral in the evaluation; for the two line formats a simulation between the runs with and without the end line |
| C170 | What a netlist has stated stays when it goes on | partial | `PropNetStay.v` | IpcModel | reading a joined list of lines is reading one part after the other; every step only appends statements |
| C171 | The listing of a Gerber file has one line for each statement | partial | `PropDump.v` | DumpModel, GerberText, GerberEval | the matcher only captures parts of the line, and commands have no line breaks (induction over regular expressions, lines, commands and levels of inclusion); evaluation fills in operations only; descriptions are compared from the left, kind by kind |
| C172 | The ends of the lines of a netlist do not matter | proved | `PropNetEol.v` | IpcModel | the lines are found back by induction over them, whatever ends them; reading depends on the lines only |
| C173 | Blanks around the lines of a drill file and the way its lines end do not matter | partial | `PropDrillEol.v` | ExcellonModel | stripping a line forgets the blanks; reading depends on the stripped lines only |
| C174 | Statements are equal exactly when they are of the same kind and hold the same | partial | `PropStmtEq.v` | StmtEqModel | dictionaries of attributes are compared key by key; each kind against each other kind by cases, the encodings of the values are injective |
| C175 | Primitives with the same attributes are equal | partial | `PropPrimEq.v` | PrimEqModel, CacheModel | a box that is up to date is a function of the attributes (C51), so the dictionaries agree once both boxes are there |
| C176 | Descriptions of drill statements tell what the statements hold | partial | `PropDrillStr.v` | DrillStrModel | descriptions are compared from the left, operand by operand, with the lemmas of C171 |
| C177 | Layers of a board can be looked up | partial | `PropLookup.v` | LookupModel | induction over the list; layers of one sort always compare, layers of two sorts never |
| C178 | Every drill tool has a description which tells its number and size | partial | `PropToolRepr.v` | ToolReprModel | the parts of the text are read back with the lemmas about %02d and %g |
| C179 | The description of settings tells them apart | proved | `PropSetStr.v` | SetStrModel, SettingsModel | settings hold documented values whatever is assigned (invariant); the words of the description are cut off from both ends |
| C180 | Only pairs of numbers are taken for points | proved | `PropValid.v` | ValidModel | cases on the type of the value; induction over the points of an outline |
| C181 | The description of a netlist record tells what it shows | proved | `PropIpcRepr.v` | IpcReprModel, IpcModel | the fixed words are cut off from both ends; names of features differ in their last letters |
| C182 | The description of a drill hit tells place and tool | proved | `PropHitStr.v` | HitStrModel, ToolReprModel | the description is cut at the comma, the bracket and the colon, and the unit from the end; reading back what was rounded |

Notes on what is missing or false:

* **C12** false of the code as it stands; the part that holds is proved
* **C13** binary minus is wrong in the code (evaluates to 0, or splits a modifier in two); everything else is proved for whole macros
* **C20** Refuted: dimensions are written with four significant digits; macro names starting with C used without modifiers are read as circles. Proved for all other statements.
* **C21** Refuted: an unused macro definition loses its body. Proved for every list of statements that each have an exact textual form.
* **C31** False of files mixing units (the way back does not restore them) and of regions with a single segment (not converted); proved for files in one unit, for every call sequence, and exactly-once conversion of statements and the shared object graph when there is no single-segment region and no polygon/macro aperture or scale factor.
* **C32** False when statements have I/J (these are shifted too) or rely on the implicit origin; proved for all files without I/J whose first move gives both coordinates: translated image, and the offset primitives equal those of the offset statements.
* **C33** False for polygon apertures and scale factors; proved for all other statements.
* **C34** Proved for all lists of supported primitives (lines of positive length, arcs, connected regions, flashes). Refuted in general: zero-length lines are lost, holes of rectangular apertures are dropped for lines, rotation of rectangles is dropped, metric primitives are evaluated as inches, regions with gaps are split, lines drawn with polygons raise.
* **C35** Distinct codes >= 10 and definition before use are proved for all inputs; equal codes exactly for equal attributes. Refuted when a missing hole is None in one primitive and 0 in the other.
* **C39** Refuted: slots routed in linear mode are not counted, redefined tools lose their earlier hits. Proved for texts without M15 (and for the count by number with the tool table still current).
* **C40** Refuted for zero repeat deltas and three-digit tools with compensation; otherwise proved.
* **C41** Refuted for files with ICI,ON in the header and when the format of the unit line is not the reader's; proved with the settings of the file given to the reader.
* **C42** Refuted: hits keep their old numbers. Proved: tools and statements converted once, idempotent, inverse restores the file.
* **C43** Refuted for slots with an omitted start coordinate (TypeError); proved for all files with complete slots.
* **C44** Refuted for files with a slot (AttributeError); proved for all files of drill hits, any distance.
* **C47** false as worded: IndexError for a board without copper, mask and silk on the side, and paste layers are left out; proved otherwise
* **C49** Refuted: a rectangle turned by 180 degrees has an inside-out box; C49_rectangle_rotations says exactly which rotations are right. Proved: lines, circles, drills, slots, ellipses at any rotation, rectangles between 0 and 90 degrees, unrotated obrounds and diamonds. Exact real arithmetic. Uses the three axioms of Coq's standard real numbers (listed in DESIGN.md).
* **C50** Refuted in single-quadrant mode for arcs that cross an axis; proved, with tightness, for every multi-quadrant arc and single-quadrant arcs within a quadrant. Uses the three axioms of Coq's standard real numbers (listed in DESIGN.md).
* **C51** False in general: slots, butterflies, donuts, and the aperture and direction of lines and arcs, have plain attributes and keep an old box. Proved for every history without those assignments, and each excepted assignment is shown to be a real exception. Groups: proved for reads, moves and conversions (and changes of parts for macro groups); refuted when a part of a region or outline is changed directly.
* **C52** False for lists with one nested primitive; proved for all object graphs without these (exactly-once conversion), and unrestricted: physical sizes, totality, call sequences; C52_classes says which attributes of each class are lengths.
* **C55** False when a continuation part ends in a blank, which the reader strips before appending the next part; proved for all other splits.
* **C56** set.update returns None, so a net heading an adjacency record loses its adjacent nets and a later record mentioning it raises; the exact behaviour is proved.
* **C58** false in trailing/none mode with 0 integer or 0 decimal digits
* **C59** false for values that do not fit the format
* **C60** False for comments containing '='. Proved for the values of the primitives and for the primitives built from them.
* **C61** only correct in front of a literal other than 0
* **C62** false for a headerless text without a final line break
* **C64** Refuted below 1e-4 (scientific notation); proved for the rest.
* **C67** false as worded: board-top.gts is guessed 'top'; proved when no token of an earlier class is in the name
* **C68** false as worded: digits in the directory are found first; proved for directories without digits
* **C70** false as worded for netlists named like an internal layer; proved otherwise
* **C71** Proved for all records whose component/pin dash is where the reader looks for it; false for vias with negative coordinates, in radians, and for records ending right behind Y.
* **C73** Proved for non-negative coordinates; negative ones are silently ignored.
* **C75** Round apertures: smallest box. Apertures with width and height: encloses, but not the smallest (the code adds the whole width). Uses the three axioms of Coq's standard real numbers (listed in DESIGN.md).
* **C76** Refuted for counterclockwise arcs across 0 degrees and for full circles; C76_sweep_partial gives the value returned for every other arc. Uses the three axioms of Coq's standard real numbers (listed in DESIGN.md).
* **C79** Proved for every class and history (excluding the stale-cache assignments of C51). Refuted for Slot, whose offset leaves a box that was read before.
* **C81** Proved for primitives whose numbers the text format can show; refuted for positions of more than four digits, numbers written with an exponent, comments, unknown primitives and macros that were never built
* **C83** Refuted for an outline without its rotation, which is accepted
* **C85** The numbers are exact reals: rounding of floats is not modelled. False of the code: points on a line which is not upright give the empty list. Proved: fewer than three points and upright lines raise; every other line gives the empty list.
* **C87** Exact reals: rounding of floats is not modelled. The code turns the rectangle about its own centre: proved for centres at the origin or without rotation, and what is drawn otherwise; false in general.
* **C88** Exact reals: rounding of floats is not modelled. The code draws what an axis-parallel square covers on its way: proved that this is the shape and that it contains the rectangle; it is always larger.
* **C90** Exact reals: rounding of floats is not modelled. Polygons are turned about their own position: proved for those at the origin or without rotation.
* **C91** Exact reals: rounding of floats is not modelled. Proved for a gap of at most inner diameter / sqrt 2 and a position at the origin or no rotation, and for all positions with the rotation about the own centre. False: an inner diameter of zero or below the gap raises, rotation is about the own centre.
* **C92** Moires and lower left lines give no shape.
* **C93** Proved for all tool files: one tool per number (last entry), size converted exactly for millimetres and up to 2 parts in 10^12 for thousandths of an inch (the code's constant 39.3700787402 is rounded), plating for comment lines. Refuted: plating of table rows is always unknown; 10 mils is not exactly 0.01 inch; without settings AttributeError.
* **C94** Proved for python 2 with hole sizes in comments, and for every version of python without them. Refuted: python 3 raises TypeError on a hole size comment (dict.keys() indexed); a hole size directly after the semicolon is ignored.
* **C96** Proved for absolute coordinates and for files lacking a setting. Refuted: INCREMENTAL becomes 'relative', which FileSettings refuses with ValueError.
* **C99** False: the score compares with 8 square inches whatever the units are, so a metric file of 100 mm by 80 mm is read as 10 mm by 8 mm.
* **C100** Proved for clockwise arcs, and for counterclockwise ones exactly when it is true: false for every counterclockwise arc through or to the right end of its circle (the sweep is not reduced modulo 360 degrees) and for every counterclockwise arc to a point of the same height on the left. Exact real arithmetic; stdlib axioms of the reals.
* **C101** Holds more than one pixel below the tops of the boxes of the primitives which cover a point. False at the top: the clip rectangle rounds the upper edge down, so an incomplete row of pixels is lost. C101_exact says exactly what is shown, the top row included; when the lower edge of the image and the upper edges of all primitives are at whole pixels nothing is lost (C101_aligned_partial).
* **C102** Holds for dark shapes with at most round holes in circles and obrounds. Clear primitives and the holes of rectangles and polygons are cleared as well. C102_exact_partial includes the top row.
* **C103** Holds for unrotated rectangles and obrounds, and holes of dark primitives. The holes of clear rectangles and polygons are not left open; rectangles and obrounds are drawn without their rotation; empty contours are errors.
* **C104** Holds counterclockwise for pens which are not much thinner than the circle. Clockwise circles are drawn as dots; regions with one full circle as contour are lost.
* **C105** The parts are drawn one after the other like flashes of their own: the polarity of the flash is ignored and parts with the exposure off remove what is under the macro.
* **C106** Size and scale are right; within the bounds of the first layer all layers are shown. Layers are cut to the bounds of the first layer, and boards wider than the number of pixels have an empty image.
* **C107** False as worded: polarity, line apertures, rectangular holes and the rotation and holes of polygons are not compared. Proved: exactly what is compared, and that shapes that look the same are found equal.
* **C108** False as worded for macros that compare as the same but differ (C107) and for macros without anything to draw. Proved for all other macros that can be written exactly. The characters of a name that come from dimensions are a parameter.
* **C109** False as worded: the primitives are those of the last aperture made from the same macro statement. This is proved in general, and the property when no macro statement is used for two apertures.
* **C110** False as worded: a comment with the hole size above the definition of the tool is not used for its plating. Proved: what is read for all headers, and the property for headers without such comments.
* **C111** Full statement refuted: the corners are turned about the origin while the shape is turned about its position. Proved for shapes at the origin or without rotation; what is computed in general is C111_about_origin. The box is the smallest one around the corners for unturned shapes, and for rectangles at the origin turned by up to 90 degrees.
* **C112** Full statement refuted: the two corners made at the upper right and the lower left are in the wrong order, so the contour crosses itself. Proved: the corners span the shape for every selection of corners; the contour is right when only the upper left and lower right corners are cut. At the origin or without rotation, as in C111.
* **C114** The full statement is false: a G85 slot that gives only one coordinate of its start has no start, in incremental notation the increments of G85 are taken for positions, and G02/G03 are unknown statements (nothing is milled and the next segment starts at the wrong place). Proved for all programs without arcs whose slots give both start coordinates, absolutely.
* **C116** The full statement is false: primitives of files carry no hit (AttributeError for every file with hits), tools have no hash in python 3, a hole at the current position is written as an empty line, and after a milled segment of length 0 the file cannot be read. Proved for primitives that carry hits, in python 2, when positions change.
* **C117** Everything is proved except that tools are changed only when raised, which is false (a milled segment that starts where the previous one ended, with another tool) and proved for jobs with one tool.
* **C119** Holds, and a report exists, exactly for files of drill holes whose tools all have a diameter and are used (C119_exactly_partial). False in general: an unused tool makes report() raise TypeError, a slot AttributeError. The distance and the sum of lengths are arbitrary functions.
* **C120** Holds for absolute files in inches. False in general: the conditional expression binds weaker than %, so metric and incremental files show the bare word without label or line end.
* **C121** Holds exactly while the internal settings of the theme last. False in general: the ninth internal layer raises StopIteration; the generator goes on in the next image, so the same board drawn again has other colours and finally raises StopIteration; settings given for classes without a default (outline, toppaste, ...) are ignored. How one layer is drawn is a parameter (see C101).
* **C123** Holds for every theme whose given settings have the right sides (default and OSH Park). False of 'Blue' (bottommask not mirrored) and of both transparent themes (bottom not mirrored, bottommask and bottomsilk mirrored).
* **C125** Refuted for the names KiCad writes (amp-F.Cu.gbr): the signature is only looked for behind a dot, so the stems differ and the board is called after the directory.
* **C126** Proved for files that declare their unit before anything else and have no polygon or macro apertures (the objects: also no regions of a single segment). False of files that do not declare a unit (no MO statement is added, so millimetres are read as inches) and of polygons (the number of vertices is converted, C33). The centre of single quadrant arcs is a parameter assumed proportional; C126_centres proves that of the code over the reals.
* **C127** False of every file with a slot of one of its tools: writing raises (slots have no position), after part of the file has been written. What is proved of files without slots is C41.
* **C128** False of every group: the macro is written without primitives, because the statement is never built, and the file cannot be evaluated. The text the statement is made from does define the shapes, for dark shapes without holes, rectangles that are not turned, closed outlines, and numbers the formats %.4g and %.6g keep; math.degrees is a parameter with degrees(0) = 0.
* **C131** Proved for boards with copper, mask or silk on both sides, some copper or an outline, and at most six internal layers. Refuted otherwise: a board with nothing on one side gives IndexError and no image at all; with seven or more internal layers StopIteration ends the command before the image of the copper; without copper and outline AttributeError does; and without an outline the image of the copper has no holes. How a single layer is drawn and at which scale is a parameter (C101-C106 are about it).
* **C132** The background is always that of the default theme (refuted with OSH Park), and with more internal layers than the theme has settings for, StopIteration is raised and nothing is written. Everything else is proved.
* **C133** Diameters below 1/10000 are written with an exponent before a decimal point and cannot be read (refuted). Proved for absolute files with a plain header and all numbers in the range of the format.
* **C134** The positions keep their numbers in both directions: no hole two units of the last decimal place away from an axis is where it should be (refuted for every plain file). The unit and the diameters are converted (proved).
* **C135** From the statements to the pixels: composition of C24 and C101 with the step in between. Proved for points within the outermost coordinates and more than a pixel below the top of each mark; marks are circles, rectangles, obrounds, regular polygons and dark macros of exposed circles, outlines, polygons and centre lines (flashed), lines with round and rectangular pens, arcs with round pens and regions. Beyond the outermost coordinates nothing is drawn (C135_beyond), so a dot there is missing (refuted); lines with an obround pen are not drawn and lines with a polygon pen raise AttributeError (refuted); macros are drawn dark whatever their polarity, and their primitives which are not exposed remove what is below the macro (C135_apart says what is drawn; refuted). Lines with macro pens and arcs with pens that are not round are not modelled here; moires, thermals, vector and lower left lines are left out of the proved part (C87-C92). C135_exact_partial says exactly what is shown within the outermost coordinates, the top row included, for files without macros.
* **C136** Proved for dark marks without rectangular holes and without holes in rectangles and polygons. Clear marks are removed from the inverted image like dark ones (refuted; what holes do is C102_hole_refuted).
* **C137** Proved (with the size) for points more than a pixel below the top of each mark, for the marks of C135_file_partial, in a fresh context; the top row of pixels may be missing (refuted); inverted for the marks of C136. A file which marks nothing gives a square of two million units (refuted). For files without macros the image is given exactly, the top row included (C137_exact_partial, C137_exact_inverted_partial).
* **C138** Proved for points more than a pixel below the top of each hole, for files in memory, for drill programs as text (with C36), within the bounds of a board and inverted. ExcellonFile has no bounds: a board whose first layer is a drill file cannot be drawn (refuted). C138_exact, C138_exact_layer and C138_exact_inverted give the image exactly, the top row included.
* **C139** Holds, with the size, more than a pixel below the top of what covers a point, of files without I and J whose first move gives both coordinates (C32). Refuted in full: the clipping rounds the distance to the origin of the image, so the top row of pixels may appear or disappear when a file is moved; files starting from the implicit origin are torn apart.
* **C140** Proved exactly, for every pixel, for files whose apertures are circles, rectangles and obrounds. Refuted for polygons: the number of vertices is converted too, a hexagon is drawn as a polygon of 152 sides.
* **C142** Refuted: the second file is drawn in the box of the first. After clear() it holds; C142_files_stacked says what is drawn otherwise.
* **C143** Refuted for SVG images; proved for PNG images. cairo.Error of a finished surface is GenericException in the model.
* **C145** Refuted: a layer rendered after a file replaces it. True after another layer.
* **C146** The full claim is refuted: one-axis statements raise TypeError, scale factors are read as 1, offsets below 1/10000 are not read back. Proved: two-axis offsets and mirrorings are read exactly, and offsets of five places are read back from what is written.
* **C147** The full claim is refuted for each of the parameters. Proved: they have no effect, for every file.
* **C148** Refuted for the top row of pixels (as C137). Proved: exact below the tops for every text of writable statements with inclusions; rewriting and line breaks change nothing.
* **C149** Refuted: a hole of two and a half pixels loses its top row at one place and not at another. Proved: equal sizes, and equal pixels at least one pixel below the top of what removes them.
* **C150** Refuted by two holes. Proved: the image of the converted file shows exactly the enlarged tools at the unmoved positions; converting back gives the file and its image.
* **C151** Refuted for files with slots. Proved for files of holes with a plain header.
* **C152** Reading is proved in full. Writing and reading back is refuted for speeds of 100000 and more, written with %g in spite of zero suppression, and proved for all others.
* **C153** Proved in full for sequences of control statements. Refuted for routing statements (written as G00 alone), for the number format of unit statements (not written) and for end coordinates (always written with five decimals and trailing zeros left out); end statements are proved for formats with two digits before and one to five behind the point that leave trailing zeros out.
* **C154** Proved for all programs in which the next tool is defined or has been selected before; refuted otherwise (tool 1 is used instead of a new tool).
* **C155** As claimed, false; what the image shows is given exactly, except within the topmost pixel of a dot. The drawing of text by cairo is a parameter (any function). C155_exact includes the topmost pixel.
* **C156** Everything except the claim on copies is proved; that one is refuted for every tool. Speeds of 100000 and more are excluded from writing and reading back (C152).
* **C157** Proved for lists with at least one tool; the empty list and whole files are refuted.
* **C159** Proved when all apertures made from one macro have the same primitives (macros that are not used may be present) and these can be written exactly. False in general: a macro used with different modifiers is written with the primitives of the last aperture, so that the others change size; a used macro without primitives gives a file that cannot be read.
* **C160** Proved when no two hits have the same tool. False in general: only the first hit of every tool is converted, which C160_first_of_each_tool states exactly.
* **C161** Proved when x and y have the same digits. False otherwise: the digits given for y are ignored and those of x are used for both.
* **C163** Proved for all records but tooling features and holes (337, 347), which are dropped silently although their codes are known. The limits of columns, signs and continuation lines are those of C55, C71 and C73.
* **C165** Refuted for conversion: the segment of a region with a single segment is not converted. Proved for every file as read, for the conversion of files in one unit without such regions, and for offset where C32 holds. What a macro aperture is made of is not part of the objects here.
* **C166** False directly below a G00 or G01 without coordinates: the parser glues the next line to it, so a comment there is read as coordinates and raises ValueError (C166_refuted). Everywhere else it holds for all files (C166_noted_partial, C166_first); blank lines are harmless everywhere (C166_blank).
* **C167** The numbers stay (C167_holes_partial), with their tools (C167_tools), and so do the statements (C167_statements). The place does not: a file has one unit, the one stated last, so a metric part behind a part in inches moves the holes of the first (C167_unit_refuted).
* **C168** False between a record and its continuation line: the continuation is appended to the comment (C168_refuted). Proved everywhere else.
* **C169** False in all three formats: a flash after M02 is drawn, a hole after M30 is drilled, a record after 999 is read. Proved instead is what the end statement does: nothing to a Gerber drawing (for every list of statements), and exactly one more statement in a drill file or a netlist, what follows being read as if it were not there, with the same error. Excluded are an M30 below a G00 or G01 without coordinates and a 999 with a continuation line below it.
* **C170** False if the first new line is a continuation (it changes the last record) and false of the units, which are those stated last. Otherwise proved for every netlist: statements, test points, rendering and vias of the shorter netlist are a prefix of those of the longer one, no component is lost and an error stays an error (possibly another one).
* **C171** The lines of the listing are proved in full for every file that can be read. That descriptions tell statements apart is false: coordinates are written with six digits, and a macro called circle is described like a circle; what equal descriptions do tell is proved, including how far coordinates, scale factors and offsets can differ.
* **C173** Proved for white space and for the ends LF and CR LF. Refuted for lines that end in a carriage return alone: loads takes the whole text for one line and finds no holes (read opens files with universal newlines and is not concerned).
* **C174** Proved for Gerber statements: equality is exactly being the same statement with the same units. False for drill statements: each is given a random id, which takes part in the comparison, so that the same statement made twice is not equal (C174_drill_refuted), and the class takes no part, so that statements which are only a word are equal when they are given the same id (C174_kinds_refuted); C174_drill_partial says exactly when they are equal. Comparison with None raises AttributeError (C174_answer_refuted).
* **C175** Refuted: the memoized bounding box takes part in the comparison, so a primitive whose box has been read is no longer equal to an unread one with the same attributes, for every class (C175_measured_refuted). Proved: equal primitives have the same attributes; new primitives with the same attributes are equal; so are primitives which reached the same attributes by different histories once both boxes have been read, unless an operation left an outdated box behind (C51).
* **C176** Refuted: the description does not tell whether a coordinate is drilled, moved to or cut to (C176_mode_refuted), nor digits beyond the sixth (C176_digits_refuted). Proved: the same description means the same kind and the same operands up to the sixth digit, where a missing distance of repeated holes counts as zero.
* **C177** Refuted: comparing an internal layer with any other raises TypeError, so looking for a layer of one sort raises TypeError whenever a layer of the other sort comes before it (C177_found_refuted), and an internal layer is taken for another one with the same number (C177_other_refuted). Proved: a layer is found after layers of its own sort; exactly, where no layer is internal; by number, where all are; the six operators of internal layers are those of their numbers.
* **C178** Proved for tools with a diameter. Refuted for the others: describing a tool without a diameter raises TypeError, and such tools are read from headers which state none.

## Assumptions per theorem (Print Assumptions)

Closed under the global context:

* `PropAm.v`: C80_repr, C80_decimal, C81_macro_round_trip_partial, C81_in_file_partial, C81_macro_round_trip_refuted, C82_to_metric, C82_to_inch, C82_once, C83_build, C83_reads, C83_missing, C83_outline_partial, C83_outline_refuted, C83_unknown
* `PropAmRender.v`: C107_compared_partial, C107_same_looks, C107_compared_refuted, C108_macro_file_partial, C108_codes, C108_reused, C108_macro_file_refuted, C109_shared, C109_own_primitives_partial, C109_own_primitives_refuted
* `PropExcellon.v`: C36_drilling, C37_interchangeable, C38_repeat, C39_linear_refuted, C39_redefined_refuted, C39_counters_partial, C39_numbers_partial, C39_total_partial, C39_at_most_partial
* `PropExcellonFile.v`: C40_zero_delta_refuted, C40_three_digits_refuted, C40_coordinate_partial, C40_slot_partial, C40_repeat_partial, C40_selection_partial, C40_compensation_partial, C41_incremental_header_refuted, C41_format_lost_refuted, C41_write_read_partial, C42_hits_refuted, C42_conversion_partial, C43_open_slot_refuted, C43_offset_partial, C44_slot_refuted, C44_path_partial, C45_update, C64_scientific_refuted, C64_decimal_partial, C65_bounding_box
* `PropGerberConv.v`: C31_round_trip_refuted, C31_converted_once_refuted, C31_call_sequences_partial, C31_converted_once_partial, C31_conversion_succeeds, C32_offset_translates_refuted, C32_implicit_origin_refuted, C32_offset_translates_partial, C33_counts_and_angles_refuted, C33_lengths_only_partial, C33_idle
* `PropGerberEval.v`: C24_image_is_graphics_state_semantics, C25_modal_values_explicit, C26_drawn_objects_never_change, C27_neutral_statements, C28_region_contours, C29_undefined_aperture_is_an_error, C29_draw_without_aperture, C30_bounding_box_tight, C30_bounds_tight, C30_size, C30_unlimited_refuted
* `PropGerberText.v`: C19_coordinate_roundtrip, C20_statement_roundtrip_refuted, C20_statement_roundtrip_partial, C63_aperture_dimensions_close, C21_file_roundtrip_refuted, C21_file_roundtrip_partial, C22_parsing_terminates, C23_includes_bounded
* `PropGroup.v`: C54_move_translates, C54_only_the_last_move_counts
* `PropHeap.v`: C52_conversion_scales_refuted, C52_conversion_scales_partial, C52_physical_size, C52_conversion_succeeds, C52_classes, C52_conversion_sequences, C52_offset_moves, C57_conversion_of_a_copy, C57_offset_of_a_copy
* `PropIpc.v`: C55_continuation_refuted, C55_continuation_partial, C56_nets_refuted, C56_nets_partial, C71_columns_refuted, C71_columns_partial, C72_net_variables, C72_plain_names, C72_units, C72_units_default, C73_outline_partial, C73_conductor_partial, C73_negative_refuted, C74_render, C74_components, C74_vias
* `PropLayers.v`: C48_detect_file_format, C46_sort_layers, C47_board_sides_refuted, C47_board_sides_partial, C67_layer_class_refuted, C67_layer_class_partial, C67_layer_class_case, C68_internal_number_refuted, C68_internal_number_partial, C69_copper_and_bounds, C70_layer_kind_refuted, C70_layer_kind_partial
* `PropMacro.v`: C13_macro_arithmetic_refuted, C13_macro_arithmetic_partial, C14_expression_pushes_one_value, C14_no_leak, C15_binding_and_default, C15_scope, C15_isolated, C16_unmatched_rejected_equation, C16_unmatched_rejected_primitive, C16_balanced_accepted, C60_macro_comments_refuted, C60_macro_comments_partial, C61_leading_minus_refuted, C61_leading_minus_partial
* `PropNum.v`: C01_coordinate_round_trip, C01_coordinate_round_trip_double, C01_coordinate_round_trip_any_rounding, C02_half_ulp, C03_written_shape, C04_order_preserved, C04_no_merging, C05_digit_string_meaning, C05_explicit_zeros, C05_none_mode, C06_explicit_decimal, C07_write_rejects, C07_parse_rejects, C08_inverse, C08_linear, C08_order, C08_scale, C58_degenerate_formats_refuted, C58_degenerate_formats_partial, C59_overflow_refuted, C59_overflow_partial
* `PropPlate.v`: C110_plating_partial, C110_types, C110_size_above_refuted
* `PropSettings.v`: C09_zeros_complementary, C10_invalid_value_rejected, C10_unknown_key_rejected, C10_valid_value_local, C11_constructor, C12_camfile_settings_refuted, C12_camfile_settings_partial, C66_equality
* `PropSniff.v`: C97_stated_format, C97_given, C97_detected, C98_detection, C98_unreadable, C99_metric_refuted
* `PropSplit.v`: C17_split_loses_only_breaks, C18_line_endings, C62_terminated_data_kept_refuted, C62_terminated_data_kept_partial
* `PropTool.v`: C93_tool_tables_partial, C93_plating_refuted, C93_size_refuted, C93_no_settings_refuted, C94_hole_sizes_partial, C94_comments, C94_python3_refuted, C94_no_blank_refuted, C95_reports, C96_settings_partial, C96_missing, C96_incremental_refuted
* `PropVert.v`: C113_pairs
* `PropWriter.v`: C34_render_round_trip_partial, C34_render_round_trip_refuted, C35_codes, C35_same_code_partial, C35_same_code_refuted, C78_file_round_trip
* `PropRout.v`: C114_routing_partial, C114_start_refuted, C114_increments_refuted, C114_arc_refuted, C115_raised
* `PropDrillOut.v`: C116_file_refuted, C116_round_trip_partial, C116_python3_refuted, C116_repeat_refuted, C116_length_refuted, C117_safe_partial, C117_change_refuted, C118_definitions
* `PropReport.v`: C119_rows_partial, C119_exactly_partial, C119_unused_refuted, C119_slot_refuted, C120_labels_partial, C120_metric_refuted, C120_incremental_refuted
* `PropTheme.v`: C121_layers_partial, C121_stop_partial, C121_ninth_refuted, C121_again_refuted, C121_outline_refuted, C122_colours, C123_sides_partial, C123_blue_refuted, C123_transparent_refuted, C121_empty_partial, C123_predefined_partial
* `PropDir.v`: C124_layers, C124_error, C124_cases, C125_name_partial, C125_kicad_refuted
* `PropScale.v`: C126_image_partial, C126_undeclared_refuted, C126_polygon_refuted
* `PropSlotWrite.v`: C127_slot_refuted
* `PropBare.v`: C128_empty_refuted, C128_file_refuted, C128_shapes_refuted, C128_text_partial, C128_lines_partial
* `PropRound.v`: C129_rounded_image, C130_converted_file
* `PropMain.v`: C131_views_partial, C131_side_refuted, C131_internal_refuted, C131_copper_refuted, C131_holes_refuted, C131_hole_refuted, C132_files_partial, C132_error, C132_stop_refuted, C132_background_refuted
* `PropDrillRound.v`: C133_tiny_diameter_refuted, C133_resolution_partial, C134_position_refuted, C134_diameters_partial
* `PropSession.v`: C141_boards_on_used_contexts, C141_from_then_on, C142_after_clear_partial, C142_files_stacked, C142_refuted, C143_png_partial, C143_str_partial, C143_same_image, C143_svg_again, C143_svg_then_png, C143_svg_then_file, C143_svg_then_layer, C143_svg_str_empty, C143_refuted, C144_color, C144_background, C144_alpha, C144_always, C145_after_a_layer_partial, C145_one_by_one, C145_the_image, C145_refuted
* `PropImageParam.v`: C146_image_parameters_refuted, C146_image_parameters_partial, C147_image_parameters_act_refuted, C147_image_parameters_act_partial
* `PropToolDef.v`: C152_read, C152_fast_refuted, C152_write_read_partial
* `PropDrillLines.v`: C153_control, C153_route_refuted, C153_unit_format_refuted, C153_end_refuted, C153_end_partial
* `PropNextTool.v`: C154_change_partial, C154_unknown_refuted, C154_none
* `PropToolEq.v`: C156_equivalent, C156_relation, C156_read, C156_written, C156_convert, C156_copy_refuted, C156_copy_partial, C157_read, C157_write_read_partial, C157_empty_refuted, C157_file_refuted
* `PropNoFormat.v`: C158_unstated, C158_written, C158_digits
* `PropMacroFile.v`: C159_marks_partial, C159_sizes_refuted, C159_empty_refuted
* `PropKept.v`: C162_kept, C162_given, C162_definition, C162_number
* `PropHitConv.v`: C160_apart_partial, C160_first_of_each_tool, C160_no_exception, C160_shared_refuted
* `PropFormatStmt.v`: C161_statement, C161_coordinates_partial, C161_y_refuted
* `PropNetFile.v`: C163_netlist_partial, C163_continued_partial, C163_tooling_refuted
* `PropUnstated.v`: C164_given, C164_default
* `PropComment.v`: C60_built_partial
* `PropObject.v`: C165_opened, C165_converted_partial, C165_moved_partial, C165_single_segment_refuted
* `PropIdle.v`: C166_noted_partial, C166_first, C166_blank, C166_refuted
* `PropStay.v`: C167_holes_partial, C167_tools, C167_statements, C167_unit_refuted
* `PropNetIdle.v`: C168_records_partial, C168_lists, C168_refuted
* `PropEnd.v`: C169_gerber_partial, C169_drill_partial, C169_netlist_partial, C169_gerber_refuted, C169_drill_refuted, C169_netlist_refuted
* `PropNetStay.v`: C170_stays_partial, C170_lists, C170_error, C170_record_refuted, C170_units_refuted
* `PropDump.v`: C171_lines, C171_after, C171_tells_partial, C171_tells_refuted, C171_shape_refuted
* `PropNetEol.v`: C172_convention, C172_mixed
* `PropDrillEol.v`: C173_blanks, C173_convention_partial, C173_convention_refuted, C173_last
* `PropStmtEq.v`: C174_gerber, C174_answer_partial, C174_answer_refuted, C174_drill_partial, C174_drill_refuted, C174_kinds_refuted
* `PropPrimEq.v`: C175_tells
* `PropDrillStr.v`: C176_tells_partial, C176_described, C176_mode_refuted, C176_digits_refuted
* `PropLookup.v`: C177_found_partial, C177_plain_partial, C177_internal_partial, C177_found_refuted, C177_other_refuted, C177_order
* `PropToolRepr.v`: C178_describes_partial, C178_describes_refuted, C178_read_refuted
* `PropSetStr.v`: C179_tells
* `PropValid.v`: C180_point, C180_outline
* `PropIpcRepr.v`: C181_tells
* `PropHitStr.v`: C182_tells

Depend on `ClassicalDedekindReals.sig_forall_dec`:

* `PropCenter.v`: C100_multi

Depend on `ClassicalDedekindReals.sig_forall_dec`, `FunctionalExtensionality.functional_extensionality_dep`:

* `PropCairo.v`: C106_fits, C106_largest, C106_wide_refuted
* `PropGeom.v`: C77_group_box, C77_surrounded
* `PropHull.v`: C84_unique
* `PropMacroGeom.v`: C90_circle
* `PropCamShow.v`: C138_first_refuted

Depend on `ClassicalDedekindReals.sig_forall_dec`, `ClassicalDedekindReals.sig_not_dec`, `FunctionalExtensionality.functional_extensionality_dep`:

* `PropGeom.v`: C53_rotation_keeps_distances, C53_rotation_fixes_center, C53_rotations_add, C53_rotation_undone, C53_quarter_turn, C53_full_turn, C49_boxes_bound_refuted, C49_rectangle_rotations, C49_boxes_bound_partial, C49_ellipse, C49_diamond, C49_polygon
* `PropVert.v`: C111_rectangle_partial, C111_diamond_partial, C111_about_origin, C111_rotated_refuted, C111_box_partial, C112_spanned_partial, C112_contour_partial, C112_contour_refuted, C113_diagonals
* `PropPrimEq.v`: C175_new_partial

Depend on `ClassicalDedekindReals.sig_forall_dec`, `ClassicalDedekindReals.sig_not_dec`, `Classical_Prop.classic`, `FunctionalExtensionality.functional_extensionality_dep`:

* `PropCache.v`: C51_cache_refuted, C51_cache_partial, C51_exceptions, C51_groups_partial, C51_groups_refuted, C79_offset_partial, C79_convert, C79_convert_again, C79_offset_refuted
* `PropCairo.v`: C101_layer_partial, C101_top_refuted, C101_bounds, C102_inverted_partial, C102_clear_refuted, C102_hole_refuted, C103_shape_partial, C103_clear_hole_refuted, C103_turned_refuted, C103_empty_refuted, C104_counterclockwise_partial, C104_dot_refuted, C104_clockwise_refuted, C104_region_refuted, C105_parts_partial, C105_clear_refuted, C105_exposure_refuted, C105_refuted, C106_cut_off_refuted, C106_first_partial
* `PropCenter.v`: C100_clockwise_partial, C100_counterclockwise_partial, C100_right_refuted, C100_top_refuted, C100_unique
* `PropGeom.v`: C50_arc_bounds_refuted, C50_arc_bounds_partial, C75_stroked_arc_refuted, C75_round_aperture, C75_sized_aperture_partial, C76_sweep_refuted, C76_full_circle_refuted, C76_sweep_partial
* `PropHull.v`: C84_convex_hull, C85_refused_partial, C85_on_a_line, C85_refused_refuted, C86_line_outline
* `PropMacroGeom.v`: C87_center_line_partial, C87_about_own_center, C87_center_line_refuted, C88_vector_line_partial, C88_vector_line_refuted, C89_outline, C89_open, C90_polygon_partial, C90_polygon_refuted, C91_thermal_partial, C91_about_own_center, C91_thermal_refuted, C91_rotation_refuted, C92_group_partial, C92_group_refuted
* `PropScale.v`: C126_centres, C32_centres
* `PropShow.v`: C135_file_partial, C135_beyond, C135_refuted, C135_obround_refuted, C135_polygon_refuted, C136_inverted_partial, C136_refuted, C135_macro_refuted, C135_apart, C135_exposure_refuted
* `PropCamShow.v`: C137_whole_partial, C137_size, C137_inverted_partial, C137_refuted, C137_empty_refuted, C138_file_partial, C138_program_partial, C138_layer_partial, C138_inverted_partial
* `PropSimilar.v`: C139_moved_partial, C139_refuted, C139_origin_refuted, C140_converted_partial, C140_refuted
* `PropDrillShow.v`: C148_text_partial, C148_refuted, C148_rewritten, C148_line_endings, C149_moved_partial, C149_refuted, C150_refuted, C150_converted_partial, C151_rewritten_partial, C151_slot_refuted
* `PropNetShow.v`: C155_moved_partial, C155_inverted_partial, C155_origin_partial, C155_place_refuted, C155_bounds_refuted
* `PropCairoExact.v`: C101_exact, C101_aligned_partial, C102_exact_partial, C135_exact_partial, C137_exact_partial, C137_exact_inverted_partial, C138_exact, C138_exact_layer, C138_exact_inverted, C155_exact
* `PropMacroFile.v`: C159_image_partial
* `PropPrimEq.v`: C175_measured_partial, C175_measured_refuted
