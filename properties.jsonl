{"id": "C01", "title": "Coordinate text round trip", "statement": "Writing a coordinate that lies on the format's grid and parsing the text back with the same format and zero-suppression mode returns exactly the same value, including its sign.", "quantifier": "every format with 1..6 integer and 1..7 decimal digits, every zero-suppression mode (leading, trailing, none), every value k/10^d with |k| < 10^(i+d)", "why_tests_cant": "42 formats x 3 modes x up to 10^13 values each: tests sample a handful of formats and values.", "anchors": ["gerber/utils.py:write_gerber_value", "gerber/utils.py:parse_gerber_value"]}
{"id": "C02", "title": "Written coordinate is within half a unit in the last place", "statement": "For any value whose rounding fits the format, parsing the written text yields a value that differs from the original by at most half of the last decimal place; no digit is silently lost or shifted.", "quantifier": "every supported format with at least one integer and one decimal digit, every mode, every rational value whose rounding has at most i integer digits", "why_tests_cant": "The values range over a dense set; rounding and zero stripping interact at carries (9.9996 -> 10.000) that samples miss.", "anchors": ["gerber/utils.py:write_gerber_value", "gerber/utils.py:parse_gerber_value"]}
{"id": "C03", "title": "Shape of written coordinates", "statement": "The written text is '0' for every value that rounds to zero, otherwise an optional '-' followed only by decimal digits, at most i+d of them; in 'trailing' mode it does not end in '0', in 'leading' mode it does not start with '0' after the sign, in 'none' mode it has exactly i+d digits.", "quantifier": "every supported format with at least one integer and one decimal digit, every mode, every rational value whose rounding fits the format", "why_tests_cant": "The claim is about every character of every output.", "anchors": ["gerber/utils.py:write_gerber_value"]}
{"id": "C04", "title": "Coordinate encoding preserves order", "statement": "If a <= b then the value read back for a is <= the value read back for b, and two grid values that are written to the same text are equal: writing never reorders or merges distinct grid coordinates.", "quantifier": "every pair of values fitting the format, every supported format and mode", "why_tests_cant": "A statement about all pairs of values.", "anchors": ["gerber/utils.py:write_gerber_value", "gerber/utils.py:parse_gerber_value"]}
{"id": "C05", "title": "Meaning of coordinate digit strings", "statement": "A digit string of at most i+d digits denotes int(s)/10^d in 'leading' mode and its left-aligned value int(s)*10^(i+d-len(s))/10^d in 'trailing' mode; a leading '+' changes nothing, a leading '-' negates; supplying suppressed zeros explicitly (leading zeros in 'leading' mode, trailing zeros in 'trailing' mode) never changes the value.", "quantifier": "every digit string, every supported format, every mode, every sign", "why_tests_cant": "All digit strings of all lengths and all formats.", "anchors": ["gerber/utils.py:parse_gerber_value"]}
{"id": "C06", "title": "Explicit decimal points override the format", "statement": "A coordinate containing a decimal point denotes the written decimal number, whatever the format and zero-suppression settings, including settings that would otherwise be rejected.", "quantifier": "every decimal literal, every format (also unsupported ones), every mode", "why_tests_cant": "Ranges over all literals and all formats.", "anchors": ["gerber/utils.py:parse_gerber_value"]}
{"id": "C07", "title": "Unsupported precision is rejected, not mangled", "statement": "Parsing a digit string or writing a value raises ValueError exactly when the format asks for more than 6 integer digits, more than 7 decimal digits or more than 13 in total; reader and writer accept exactly the same formats.", "quantifier": "every pair of digit counts, every value, every mode", "why_tests_cant": "The guard must hold for all formats, and reader and writer must agree on all of them.", "anchors": ["gerber/utils.py:parse_gerber_value", "gerber/utils.py:write_gerber_value"]}
{"id": "C08", "title": "Unit conversion functions are inverse, linear and order preserving", "statement": "metric(inch(v)) = v and inch(metric(v)) = v; both are additive, keep 0 fixed, preserve sign and order.", "quantifier": "every value", "why_tests_cant": "Holds for all numbers; spot checks show it for a few.", "anchors": ["gerber/utils.py:metric", "gerber/utils.py:inch"]}
{"id": "C09", "title": "zeros and zero_suppression stay complementary", "statement": "After construction and any sequence of assignments of 'leading'/'trailing' to zeros or zero_suppression (by attribute or by key), zeros and zero_suppression are both in {'leading','trailing'} and are opposite.", "quantifier": "every accepted constructor call and every finite sequence of assignments", "why_tests_cant": "The number of histories is unbounded.", "anchors": ["gerber/cam.py:FileSettings"]}
{"id": "C10", "title": "Settings item assignment validates and is local", "statement": "settings[key]=value with an invalid value or unknown key raises and leaves every setting unchanged; with a valid value, settings[key] then returns it and every other setting (except the complementary zeros partner) is unchanged.", "quantifier": "every settings object, key and value", "why_tests_cant": "All key/value pairs and all prior states.", "anchors": ["gerber/cam.py:FileSettings.__setitem__", "gerber/cam.py:FileSettings.__getitem__"]}
{"id": "C11", "title": "Settings constructor accepts exactly the documented combinations", "statement": "The constructor raises ValueError for an invalid notation, units, format length, angle unit, for zeros equal to zero_suppression, and for an invalid zeros value given alone; otherwise it succeeds and the object reports the values given (an unrecognised zero_suppression is reported as 'leading').", "quantifier": "every combination of constructor arguments", "why_tests_cant": "The product of argument spaces is not enumerable by tests.", "anchors": ["gerber/cam.py:FileSettings.__init__"]}
{"id": "C12", "title": "A file object carries its parser settings faithfully", "statement": "The settings reported by a CAM file equal the settings it was constructed with (notation, units, zero suppression, format).", "quantifier": "every settings object that can be built by the constructor and setters", "why_tests_cant": "All reachable settings.", "anchors": ["gerber/cam.py:CamFile.__init__", "gerber/cam.py:CamFile.settings"]}
{"id": "C13", "title": "Macro arithmetic means what it says", "statement": "Evaluating an aperture macro modifier computes the value of the arithmetic expression with the usual precedence (x and / before + and -), left associativity and parentheses.", "quantifier": "every expression over literals, variables, + - x / and parentheses, every variable assignment", "why_tests_cant": "Expressions are unboundedly nested.", "anchors": ["gerber/am_read.py:read_macro", "gerber/am_eval.py:eval_macro"]}
{"id": "C14", "title": "Macro instruction evaluation is compositional", "statement": "Running the instructions of a well-formed expression on any stack pushes exactly that expression's value and changes nothing below it; so each primitive receives exactly its own modifiers, in order, and nothing leaks from one primitive to the next.", "quantifier": "every instruction list generated for a sequence of modifiers, every initial stack and variable assignment", "why_tests_cant": "Unbounded programs and stacks.", "anchors": ["gerber/am_eval.py:eval_macro"]}
{"id": "C15", "title": "Macro variables: binding, default and scope", "statement": "The n-th modifier of the aperture definition is $n; an unset variable is 0; an assignment is seen by every later block and by no earlier one; assignments made while one aperture is built are not seen when another is built with positional modifiers.", "quantifier": "every macro, every modifier list, every pair of apertures", "why_tests_cant": "All macros and all call histories.", "anchors": ["gerber/am_eval.py:eval_macro", "gerber/gerber_statements.py:AMParamStmt.build"]}
{"id": "C16", "title": "Unbalanced macro parentheses are rejected", "statement": "In an equation or in the modifiers of a primitive, a closing parenthesis that has no matching opening parenthesis in the same modifier raises ValueError; parentheses that match within each modifier never make a macro fail (it is accepted whenever the text with blanks instead of parentheses is).", "quantifier": "every macro text", "why_tests_cant": "All texts.", "anchors": ["gerber/am_read.py:read_macro"]}
{"id": "C17", "title": "Command splitting loses nothing but line breaks", "statement": "Splitting Gerber text into commands keeps every character in order except line breaks and an unterminated tail: concatenating the commands and the tail gives the text without line breaks; no command is empty or contains a line break.", "quantifier": "every text", "why_tests_cant": "All texts.", "anchors": ["gerber/rs274x.py:GerberParser._split_commands"]}
{"id": "C18", "title": "Line-ending convention does not matter", "statement": "A Gerber text written with \\n, \\r\\n or \\r line endings is split into the same commands.", "quantifier": "every text", "why_tests_cant": "All texts and all line-ending substitutions.", "anchors": ["gerber/rs274x.py:GerberParser._split_commands"]}
{"id": "C19", "title": "Coordinate statement write/read round trip", "statement": "A coordinate statement written with some settings and parsed with the same settings yields the same statement (function code, x, y, i, j, operation), provided its numbers are on the format's grid and in range.", "quantifier": "every combination of present/absent fields, every function and operation code, every grid value, every format and mode", "why_tests_cant": "2^6 field patterns x all values x all formats.", "anchors": ["gerber/gerber_statements.py:CoordStmt.to_gerber", "gerber/gerber_statements.py:CoordStmt.from_dict", "gerber/rs274x.py:GerberParser.COORD_STMT"]}
{"id": "C20", "title": "Statement text classification round trip", "statement": "Each written statement (coordinate, aperture select, level polarity, format, units, region mode, quadrant mode, comment, end of file, image polarity, aperture definition) is recognised by the parser as a statement of the same kind with the same fields, and consumes exactly its own text, leaving following text for the next statement.", "quantifier": "every statement with valid fields, every following text", "why_tests_cant": "The parser tries about 25 regular expressions in order on arbitrary remaining text; shadowing can only be excluded for all inputs by proof.", "anchors": ["gerber/rs274x.py:GerberParser._parse", "gerber/gerber_statements.py"]}
{"id": "C21", "title": "Whole Gerber file write/read round trip", "statement": "Writing the statements of a Gerber file and reading the text back gives the same statements in the same order.", "quantifier": "every list of valid statements in one consistent format", "why_tests_cant": "Files are unbounded; the parser carries state (format, header flag, carried-over text) from statement to statement.", "anchors": ["gerber/rs274x.py:GerberFile.write", "gerber/rs274x.py:GerberParser.parse_raw"]}
{"id": "C22", "title": "Parsing terminates and never duplicates input", "statement": "Every iteration of the statement loop consumes at least one character or ends the loop, so parsing any text terminates and produces at most one statement per input character.", "quantifier": "every text without include statements", "why_tests_cant": "All texts; non-termination cannot be tested for.", "anchors": ["gerber/rs274x.py:GerberParser._parse"]}
{"id": "C23", "title": "Include nesting is bounded", "statement": "A file that includes itself, directly or through others, makes parsing raise IOError after at most 10 nested levels instead of recursing forever; nesting that is at most 10 deep is accepted.", "quantifier": "every include graph", "why_tests_cant": "All include graphs, including cyclic ones.", "anchors": ["gerber/rs274x.py:GerberParser._parse"]}
{"id": "C24", "title": "Image equals the Gerber graphics-state semantics (strokes and flashes)", "statement": "The primitives produced are exactly those prescribed by the Gerber graphics state: each draw gives one line from the current point to the new point with the current aperture, each flash one copy of the current aperture at the new point, moves give nothing, all in order and with the polarity and units in force at that time.", "quantifier": "every statement sequence outside regions in linear interpolation", "why_tests_cant": "All statement sequences; the evaluator is a state machine with about ten modal variables.", "anchors": ["gerber/rs274x.py:GerberParser.evaluate", "gerber/rs274x.py:GerberParser._evaluate_coord"]}
{"id": "C25", "title": "Modal defaults can be made explicit", "statement": "Filling in every omitted coordinate, and every omitted operation code, with its current modal value does not change the image.", "quantifier": "every statement sequence", "why_tests_cant": "All sequences and all subsets of omitted fields.", "anchors": ["gerber/rs274x.py:GerberParser._evaluate_coord"]}
{"id": "C26", "title": "Already drawn objects are never changed by later statements", "statement": "The primitives produced by a prefix of a file are a prefix of the primitives of the whole file; redefining an aperture or macro later does not alter earlier lines and flashes.", "quantifier": "every file and every split point", "why_tests_cant": "All files and split points.", "anchors": ["gerber/rs274x.py:GerberParser.evaluate"]}
{"id": "C27", "title": "Comments, unknown and deprecated statements do not affect the image", "statement": "Inserting or deleting comments, unknown statements, deprecated codes or end-of-file statements anywhere leaves the primitives unchanged.", "quantifier": "every file, every set of insertion points", "why_tests_cant": "All files and insertion points.", "anchors": ["gerber/rs274x.py:GerberParser.evaluate"]}
{"id": "C28", "title": "Region contours become exactly one filled region each", "statement": "Between G36 and G37, each maximal run of draws of at least two segments ended by a move, and the final non-empty run ended by G37, yields one Region holding exactly those segments in order; no segment inside a region is stroked.", "quantifier": "every statement sequence inside a region", "why_tests_cant": "All contours and all interleavings of moves, draws and mode changes.", "anchors": ["gerber/rs274x.py:GerberParser._evaluate_mode", "gerber/rs274x.py:GerberParser._evaluate_coord"]}
{"id": "C29", "title": "Using an undefined aperture is an error, never a silent default", "statement": "A draw or flash outside a region while the selected aperture is undefined raises KeyError; with every used aperture defined beforehand evaluation of a linear file never raises.", "quantifier": "every statement sequence", "why_tests_cant": "All sequences.", "anchors": ["gerber/rs274x.py:GerberParser._evaluate_coord"]}
{"id": "C30", "title": "File extents enclose every primitive, tightly", "statement": "The file's bounding box contains the bounding box of every primitive and each of its four sides is attained by some primitive.", "quantifier": "every non-empty list of primitives with coordinates within +-1000000", "why_tests_cant": "All lists.", "anchors": ["gerber/rs274x.py:GerberFile.bounding_box", "gerber/rs274x.py:GerberFile.bounds", "gerber/excellon.py:ExcellonFile.bounding_box"]}
{"id": "C31", "title": "Gerber unit conversion round trip and idempotence", "statement": "Converting a file to the other unit and back restores every coordinate and aperture dimension; converting to the unit already in force changes nothing; every length is converted exactly once although apertures are shared between lines.", "quantifier": "every file and every sequence of to_inch/to_metric calls", "why_tests_cant": "All files and call sequences; sharing means an aperture can be reached through many objects.", "anchors": ["gerber/rs274x.py:GerberFile.to_inch", "gerber/rs274x.py:GerberFile.to_metric", "gerber/primitives.py:Primitive.to_metric"]}
{"id": "C32", "title": "Offsetting a Gerber file translates its image", "statement": "After offset(dx, dy), the statements evaluate to the original primitives translated by (dx, dy), and agree with the offset primitives.", "quantifier": "every file, every dx, dy", "why_tests_cant": "All files.", "anchors": ["gerber/rs274x.py:GerberFile.offset", "gerber/gerber_statements.py:CoordStmt.offset"]}
{"id": "C33", "title": "Scaling dimensions only: conversion never alters counts and angles", "statement": "Converting units changes lengths only: polygon vertex counts, rotation angles and dimensionless scale factors in statements are unchanged.", "quantifier": "every aperture definition and scale-factor statement", "why_tests_cant": "All statements.", "anchors": ["gerber/gerber_statements.py:ADParamStmt.to_metric", "gerber/gerber_statements.py:SFParamStmt.to_metric"]}
{"id": "C34", "title": "Rendering primitives to Gerber and evaluating them back is the identity", "statement": "Evaluating the statements produced by rendering a list of primitives to an RS-274X context gives back the same primitives in the same order: same geometry, aperture and polarity.", "quantifier": "every list of lines, flashes of circles/rectangles/obrounds/polygons and linear regions", "why_tests_cant": "All lists; the writer omits unchanged coordinates, apertures, polarity and modes, so correctness depends on the whole history.", "anchors": ["gerber/render/rs274x_backend.py:Rs274xContext"]}
{"id": "C35", "title": "Generated D-codes are unique, valid and defined before use", "statement": "Every aperture definition generated has a distinct D-code >= 10, every aperture selected in the body is defined in the header, and two flashes get the same D-code exactly when their shape, dimensions and hole agree.", "quantifier": "every sequence of rendered primitives", "why_tests_cant": "All sequences.", "anchors": ["gerber/render/rs274x_backend.py:Rs274xContext._get_circle", "gerber/render/rs274x_backend.py:Rs274xContext._select_aperture"]}
{"id": "C36", "title": "Excellon drilling semantics", "statement": "Reading a drill file yields, in order, exactly one hit per coordinate line, at the absolute position obtained by replacing (absolute mode) or adding (incremental mode) the given coordinates, each with the tool selected last.", "quantifier": "every sequence of tool selections, mode changes and coordinate lines in drill mode", "why_tests_cant": "All sequences.", "anchors": ["gerber/excellon.py:ExcellonParser._parse_line"]}
{"id": "C37", "title": "Incremental and absolute programs are interchangeable", "statement": "Rewriting an absolute coordinate program as increments (and vice versa) gives the same hits.", "quantifier": "every coordinate sequence", "why_tests_cant": "All sequences.", "anchors": ["gerber/excellon.py:ExcellonParser._parse_line"]}
{"id": "C38", "title": "Repeat hole drills an arithmetic progression", "statement": "R<n>X<dx>Y<dy> adds exactly n hits at p+(dx,dy), p+2(dx,dy), ..., p+n(dx,dy) with the current tool and leaves the position at the last one; omitted deltas count as 0.", "quantifier": "every n, dx, dy, starting position", "why_tests_cant": "All n.", "anchors": ["gerber/excellon.py:ExcellonParser._parse_line", "gerber/excellon_statements.py:RepeatHoleStmt.from_excellon"]}
{"id": "C39", "title": "Hit counters equal the number of hits", "statement": "For every tool, hit_count(tool) equals the number of entries in hits made with that tool, and hole_count is their sum.", "quantifier": "every program", "why_tests_cant": "All programs and modes.", "anchors": ["gerber/excellon.py:ExcellonFile.hit_count", "gerber/excellon.py:ExcellonParser._parse_line"]}
{"id": "C40", "title": "Excellon coordinate statement round trip", "statement": "Writing and reading a coordinate, slot (G85), repeat or tool-selection statement with the same settings gives the same statement for grid values in range.", "quantifier": "every statement, format and mode", "why_tests_cant": "All values, formats and field patterns.", "anchors": ["gerber/excellon_statements.py:CoordinateStmt", "gerber/excellon_statements.py:SlotStmt", "gerber/excellon_statements.py:RepeatHoleStmt", "gerber/excellon_statements.py:ToolSelectionStmt"]}
{"id": "C41", "title": "Excellon file write/read preserves the drilling job", "statement": "Writing a drill file and reading it back gives, for every tool, the same hits in the same order with the same tool diameter.", "quantifier": "every file of drill hits on the grid", "why_tests_cant": "All files.", "anchors": ["gerber/excellon.py:ExcellonFile.write", "gerber/excellon.py:ExcellonParser.parse_raw"]}
{"id": "C42", "title": "Excellon unit conversion converts the whole job", "statement": "to_metric/to_inch scale every hit position and every tool diameter by 25.4 exactly once, and converting back restores the file.", "quantifier": "every file, every call sequence", "why_tests_cant": "All files; tools are shared between hits.", "anchors": ["gerber/excellon.py:ExcellonFile.to_inch", "gerber/excellon.py:ExcellonFile.to_metric", "gerber/excellon.py:DrillHit.to_metric"]}
{"id": "C43", "title": "Excellon offset translates every hit and nothing else", "statement": "offset(dx,dy) moves every hit and slot by exactly (dx,dy), keeps tools and order; offsets add up and offset(-dx,-dy) undoes it.", "quantifier": "every file and sequence of offsets", "why_tests_cant": "All files and sequences.", "anchors": ["gerber/excellon.py:ExcellonFile.offset"]}
{"id": "C44", "title": "Path length per tool", "statement": "path_length(tool) is the length of the polyline from the origin through that tool's hits in order, independent of hits of other tools; a tool without hits is absent.", "quantifier": "every hit list, every distance function", "why_tests_cant": "All interleavings of tools.", "anchors": ["gerber/excellon.py:ExcellonFile.path_length"]}
{"id": "C45", "title": "Updating a tool affects exactly that tool", "statement": "update_tool(n, ...) changes only the given parameters of tool n, and every hit made with tool number n then refers to the updated tool; hits of other tools and all positions are unchanged.", "quantifier": "every file, tool number and parameter set", "why_tests_cant": "All files.", "anchors": ["gerber/excellon.py:ExcellonFile.update_tool"]}
{"id": "C46", "title": "Layer sorting is an ordered selection", "statement": "sort_layers returns each given layer of a known class exactly once, in stack-up order (internal layers by their number, equal classes in input order), drills and drawings last, and reversing the direction reverses the stack.", "quantifier": "every list of layers", "why_tests_cant": "All lists, all multiplicities.", "anchors": ["gerber/layers.py:sort_layers"]}
{"id": "C47", "title": "Board sides are disjoint and complete", "statement": "top_layers and bottom_layers contain only layers of their own side plus the drill layers, and every layer of that side appears in them.", "quantifier": "every board", "why_tests_cant": "All layer sets.", "anchors": ["gerber/pcb.py:PCB.top_layers", "gerber/pcb.py:PCB.bottom_layers"]}
{"id": "C48", "title": "File format detection depends on the first telling line only", "statement": "The detected type is that of the first line containing a tell-tale (M48, %FS, 'P JOB'); later lines never matter, and 'unknown' is returned exactly when no line has one.", "quantifier": "every text", "why_tests_cant": "All texts.", "anchors": ["gerber/utils.py:detect_file_format", "gerber/common.py:loads"]}
{"id": "C49", "title": "Bounding boxes enclose their shape", "statement": "The bounding box of a line stroked with a round or rectangular aperture, of a circle, rectangle, obround, drill or slot contains every point of the shape, and each side touches the shape.", "quantifier": "every shape, every point of it", "why_tests_cant": "Infinitely many points of infinitely many shapes.", "anchors": ["gerber/primitives.py:Line.bounding_box", "gerber/primitives.py:Circle.bounding_box", "gerber/primitives.py:Rectangle.bounding_box", "gerber/primitives.py:Slot.bounding_box"]}
{"id": "C50", "title": "Arc bounding boxes enclose the arc", "statement": "The aperture-less bounding box of an arc contains every point of the arc from its start to its end in its direction.", "quantifier": "every arc, every point on it", "why_tests_cant": "Infinitely many arcs and points; quadrant crossings are where it goes wrong.", "anchors": ["gerber/primitives.py:Arc.bounding_box_no_aperture"]}
{"id": "C51", "title": "Cached geometry is never stale", "statement": "After any sequence of reads and attribute assignments (position, size, endpoints, units conversion, offset), bounding_box equals the bounding box of a freshly built primitive with the same attributes.", "quantifier": "every primitive, every sequence of reads and mutations", "why_tests_cant": "Unbounded histories; caches depend on the order of reads and writes.", "anchors": ["gerber/primitives.py:Primitive._changed", "gerber/primitives.py:Line", "gerber/primitives.py:Slot"]}
{"id": "C52", "title": "Primitive unit conversion scales geometry", "statement": "to_metric on a primitive in inches multiplies every length, and hence the bounding box, by 25.4 and leaves counts and angles alone; doing it twice is the same as once; to_inch undoes it; this includes nested primitives of regions and groups.", "quantifier": "every primitive, including nested ones", "why_tests_cant": "All nesting shapes and list lengths.", "anchors": ["gerber/primitives.py:Primitive.to_inch", "gerber/primitives.py:Primitive.to_metric"]}
{"id": "C53", "title": "Rotation is a rigid motion", "statement": "rotate_point preserves distances, keeps the centre fixed, composes additively in the angle, and rotating by -a undoes rotating by a.", "quantifier": "every point, angle, centre", "why_tests_cant": "All reals.", "anchors": ["gerber/utils.py:rotate_point"]}
{"id": "C54", "title": "Moving a macro group moves its parts rigidly", "statement": "Setting the position of an AMGroup translates every contained primitive by the same vector, the new minus the old position, so successive moves only depend on the final position.", "quantifier": "every group, every sequence of positions", "why_tests_cant": "All groups and histories.", "anchors": ["gerber/primitives.py:AMGroup.position"]}
{"id": "C55", "title": "IPC netlist continuation lines", "statement": "Splitting a record over continuation lines does not change what is read.", "quantifier": "every record and every split position respecting the format", "why_tests_cant": "All records and splits.", "anchors": ["gerber/ipc356.py:IPC_D_356_Parser.parse_raw"]}
{"id": "C56", "title": "IPC nets partition test records and keep adjacency", "statement": "nets contains each net name exactly once, and each net lists exactly the nets declared adjacent to it.", "quantifier": "every netlist", "why_tests_cant": "All netlists and record orders.", "anchors": ["gerber/ipc356.py:IPCNetlist.nets"]}
{"id": "C57", "title": "File operations leave their argument untouched", "statement": "operations.to_inch / to_metric / offset return a converted copy and never modify the file passed in, however much structure is shared inside it.", "quantifier": "every file object graph", "why_tests_cant": "All object graphs.", "anchors": ["gerber/operations.py"]}
{"id": "C58", "title": "Round trip in formats without integer or without decimal digits", "statement": "Writing a grid value and parsing it back is the identity also in the formats 0:d and i:0 that the format statement admits.", "quantifier": "every supported format including those with 0 integer or 0 decimal digits, every mode, every grid value in range", "why_tests_cant": "the failing formats are corner cases no example file uses; all values and modes are quantified", "anchors": ["gerber/utils.py:32-167"]}
{"id": "C59", "title": "Values too large for the format are not silently corrupted", "statement": "Writing a value either raises or yields a text that reads back within half a unit in the last place.", "quantifier": "every value (also out of range), every usable format and mode", "why_tests_cant": "unbounded values; out-of-range values arise only after unit conversion", "anchors": ["gerber/utils.py:97-167"]}
{"id": "C60", "title": "Macro comments have no effect", "statement": "Adding or removing a comment primitive (code 0) anywhere in an aperture macro changes neither the other primitives the macro produces nor their modifiers.", "quantifier": "every macro, every position, every comment text", "why_tests_cant": "All macros and comment texts.", "anchors": ["gerber/am_read.py:read_macro", "gerber/am_eval.py:eval_macro"]}
{"id": "C61", "title": "A leading minus in a macro modifier negates its operand", "statement": "A modifier that starts with a minus sign has the value of the expression with its first term negated, and the minus affects no other modifier.", "quantifier": "every modifier expression, every variable assignment", "why_tests_cant": "All expressions.", "anchors": ["gerber/am_read.py:read_macro"]}
{"id": "C62", "title": "Terminated Gerber data is never dropped", "statement": "When every command of a Gerber text is terminated, no character other than line breaks is dropped by command splitting.", "quantifier": "every text whose commands are all terminated", "why_tests_cant": "All texts.", "anchors": ["gerber/rs274x.py:GerberParser._split_commands"]}
{"id": "C63", "title": "Aperture dimensions are written to within 1/2000", "statement": "Writing an aperture definition and reading it back changes each (positive) dimension by at most 0.05 percent, and leaves the D code, the shape and the number of dimensions unchanged.", "quantifier": "every D code, standard shape and non-empty list of positive dimensions, every following text", "why_tests_cant": "Dimensions are arbitrary numbers; the bound must hold at every magnitude and rounding boundary.", "anchors": ["gerber/gerber_statements.py:ADParamStmt.to_gerber", "gerber/gerber_statements.py:ADParamStmt.__init__"]}
{"id": "C64", "title": "Decimal strings are exact", "statement": "decimal_string(v, precision, padding) of a value with at most precision decimals is its exact decimal notation, with a point, at most precision decimals, and exactly precision of them when padding.", "quantifier": "every value of at most ten significant digits, every precision", "why_tests_cant": "The output goes through '%.10g' and string surgery; whether digits or zeros are lost depends on the magnitude of every value, not on the few tested.", "anchors": ["gerber/utils.py:170-205"]}
{"id": "C65", "title": "Drill file bounding box is the smallest enclosing box", "statement": "bounding_box of a drill file contains every point removed by its holes and slots, and each of its four sides touches one of them.", "quantifier": "every file with at least one hit, tools with a diameter, coordinates below 1e11", "why_tests_cant": "The box is a fold over any number of hits with sentinel start values; tests have a handful of hits in one quadrant.", "anchors": ["gerber/excellon.py:114-119", "gerber/excellon.py:156-162", "gerber/excellon.py:224-234"]}
{"id": "C66", "title": "Settings equality means equal settings", "statement": "Two FileSettings objects made by the constructor and any documented assignments compare equal exactly when they agree on every key.", "quantifier": "every pair of settings objects and assignment sequences", "why_tests_cant": "__eq__ compares five of the six stored attributes; that the sixth follows needs the invariant over all assignment sequences.", "anchors": ["gerber/cam.py:165-170"]}
{"id": "C67", "title": "A listed extension decides the layer class", "statement": "A file whose extension is one of those listed for a layer class is guessed to be of that class, whatever its directory and letter case.", "quantifier": "every file name", "why_tests_cant": "Every file name cannot be tried; which name tokens shadow which extensions depends on the order of the whole table.", "anchors": ["gerber/layers.py:guess_layer_class"]}
{"id": "C68", "title": "Internal layers are numbered by their file name", "statement": "The order number of an internal layer is the first number in its file name.", "quantifier": "every directory and file name", "why_tests_cant": "Tests use short relative names; digits in a directory part change the result.", "anchors": ["gerber/layers.py:InternalLayer.from_cam"]}
{"id": "C69", "title": "Copper layers and board bounds", "statement": "copper_layers lists exactly the copper layers given, from the bottom up, layer_count is their number, and the bounds of the board are those of an outline layer, else of a top layer, and None only when there is neither.", "quantifier": "every list of layers", "why_tests_cant": "Needs every combination of layers in every order.", "anchors": ["gerber/pcb.py:PCB.copper_layers", "gerber/pcb.py:PCB.layer_count", "gerber/pcb.py:PCB.board_bounds"]}
{"id": "C70", "title": "The kind of file decides its layer kind", "statement": "A drill file always becomes a drill layer (and nothing else does), a netlist always a netlist layer, and a Gerber file a layer of the class guessed from its name.", "quantifier": "every file of each kind, every file name", "why_tests_cant": "Every file name cannot be tried.", "anchors": ["gerber/layers.py:PCBLayer.from_cam"]}
{"id": "C71", "title": "IPC test record columns", "statement": "Reading a test record written in the columns of the format gives back the net, component, pin, hole, access side, position, size, rotation and solder mask that were written, scaled to the units in force.", "quantifier": "every record fitting the columns", "why_tests_cant": "Unbounded field values and combinations.", "anchors": ["gerber/ipc356.py:IPC356_TestRecord.from_line"]}
{"id": "C72", "title": "IPC parameters take effect from their line on", "statement": "The last UNITS parameter above a record decides the units it is read in, and a net name that is an NNAME variable is replaced by the last value given to that variable above the record; other names are kept.", "quantifier": "every sequence of records", "why_tests_cant": "All orders and contents of files.", "anchors": ["gerber/ipc356.py:IPC_D_356_Parser._parse_line", "gerber/ipc356.py:IPC356_Parameter.from_line"]}
{"id": "C73", "title": "IPC outline and conductor coordinates", "statement": "An outline or conductor record gives its coordinates in order, scaled to the units in force, a missing coordinate being that of the previous point; conductor shapes are the parts separated by asterisks.", "quantifier": "every list of coordinates", "why_tests_cant": "Unbounded lists and numbers.", "anchors": ["gerber/ipc356.py:IPC356_Outline.from_line", "gerber/ipc356.py:IPC356_Conductor.from_line"]}
{"id": "C74", "title": "IPC rendering by side; components and vias", "statement": "Rendering a side draws exactly the test points accessible from that side; components lists every component once and vias every via record.", "quantifier": "every netlist", "why_tests_cant": "All netlists.", "anchors": ["gerber/ipc356.py:IPCNetlist.render", "gerber/ipc356.py:IPCNetlist.components", "gerber/ipc356.py:IPCNetlist.vias"]}
{"id": "C75", "title": "Stroked arcs stay inside their bounding box", "statement": "The bounding box of an arc drawn with a round aperture is the smallest one around everything the aperture covers along the arc; with an aperture that has a width and a height it encloses what the aperture covers.", "quantifier": "every multi-quadrant arc, every aperture size", "why_tests_cant": "Infinitely many arcs and points.", "anchors": ["gerber/primitives.py:Arc.bounding_box"]}
{"id": "C76", "title": "The sweep of an arc is the angle it travels", "statement": "sweep_angle is the angle, in radians, through which the arc travels from its start to its end in its direction.", "quantifier": "every arc", "why_tests_cant": "All pairs of angles; the wrap at 0 degrees is where it goes wrong.", "anchors": ["gerber/primitives.py:Arc.sweep_angle"]}
{"id": "C77", "title": "The box of a group is the box of its parts", "statement": "The bounding box of a region, outline or macro group is the smallest box around all its parts, and it encloses everything that a contour made of these parts surrounds.", "quantifier": "every list of parts", "why_tests_cant": "Unbounded lists of arbitrary shapes.", "anchors": ["gerber/primitives.py:Region.bounding_box", "gerber/primitives.py:Outline.bounding_box", "gerber/primitives.py:AMGroup.bounding_box"]}
{"id": "C78", "title": "A rendered file, written and read back, shows the same primitives", "statement": "Rendering primitives to an RS-274X context, dumping it, and parsing and evaluating the text gives the same primitives in the same order: same points, aperture shape and hole, and polarity, in the units of the context's settings.", "quantifier": "every list of lines and arcs drawn with circles or plain rectangles and obrounds, connected regions, and flashes of circles, rectangles, obrounds and polygons, with coordinates on the grid of the number format and dimensions of at most four digits; every announceable number format", "why_tests_cant": "The text depends on the whole history of the writer (omitted coordinates and modes), on number formatting and on the parser; tests compare a few files.", "anchors": ["gerber/render/rs274x_backend.py:Rs274xContext.dump", "gerber/rs274x.py:GerberParser.parse_raw", "gerber/gerber_statements.py:CoordStmt.to_gerber"]}
{"id": "C79", "title": "Moving a primitive moves its bounding boxes, converting scales them", "statement": "After any history of reads and assignments, offsetting a primitive translates its bounding box and its aperture-less bounding box by the offset; converting it from the other unit scales both by 25.4 or 1/25.4; converting to the unit it already has changes nothing.", "quantifier": "every primitive class with a single bounding box, every history of operations, every offset", "why_tests_cant": "Histories interleave memoization with assignments; arcs and ellipses involve trigonometry on arbitrary reals.", "anchors": ["gerber/primitives.py:Primitive.offset", "gerber/primitives.py:Primitive.to_inch", "gerber/primitives.py:Arc.bounding_box"]}
{"id": "C80", "title": "Numbers pass through str() and float() unchanged", "statement": "Every number handed as text from the macro evaluator to the primitives (str() of a float, then float() of the text) arrives as the same double; a decimal of at most 15 significant digits is printed as exactly that decimal.", "quantifier": "all doubles; all decimals of at most 15 digits", "why_tests_cant": "The shortest-representation algorithm has infinitely many inputs and its hard cases lie between neighbouring doubles; a test samples a few.", "anchors": ["gerber/gerber_statements.py:427-456", "gerber/am_statements.py:58-1046"]}
{"id": "C81", "title": "An aperture macro statement written and read back has the same primitives", "statement": "Writing an aperture macro with to_gerber and parsing the text gives one macro statement with the same name whose primitives are equal to the original ones, in order.", "quantifier": "all macro names, all non-empty lists of primitives", "why_tests_cant": "Depends on number formatting, line splitting, continuation of parameters, the regular expression of AM and the macro reader together, for arbitrary lists of primitives.", "anchors": ["gerber/am_statements.py:132-1046", "gerber/gerber_statements.py:389-472", "gerber/rs274x.py:279-480"]}
{"id": "C82", "title": "Unit conversion of an aperture macro converts its lengths exactly once", "statement": "to_metric of a macro statement in inches multiplies every length of every primitive by 25.4 and leaves exposures, counts and angles; to_inch divides; a second conversion changes nothing and there and back gives the original.", "quantifier": "all statements and primitives", "why_tests_cant": "Each primitive class converts its own attributes; an attribute forgotten or converted twice shows only with particular values.", "anchors": ["gerber/am_statements.py:132-1046", "gerber/gerber_statements.py:427-468"]}
{"id": "C83", "title": "Macro primitives are read as the format's table says", "statement": "Each primitive of an aperture macro becomes the object that the table of the Gerber format gives for its code and modifiers, for any expressions and aperture modifiers; primitives with missing modifiers are rejected, and codes outside the table are never taken for codes of the table.", "quantifier": "all macros, aperture modifiers, codes and modifier lists", "why_tests_cant": "The dispatch is by the first characters of the text and the modifiers are picked by position; only a proof covers all codes and all lengths.", "anchors": ["gerber/am_statements.py:58-1046", "gerber/gerber_statements.py:427-456"]}
{"id": "C84", "title": "convex_hull returns the convex hull", "statement": "For every list of points which are not all on one line, in any order and with any repetitions, gerber.utils.convex_hull returns a list of given points, without repetition, which is the counterclockwise contour of their convex hull: every given point is on or to the left of every side, nothing to the left of all sides reaches farther in any direction than the corners, and every corner is needed (in some direction it is farther out than every other given point). The corners are determined by this.", "quantifier": "for all lists of points (in exact arithmetic) which are not all on one line", "why_tests_cant": "the recursion splits the points by comparing angles from atan2; tests try a dozen fixed points, and the order, the duplicates, points on edges and the wrap-around of angles make infinitely many cases", "anchors": ["gerber/utils.py:345-458 (ConvexHull_qh, _optimize, _distance, _findhull, convex_hull)"]}
{"id": "C85", "title": "convex_hull refuses points without an area", "statement": "For a list of points which lie on one line (or fewer than three points) convex_hull raises an exception ('not a planar shape').", "quantifier": "for all lists of points on one line", "why_tests_cant": "the outcome depends on the direction of the line: only upright lines raise, others silently give an empty list", "anchors": ["gerber/utils.py:345-401"]}
{"id": "C86", "title": "The outline of a line drawn with a rectangle", "statement": "For every start and end point and every rectangular aperture with a positive width and height, Line.vertices lists the corners, without repetition, of the polygon which encloses exactly the points the rectangle covers while moving from start to end.", "quantifier": "for all pairs of end points and all positive widths and heights", "why_tests_cant": "equality of two infinite sets of points, for all directions of the line", "anchors": ["gerber/primitives.py:269-297 (Line.vertices)", "gerber/utils.py:345-458"]}
{"id": "C87", "title": "The shape of a centre line primitive", "statement": "For a macro primitive of code 21 with positive width and height, to_primitive gives one outline with the primitive's exposure which encloses exactly the rectangle of that size around the given centre, turned by the rotation about the origin of the macro.", "quantifier": "for all sizes, centres, rotations and exposures", "why_tests_cant": "the claim compares infinite sets of points, for all sizes, positions and angles", "anchors": ["gerber/am_statements.py:923-945", "gerber/primitives.py:1356-1368 (Outline)"]}
{"id": "C88", "title": "The shape of a vector line primitive", "statement": "For a macro primitive of code 2 or 20 with a positive width and distinct ends, to_primitive gives one outline with the primitive's exposure which encloses exactly the rectangle from the start to the end of that width, turned by the rotation about the origin.", "quantifier": "for all widths, end points, rotations and exposures", "why_tests_cant": "the claim compares infinite sets of points, for all sizes, positions and angles", "anchors": ["gerber/am_statements.py:312-332", "gerber/primitives.py:269-297"]}
{"id": "C89", "title": "The shape of an outline primitive", "statement": "For a macro primitive of code 4 with at least one point, to_primitive gives one outline, the closed chain of lines through the start and the points in their order, all turned by the rotation about the origin; if the last point is not the start it raises ValueError.", "quantifier": "for all start points, lists of points and rotations", "why_tests_cant": "the number of points is unbounded", "anchors": ["gerber/am_statements.py:435-453", "gerber/primitives.py:1362-1368"]}
{"id": "C90", "title": "The shape of circle and polygon primitives", "statement": "A macro primitive of code 1 gives a circle with its position and diameter; one of code 5 gives a polygon whose corners are those of the regular polygon with the first corner to the right of its position, turned by the rotation about the origin.", "quantifier": "for all positions, diameters, numbers of vertices and rotations", "why_tests_cant": "unbounded numbers of vertices and all angles", "anchors": ["gerber/am_statements.py:220-221", "gerber/am_statements.py:549-550"]}
{"id": "C91", "title": "The shape of a thermal primitive", "statement": "A macro primitive of code 7 gives four outlines, one for each quarter; all their points lie in that quarter of the ring between the inner and outer diameter, outside of the gap, and the corners of the quarter are among them; everything is turned by the rotation about the origin.", "quantifier": "for all positions, rotations, and diameters and gaps for which the format allows the thermal", "why_tests_cant": "the claim compares infinite sets of points, for all sizes, positions and angles", "anchors": ["gerber/am_statements.py:753-830"]}
{"id": "C92", "title": "A macro shows all its primitives", "statement": "The shapes of a flashed macro are those of its primitives, in their order; every primitive but a comment contributes.", "quantifier": "for all lists of primitives", "why_tests_cant": "all lists of all kinds of primitives", "anchors": ["gerber/primitives.py:1259-1276", "gerber/am_statements.py:663-665", "gerber/am_statements.py:83-86"]}
{"id": "C93", "title": "Tool tables are read as written", "statement": "excellon_tool.loads reads a file of tool table rows and 'Holesize' lines as one tool per number, that of the last line with the number, with the hole size converted to the units of the settings and with the plating stated; other lines are ignored; settings are optional.", "quantifier": "for all files of rows, hole sizes and other lines, with any indentation, in both units", "why_tests_cant": "files and numbers are unbounded", "anchors": ["gerber/excellon_tool.py:34-124"]}
{"id": "C94", "title": "Comments in the header of drill files", "statement": "A drill file whose header contains comments, FILE_FORMAT comments, hole sizes in comments, plating comments and tool definitions, read with or without tools given beforehand, yields the holes of its program; the diameter of a tool is that of its definition, else of the last comment about it, else of the tool given, else the default by number; the last FILE_FORMAT comment or the unit line determines the format.", "quantifier": "for all headers, tools given, programs, formats and units", "why_tests_cant": "unbounded headers and programs; the precedence of four sources of diameters for every tool number", "anchors": ["gerber/excellon.py:447-487", "gerber/excellon.py:780-795", "gerber/excellon_tool.py:56-124"]}
{"id": "C95", "title": "Drill reports are read as written", "statement": "excellon_tool.loads_rep reads the rows below the rule of a drill report as one tool per number with size, plating mark, feed and speed; lines above the rule, further rules and lines without six columns are ignored.", "quantifier": "for all headings, rows, column spacings and line ends", "why_tests_cant": "unbounded tables", "anchors": ["gerber/excellon_tool.py:126-190"]}
{"id": "C96", "title": "Settings files are read as written", "statement": "excellon_settings.loads returns settings with the coordinates, units and numbers of places stated last in the file; a file lacking one of the four is refused with KeyError.", "quantifier": "for all settings files with any other lines and column spacings", "why_tests_cant": "unbounded files and orders of lines", "anchors": ["gerber/excellon_settings.py:35-104"]}
{"id": "C97", "title": "Drill files with a stated format are read without settings", "statement": "excellon.loads without settings reads a file whose unit line or FILE_FORMAT comments state the number format as the holes of its program in that format, with the declared units and zero suppression; a single FILE_FORMAT comment and the unit line are what detect_excellon_format returns.", "quantifier": "for all headers, programs, formats, units and tools given", "why_tests_cant": "the file is tried out in several formats before; unbounded headers and programs", "anchors": ["gerber/excellon.py:62-84", "gerber/excellon.py:797-890"]}
{"id": "C98", "title": "How the number format of a drill file is detected", "statement": "detect_excellon_format takes what is stated exactly once as stated; of the remaining combinations of formats and zero suppression it returns one with the least score among those with which the file can be read and whose holes have diameters, and raises ValueError if there is none; a file which cannot be read with default settings is refused.", "quantifier": "for all files", "why_tests_cant": "minimality over all options on unbounded files; errors in single trials are swallowed", "anchors": ["gerber/excellon.py:797-904"]}
{"id": "C99", "title": "Metric drill files without a stated format", "statement": "excellon.loads without settings reads a metric file in the usual 3:3 format which does not state its format in the right scale.", "quantifier": "for all metric files", "why_tests_cant": "depends on a score over all files", "anchors": ["gerber/excellon.py:797-904"]}
{"id": "C100", "title": "Centres of arcs in single quadrant mode", "statement": "For an arc of at most 90 degrees given by its start, end, direction and the distances of its centre from the start, GerberParser chooses the signs so that the centre of the arc is found.", "quantifier": "for all starts, ends, radii, angles and directions", "why_tests_cant": "real geometry; the wrong candidates must be excluded for all arcs", "anchors": ["gerber/rs274x.py:727-781"]}
{"id": "C101", "title": "Images of layers", "statement": "The image which GerberCairoContext draws of a layer is dark at exactly those points of its bounds at which the layer is (dark primitives add, clear ones remove, in their order), at the chosen scale, upside up, and mirrored if asked for; nothing is drawn beyond the bounds.", "quantifier": "for all layers of primitives with correct bounding boxes, all bounds, scales and rules for the inside of contours", "why_tests_cant": "geometry over the reals; all pixels of all layers", "anchors": ["gerber/render/cairo_backend.py:33-101", "gerber/render/cairo_backend.py:170-560", "gerber/render/cairo_backend.py:583-607"]}
{"id": "C102", "title": "Images of inverted layers", "statement": "The image of a layer drawn with invert set is dark at exactly those points of the bounds at which the layer is not.", "quantifier": "for all layers, bounds and scales", "why_tests_cant": "geometry over the reals; all pixels of all layers", "anchors": ["gerber/render/cairo_backend.py:193-228", "gerber/render/cairo_backend.py:533-549"]}
{"id": "C103", "title": "Shapes in images", "statement": "Every primitive covers its shape in the image: lines, arcs, regions, circles, rectangles, obrounds and polygons, with their holes left open and turned by their rotation.", "quantifier": "for all primitives, polarities and scales", "why_tests_cant": "geometry over the reals; all pixels of all layers", "anchors": ["gerber/render/cairo_backend.py:205-516"]}
{"id": "C104", "title": "Full circles in images", "statement": "An arc in multi quadrant mode which ends where it starts is drawn as a full circle, in both directions, and bounds a disc as the contour of a region.", "quantifier": "for all full circles, pens and scales", "why_tests_cant": "the angles coincide; real geometry for all circles", "anchors": ["gerber/render/cairo_backend.py:230-260", "gerber/render/cairo_backend.py:285-305"]}
{"id": "C105", "title": "Macros in images", "statement": "A flashed macro is drawn as one picture made of its parts, with the polarity of the flash; parts with the exposure off only remove earlier parts of the macro.", "quantifier": "for all layers with macros", "why_tests_cant": "geometry over the reals; all pixels of all layers", "anchors": ["gerber/render/cairo_backend.py:514-516"]}
{"id": "C106", "title": "Scale of images of several layers", "statement": "render_layers chooses the largest whole number of pixels per unit with which all layers fit into the given size, the image is not larger than this size, and all of every layer is shown.", "quantifier": "for all lists of layers and sizes", "why_tests_cant": "a maximum over all scales and layers", "anchors": ["gerber/render/cairo_backend.py:65-131"]}
{"id": "C107", "title": "Comparison of macro shapes", "statement": "The method equivalent finds two flashes of aperture macros equal exactly when they look the same apart from where they are.", "quantifier": "for all macro shapes, positions and offsets", "why_tests_cant": "there are infinitely many pairs of shapes; which attributes are left out shows only for particular pairs", "anchors": ["gerber/primitives.py:306-315", "gerber/primitives.py:582-593", "gerber/primitives.py:767-778", "gerber/primitives.py:1242-1253", "gerber/primitives.py:1340-1354", "gerber/primitives.py:1409-1422", "gerber/utils.py:303-306"]}
{"id": "C108", "title": "Files with macro flashes", "statement": "Primitives and macro flashes rendered to an RS-274X file are read back as the same primitives and macro flashes in the same order; D-codes are distinct, at least 10 and defined before use, and a shape that was used before is not defined again.", "quantifier": "for all lists of primitives and macro flashes, settings and options", "why_tests_cant": "the mapping from shapes to names and codes depends on everything rendered before", "anchors": ["gerber/render/rs274x_backend.py:15-82", "gerber/render/rs274x_backend.py:398-490"]}
{"id": "C109", "title": "The statement kept with a macro flash", "statement": "The statement that a flash of a macro keeps, and from which it is written, contains the primitives of the aperture flashed.", "quantifier": "for all sequences of macro and aperture definitions, selections and flashes", "why_tests_cant": "the statement object is shared by all apertures made from it; only histories with several definitions show it", "anchors": ["gerber/gerber_statements.py:427-456", "gerber/rs274x.py:584-587", "gerber/rs274x.py:706-716"]}
{"id": "C110", "title": "Plating stated in drill files", "statement": "The tool of every hole read from a drill file is plated as the header states: by the last TYPE comment above its definition, else by the comment with its hole size, else by the tools given beforehand.", "quantifier": "for all headers, programs and tools given beforehand", "why_tests_cant": "the plating of a tool depends on the order of comments and definitions", "anchors": ["gerber/excellon.py:450-479", "gerber/excellon.py:639-642", "gerber/excellon.py:753-796"]}
{"id": "C111", "title": "Corners of rectangles and diamonds", "statement": "The vertices of a Rectangle (Diamond) primitive with positive width and height are the four corners, in clockwise order, of the rectangle (rhombus) of that width and height centred at its position and turned by its rotation about that centre; and its bounding box is the smallest axis-parallel box around them.", "quantifier": "for all positions, widths, heights and rotations", "why_tests_cant": "needs all rotations and positions; tests only use unrotated shapes or shapes at the origin", "anchors": ["gerber/primitives.py:745-756", "gerber/primitives.py:840-851", "gerber/primitives.py:735-743"]}
{"id": "C112", "title": "Corners of chamfered rectangles", "statement": "The vertices of a ChamferRectangle, in order, are the corners of the rectangle with exactly the selected corners cut off at 45 degrees by the chamfer length: the contour through them encloses that shape, without crossing itself.", "quantifier": "for all positions, sizes, chamfers of at most half the sides, selections of corners and rotations", "why_tests_cant": "sixteen selections of corners times all sizes; the tests compare the vertices of one rectangle", "anchors": ["gerber/primitives.py:935-969"]}
{"id": "C113", "title": "Segments join all pairs of corners", "statement": "The segments of a primitive with vertices connect every pair of its vertices exactly once, n(n-1)/2 for n vertices, so they contain the diagonals of a rectangle as well as its sides; a primitive without vertices has none.", "quantifier": "for all lists of vertices", "why_tests_cant": "counts for every number of vertices", "anchors": ["gerber/primitives.py:97-103"]}
{"id": "C114", "title": "Drill programs that mill slots", "statement": "Reading a drill file whose program mixes holes, repeats, tool changes, absolute and incremental notation, rapid moves (G00), milling (G01, G02, G03, and coordinates that continue it), lowering and raising the tool (M15, M16, M17), the return to drilling (G05) and slots (G85) yields, in order, one hit per hole, slot and milled segment, between the right positions, with the tool selected when it is made and that tool's diameter.", "quantifier": "for all formats, zero suppressions, headers and programs", "why_tests_cant": "unbounded programs over a dozen instructions with modal state (mode, height, notation, position, tool)", "anchors": ["gerber/excellon.py:505-745", "gerber/excellon_statements.py:368-503", "gerber/excellon_statements.py:844-897"]}
{"id": "C115", "title": "Milling needs a lowered tool", "statement": "Whatever text is read as a drill file, if no line starts with M15 then no hit of the result is a milled slot.", "quantifier": "for all texts, settings and given tools", "why_tests_cant": "arbitrary text, in every mode of the parser", "anchors": ["gerber/excellon.py:505-600"]}
{"id": "C116", "title": "Drill files rendered into an Excellon context", "statement": "Rendering a drill file into an ExcellonContext, writing the context's statements one per line and reading that text with any settings yields the same holes, slots and milled segments in the same order, with tools of the same numbers and diameters.", "quantifier": "for all drill jobs, formats, units and zero suppressions, and all settings used for reading", "why_tests_cant": "unbounded jobs; the writer omits coordinates, mode changes and tool selections that repeat the state the reader keeps", "anchors": ["gerber/render/excellon_backend.py:1-188", "gerber/cam.py:263-286", "gerber/excellon.py:207-222"]}
{"id": "C117", "title": "Written drill programs raise the tool", "statement": "In every program written by an ExcellonContext the tool moves quickly, drills and is changed only when it is raised, mills only when it is lowered, and is raised at the end.", "quantifier": "for all sequences of rendered primitives", "why_tests_cant": "safety over all interleavings of holes, slots and milled segments", "anchors": ["gerber/render/excellon_backend.py:49-60", "gerber/render/excellon_backend.py:96-185"]}
{"id": "C118", "title": "Written drill programs define their tools", "statement": "The header written by an ExcellonContext defines exactly the tools of the primitives rendered, each of them once.", "quantifier": "for all sequences of rendered primitives", "why_tests_cant": "unbounded sequences over arbitrary tool sets", "anchors": ["gerber/render/excellon_backend.py:96-113", "gerber/render/excellon_backend.py:137-145"]}
{"id": "C119", "title": "Drill reports list every tool with its numbers", "statement": "ExcellonFile.report() of a drill file returns a text with one line for every tool of the file, in the order of the tool table, showing its number, its diameter rounded to the decimals of the format of the file, its hit counter, and the length of its path rounded to six decimals followed by the unit.", "quantifier": "for all drill files and all values of diameters, counters and lengths", "why_tests_cant": "unbounded tool tables, rounding at every value, and files with unused tools or slots", "anchors": ["gerber/excellon.py:236-260", "gerber/excellon.py:321-339"]}
{"id": "C120", "title": "Drill reports state the data mode and the units", "statement": "The report of a drill file has a line 'Data Mode Absolute' or 'Data Mode Incremental' and a line 'Units Inches' or 'Units Millimeters', as the settings of the file say.", "quantifier": "for all drill files", "why_tests_cant": "a precedence slip is invisible unless every combination of settings is looked at, for any file name and any tools", "anchors": ["gerber/excellon.py:249-252"]}
{"id": "C121", "title": "Layers are drawn in the colours of the theme", "statement": "render_layers draws every layer with the settings that the theme has for its class, the k-th internal layer with the k-th of its internal settings, on the background of the theme and in the order of the list; the image of a board does not depend on what was drawn before.", "quantifier": "for all themes and all lists of layers of any classes", "why_tests_cant": "unbounded stacks; the theme is an object that keeps a generator between images", "anchors": ["gerber/render/theme.py:51-84", "gerber/render/cairo_backend.py:79-131", "gerber/render/cairo_backend.py:551-568"]}
{"id": "C122", "title": "Colours of images of boards", "statement": "On an opaque background the image is opaque and its channels lie between 0 and 1; a point not covered by any layer has the colour of the background, and a point covered by an opaque layer and by no layer above it has the colour of that layer.", "quantifier": "for all themes, stacks of layers, opacities and coverages", "why_tests_cant": "real-valued opacities and coverages, unbounded stacks", "anchors": ["gerber/render/theme.py:51-84", "gerber/render/cairo_backend.py:79-131", "gerber/render/cairo_backend.py:551-568"]}
{"id": "C123", "title": "Sides of layers in themes", "statement": "Every predefined theme draws the bottom, bottommask and bottomsilk layers mirrored and the top ones not, and the masks inverted, so that the layers of one side fit on each other.", "quantifier": "for all themes built from settings of the right sides, and all predefined themes", "why_tests_cant": "themes are built from arbitrary keyword arguments", "anchors": ["gerber/render/theme.py:51-65", "gerber/render/theme.py:87-118"]}
{"id": "C124", "title": "Loading a directory loads every readable visible file and stops at unexpected errors", "statement": "PCB.from_directory makes one layer, of class according to its content and name, of every file of the directory whose name does not begin with a dot and is neither Thumbs.db nor ethumbs.db and that gerber_read reads; files for which gerber_read raises ParseError or IOError are left out; the layers whose class is known are the layers of the board, each once, sorted by their place in the stack.  Any other exception raised for a file that is looked at is raised by from_directory.", "quantifier": "for every directory, every list of file names and every outcome of reading each file", "why_tests_cant": "the outcome depends on the order and on any mix of hidden, unreadable and readable files; tests load one fixture directory", "anchors": ["gerber/pcb.py:29-69", "gerber/utils.py:313-333"]}
{"id": "C125", "title": "A board is called after its files", "statement": "Without a given name a board loaded from a directory is called <board> if every file loaded is called <board>.<extension> or <board>.<signature>.<extension>, the signature being one known for the class of the layer, and after the directory if no file is loaded or two files are called after different boards; a name that is given is used.  Files in which the signature follows a dash, as KiCad names them, are called after the board, too.", "quantifier": "for every directory and every set of files that are loaded", "why_tests_cant": "names are arbitrary text with any number of dots; the tests have one directory with one naming scheme", "anchors": ["gerber/pcb.py:40-47", "gerber/pcb.py:62-69", "gerber/layers.py:111-115"]}
{"id": "C126", "title": "A converted Gerber file shows the same image when it is read again", "statement": "After to_inch or to_metric, evaluating the statements of the file again gives the image of the original file with every coordinate, arc centre and aperture dimension converted and nothing else changed, in the new unit, and the primitives of the file object are those that evaluation gives.", "quantifier": "for every list of statements and both units", "why_tests_cant": "the two representations a file keeps (statements and primitives) are converted by different code; tests convert single statements and single primitives and never evaluate the result", "anchors": ["gerber/rs274x.py:157-171", "gerber/gerber_statements.py:999-1024", "gerber/gerber_statements.py:356-366", "gerber/rs274x.py:482-725"]}
{"id": "C127", "title": "Drill files with slots can be written", "statement": "ExcellonFile.write writes a file whose hits include slots without raising, and the file read back has the slots of the file that was written.", "quantifier": "for every drill file", "why_tests_cant": "reading makes slots from routing and from G85 lines, but no test writes a file that has any", "anchors": ["gerber/excellon.py:262-280", "gerber/excellon.py:122-168"]}
{"id": "C128", "title": "A group of shapes without a statement is written as a macro that shows the shapes", "statement": "When the renderer for Gerber files is given an AMGroup that was not made from an AM statement, the AM statement it writes defines, relative to the position of the group, one primitive for every shape of the group, of the same kind, size, rotation, place and exposure.", "quantifier": "for every group of circles, rectangles, polygons, outlines and lines, at every position", "why_tests_cant": "groups that tests render come from parsed files, which always have a statement; the other branch is never run", "anchors": ["gerber/render/rs274x_backend.py:15-82", "gerber/am_statements.py:192-194", "gerber/am_statements.py:374-384", "gerber/am_statements.py:496-498", "gerber/am_statements.py:872-878", "gerber/gerber_statements.py:397-422", "gerber/gerber_statements.py:468-469"]}
{"id": "C129", "title": "A Gerber file written in a number format shows its image up to the resolution of the format", "statement": "Writing the statements of a file and reading the text again gives statements that show the same marks in the same order: every point is off by at most half a unit of the last decimal place of the number format (centres of arcs, which are given from the start of the arc, by at most twice that), every dimension of an aperture by at most one part in 2000, and polarity, units, direction, kind of mark and number of corners are kept. The statements read back are written as the same text, so a second round changes nothing. A file that uses an undefined aperture still fails with KeyError after the round.", "quantifier": "for every number format and every list of statements with the format statement before the first coordinate, whose coordinates are in the range of the format (not necessarily multiples of its last decimal place), with circle, rectangle, obround and polygon apertures of any dimensions (whole numbers of corners)", "why_tests_cant": "files in tests have coordinates that are exact in their format; the rounding of a coordinate that is not shows only in the pair of writer and reader, and its effect on arcs, regions and modal coordinates needs the whole evaluator", "anchors": ["gerber/utils.py:32-195", "gerber/gerber_statements.py:267-387", "gerber/gerber_statements.py:877-1040", "gerber/rs274x.py:149-156", "gerber/rs274x.py:180-790"]}
{"id": "C130", "title": "Converting a file to the other unit, writing it and reading it again shows the converted image up to the resolution of the format", "statement": "A Gerber file converted with to_inch or to_metric, written and parsed again shows the marks of the original file with all lengths multiplied by the conversion factor, off by at most half a unit of the last decimal place of the format it is written in (apertures by one part in 2000).", "quantifier": "for every file that declares its unit before anything is defined and has circle, rectangle and obround apertures, and every number format in whose range the converted coordinates are", "why_tests_cant": "tests check single statements before and after conversion; that the text of the converted file, whose numbers no longer fit the format exactly, still draws the same board involves converter, writer, parser and evaluator together", "anchors": ["gerber/rs274x.py:149-178", "gerber/gerber_statements.py:267-387", "gerber/gerber_statements.py:877-1040", "gerber/rs274x.py:180-790", "gerber/utils.py:32-195"]}
{"id": "C131", "title": "gerber-render of a directory writes an image of each side and one of the copper", "statement": "gerber-render DIRECTORY writes out.top.png, out.bottom.png and out.copper.png. The first two show copper, mask and silk of their side going outwards, with the holes of that side behind the innermost of them, each layer in the settings that the chosen theme has for its class, on the background of the theme. The third shows the copper of all layers from bottom to top and on them the holes, with the theme Transparent Multilayer. The outline is drawn first in each of them when there is one.", "quantifier": "for every directory whose files load as a board, every theme of --theme, every output name and every way in which single layers are drawn", "why_tests_cant": "tests do not run the command; the images depend on the layers that are found, on their order and on how many internal layers there are, also on layers that are missing", "anchors": ["gerber/__main__.py:71-110", "gerber/pcb.py:26-124", "gerber/render/cairo_backend.py:79-131", "gerber/render/theme.py:48-112"]}
{"id": "C132", "title": "gerber-render of files draws them in their order with the chosen theme", "statement": "gerber-render FILE... writes one image out.png that shows the layers of the files in the order in which they are given, each in the settings that the chosen theme has for its class, on the background of the theme. When a file cannot be read the exception is passed on and nothing is written.", "quantifier": "for every list of files, every theme of --theme, every output name and every way in which single layers are drawn", "why_tests_cant": "tests do not run the command; the settings of layers come from two themes and a generator with a state, and the background from defaults of another function", "anchors": ["gerber/__main__.py:111-118", "gerber/layers.py:119-152", "gerber/render/cairo_backend.py:79-100", "gerber/render/theme.py:48-112"]}
{"id": "C133", "title": "A drill file written in its number format drills the same holes up to the resolution of the format", "statement": "A drill file that is written and read again with its settings has, for every tool, the same number of holes in the same order, each at the same place up to half a unit of the last decimal place of the number format and with the same diameter up to one unit of that place, also when the numbers of the file have more decimals than the format.", "quantifier": "for every drill file in absolute mode with a plain header, every number format, any tools, any number of holes, any coordinates and diameters in the range of the format", "why_tests_cant": "tests write and read back one file whose numbers are multiples of the last decimal place", "anchors": ["gerber/excellon.py:262-280", "gerber/excellon_statements.py:72-262, 389-431", "gerber/utils.py:128-190, 230-245"]}
{"id": "C134", "title": "A drill file converted to the other unit, written and read again drills the same holes", "statement": "A drill file that is converted to the other unit, written and read again is in that unit, and its holes are at the converted positions with the converted diameters, up to the resolution of the number format.", "quantifier": "for every drill file in absolute mode with a plain header, both directions, every number format, any tools and holes", "why_tests_cant": "tests compare converted statements and tools, they do not write the converted file", "anchors": ["gerber/excellon.py:262-311", "gerber/excellon_statements.py:238-262, 688-692"]}
{"id": "C135", "title": "The image of a Gerber file shows what the file says", "statement": "Rendering a Gerber file gives an image that is dark at exactly the pixels that belong to points the statements of the file paint: covered by a dark mark (a flash, a line, an arc, a region) and by no clear mark after it.", "quantifier": "for every Gerber file that can be evaluated, every scale, mirrored or not, every point of the plane, any number of marks of either polarity", "why_tests_cant": "tests compare a few rendered files with reference images made by the same code", "anchors": ["gerber/rs274x.py:118-132, 267-277, 482-760", "gerber/primitives.py:245-301, 408-513, 1437-1448", "gerber/render/render.py:138-170", "gerber/render/cairo_backend.py:79-94, 193-300", "gerber/layers.py:231-236"]}
{"id": "C136", "title": "The inverted image of a Gerber file shows what the file leaves out", "statement": "Rendering a Gerber file inverted, as solder masks are, gives an image that is dark at exactly the pixels of the drawn area that belong to points the file does not paint.", "quantifier": "for every Gerber file that can be evaluated, every scale, mirrored or not, every point of the drawn area", "why_tests_cant": "no test compares an inverted image with the file", "anchors": ["gerber/rs274x.py:118-132, 267-277, 482-760", "gerber/primitives.py:245-301, 408-513, 1437-1448", "gerber/render/render.py:138-170", "gerber/render/cairo_backend.py:79-94, 193-300", "gerber/layers.py:231-236"]}
{"id": "C137", "title": "render() of a file shows the whole file", "statement": "Calling render() on a Gerber file that has been read makes an image whose size is that of the smallest box around everything in the file, at the scale of the context, and which is dark at exactly the pixels that belong to points the file paints; with invert the rest of the box is dark.", "quantifier": "for every Gerber file that can be evaluated, every scale, every point", "why_tests_cant": "the tests compare a few rendered files with stored images, pixel by pixel, and most of these comparisons are switched off", "anchors": ["gerber/cam.py:262-286", "gerber/rs274x.py:134-148, 267-277", "gerber/primitives.py:1299-1309", "gerber/render/cairo_backend.py:54-77, 533-560, 583-607"]}
{"id": "C138", "title": "The image of a drill file shows its holes and slots", "statement": "Rendering a drill file gives an image which is dark at exactly the pixels that belong to points of its holes and slots: discs with the diameter of their tools at the positions the program goes to, and slots as wide as their tool between their two ends.  Called on the file itself, the image is as large as the smallest box around them; in a layer of a board it shows what is within the bounds of the board.", "quantifier": "for every drill file with complete hits and positive diameters, from the text for every program of tool selections, modes, holes and repeats; every scale, every point", "why_tests_cant": "no test renders a drill file", "anchors": ["gerber/cam.py:244-286", "gerber/excellon.py:207-234", "gerber/primitives.py:1602-1680", "gerber/render/cairo_backend.py:79-131, 492-511", "gerber/layers.py:231-236"]}
{"id": "C139", "title": "Moving a Gerber file does not change its image", "statement": "When a Gerber file is moved with offset(), the image that render() makes of it afterwards is the one made before, pixel for pixel, and has the same size: image bounds and marks move together.", "quantifier": "all Gerber files, offsets, scales and filling rules which move with the contour", "why_tests_cant": "an image test compares a few files at a few scales with stored pictures; it cannot cover all offsets, and the rounding of the clipping depends on where the file lies", "anchors": ["gerber/rs274x.py:173-181", "gerber/gerber_statements.py:1026-1034", "gerber/render/cairo_backend.py:64-77", "gerber/render/cairo_backend.py:583-607"]}
{"id": "C140", "title": "A converted Gerber file has the same image at the corresponding scale", "statement": "When a Gerber file with declared units is converted with to_metric() or to_inch() and its statements are read and rendered at 1/25.4 (or 25.4) times the scale, the image is exactly the one of the file before the conversion, pixel for pixel.", "quantifier": "all Gerber files with declared units, both directions, all scales", "why_tests_cant": "needs all apertures, arcs and regions at every scale; stored pictures are made at one scale and in one unit only", "anchors": ["gerber/rs274x.py:157-171", "gerber/gerber_statements.py:358-369", "gerber/render/cairo_backend.py:202-330", "gerber/render/cairo_backend.py:583-607"]}
{"id": "C141", "title": "render_layers does not depend on what the context was used for before", "statement": "GerberCairoContext.render_layers gives the same image (or exception) on any two contexts, whatever has been rendered, set, saved or cleared on them before; and everything done with the two contexts afterwards gives the same results if the same colours are set.", "quantifier": "all contexts in any state, all lists of layers, settings, file names and later calls", "why_tests_cant": "A test uses a context in a few ways; the claim is about every sequence of calls, every layer and every colour.", "anchors": ["gerber/render/cairo_backend.py:102-131", "gerber/render/cairo_backend.py:166-174"]}
{"id": "C142", "title": "CamFile.render on a context which has been used gives what it gives on a new one", "statement": "Rendering a file on a context on which another file has been rendered gives the image it gives on a new context. False: unless clear() is called in between, all files are drawn over each other in the box (origin and size) of the first one.", "quantifier": "all files, contexts, scales and inversions", "why_tests_cant": "A test uses a context in a few ways; the claim is about every sequence of calls, every layer and every colour.", "anchors": ["gerber/cam.py:263-286", "gerber/render/cairo_backend.py:64-77", "gerber/render/cairo_backend.py:166-174"]}
{"id": "C143", "title": "Saving an image leaves the context as it is", "statement": "After dump(), dump_str() or dump_svg_str() the context can be used as if nothing had been saved, and all of them save the image drawn. False for SVG: after an SVG file has been written the surface is finished, and PNG images, other files and layers all raise an exception; dump_svg_str() always returns an empty text. True for PNG.", "quantifier": "all sequences of calls and file names", "why_tests_cant": "A test uses a context in a few ways; the claim is about every sequence of calls, every layer and every colour.", "anchors": ["gerber/render/cairo_backend.py:133-164"]}
{"id": "C144", "title": "Colours and opacity of a context stay within their limits", "statement": "Setting color or background_color needs three channels (TypeError otherwise) from 0 to 1 (ValueError otherwise), setting alpha a number from 0 to 1; a refused value changes nothing; after any sequence of calls the colours and the opacity are within these limits.", "quantifier": "all values and all sequences of calls", "why_tests_cant": "A test uses a context in a few ways; the claim is about every sequence of calls, every layer and every colour.", "anchors": ["gerber/render/render.py:81-128"]}
{"id": "C145", "title": "Rendering a layer adds it to the image", "statement": "render_layer draws the layer over what the context shows. False: after CamFile.render the first render_layer drops the image and starts a new one. After another layer it is true, so that layers rendered one by one make the image render_layers makes: the layers in their order over the background in the bounds of the first layer.", "quantifier": "all layers, settings, contexts and sequences of calls", "why_tests_cant": "A test uses a context in a few ways; the claim is about every sequence of calls, every layer and every colour.", "anchors": ["gerber/render/cairo_backend.py:79-131", "gerber/render/cairo_backend.py:193-200"]}
{"id": "C146", "title": "Image offsets, mirroring and scale factors keep what they say", "statement": "Reading an OF, MI or SF statement gives the offsets, mirrorings and scale factors it states, an axis it does not mention being left alone, and the text written for the statement is read as the same statement again. False: a statement about one axis only raises TypeError, scale factors are always read as 1, and offsets below 1/10000 are written in a form that is not read as an offset. With both axes given, offsets of any number of digits and mirrorings are read exactly.", "quantifier": "every decimal number, every axis combination", "why_tests_cant": "There are infinitely many decimals, and the three failing forms are rare in sample files.", "anchors": ["gerber/gerber_statements.py:OFParamStmt", "gerber/gerber_statements.py:MIParamStmt", "gerber/gerber_statements.py:SFParamStmt", "gerber/rs274x.py:GerberParser"]}
{"id": "C147", "title": "Image parameters act on the image", "statement": "Offset, scale factor, mirroring, rotation and axis selection parameters move, scale, mirror and turn what the file draws. False: none of them has any effect; a file evaluates to exactly what it evaluates to without them.", "quantifier": "every file", "why_tests_cant": "That a parameter has no effect at all, in any file, is a universal statement.", "anchors": ["gerber/rs274x.py:GerberParser._evaluate_param"]}
{"id": "C148", "title": "Image of a Gerber text", "statement": "Reading the text of a Gerber file, with the files it includes, and rendering it gives an image that is dark exactly where the statements say; writing and reading a file, or changing its line breaks, does not change the image. False for the top row of pixels.", "quantifier": "every text of writable statements and inclusions, every scale", "why_tests_cant": "The text, the marks and the scale are unbounded, and the image is a set of real points.", "anchors": ["gerber/rs274x.py:GerberParser.parse_raw", "gerber/cam.py:CamFile.render", "gerber/rs274x.py:GerberFile.write"]}
{"id": "C149", "title": "Image of a moved drill file", "statement": "Moving a drill file changes neither the size of its image nor any pixel. False for the top row of pixels of a hole.", "quantifier": "every drill file with holes and slots, every offset, every scale", "why_tests_cant": "Positions, offsets and scales are unbounded; rounding of the clipping differs only at special places.", "anchors": ["gerber/excellon.py:ExcellonFile.offset", "gerber/cam.py:CamFile.render"]}
{"id": "C150", "title": "Image of a converted drill file", "statement": "Converting a drill file to the other units and rendering it at the corresponding scale gives the same image. False: the image shows the tools enlarged at unmoved positions.", "quantifier": "every consistent drill file, both directions, every scale", "why_tests_cant": "What the image shows has to be stated for every file at once.", "anchors": ["gerber/excellon.py:ExcellonFile.to_metric", "gerber/excellon.py:ExcellonFile.to_inch", "gerber/cam.py:CamFile.render"]}
{"id": "C151", "title": "Image of a rewritten drill file", "statement": "A drill file that is written and read back has the same image, pixel for pixel. False for files with slots, which cannot be written.", "quantifier": "every drill file with a plain header and representable holes", "why_tests_cant": "Files are unbounded; holes come back in another order.", "anchors": ["gerber/excellon.py:ExcellonFile.write", "gerber/excellon.py:ExcellonParser.parse_raw", "gerber/cam.py:CamFile.render"]}
{"id": "C152", "title": "All parameters of a tool definition", "statement": "Reading a tool definition sets retract rate, feed rate, maximum hit count, speed (in thousands), diameter and depth to the last values given for B, F, H, S, C and Z and leaves the others unset; writing a tool and reading it back keeps all of them. False for speeds of 100000 and more.", "quantifier": "every tool definition in every readable format; every tool with values of the format", "why_tests_cant": "Combinations and orders of parameters are unbounded.", "anchors": ["gerber/excellon_statements.py:ExcellonTool.from_excellon", "gerber/excellon_statements.py:ExcellonTool.to_excellon"]}
{"id": "C153", "title": "Control statements of drill files survive writing and reading", "statement": "Every control statement of a drill file (header begin and end, rewind, routing depth, cutter compensation, units, incremental mode, version, format, drill mode, absolute mode, feed rate, comment), written as a line and read back, gives the same statement and changes exactly the modes it stands for; the same holds for sequences of them and for end statements with their coordinates. False for routing statements, for unit statements with a number format and for end coordinates in formats that leave leading zeros out.", "quantifier": "every sequence of such statements, every state of the reader", "why_tests_cant": "Sequences of statements, comments and reader states are unbounded.", "anchors": ["gerber/excellon.py:ExcellonParser._parse_line", "gerber/excellon_statements.py:EndOfProgramStmt.to_excellon", "gerber/excellon_statements.py:FormatStmt.to_excellon", "gerber/excellon_statements.py:UnitStmt.to_excellon"]}
{"id": "C154", "title": "Tool changes without a number", "statement": "In a drill program a tool change without a number (M00) means the tool with the next number: the file drills the same holes with the same tools as the program in which every change is replaced by the selection of that tool. False if the next tool is neither defined nor used before: then tool 1 is used. A change before any tool is in use is an error.", "quantifier": "every header, every program with tool changes, every format", "why_tests_cant": "Programs are unbounded, and the effect of a change depends on everything before it.", "anchors": ["gerber/excellon.py:ExcellonParser._parse_line", "gerber/excellon.py:ExcellonParser._get_tool", "gerber/excellon_statements.py:NextToolSelectionStmt"]}
{"id": "C155", "title": "Images of netlists", "statement": "In an image of a netlist each test point that can be reached from the chosen side appears as a dot of 0.015 at its place, with the name of its net beside it, and nothing else appears; inverted images show everything else. False: dots and names are moved by the lower left corner of the image, so that they are in place only if that corner is the origin; and a new context has no bounds, which IPCNetlist.render does not set: every netlist with a test point on the side ends in a TypeError.", "quantifier": "every netlist, side, image bounds, scale, mirroring, any drawing of text", "why_tests_cant": "Images, netlists and bounds are unbounded; examples are usually placed at the origin.", "anchors": ["gerber/ipc356.py:IPCNetlist.render", "gerber/render/cairo_backend.py:GerberCairoContext._render_test_record"]}
{"id": "C156", "title": "Equivalent tools", "statement": "Two drill tools are equivalent if and only if all their parameters, their plating and their units are the same, whatever their numbers, hits and formats. This is an equivalence relation; definitions that give the same parameters in any order, notation and format are equivalent; a tool written and read back is equivalent to the original; converting two tools with the same units does not change whether they are equivalent; a copy made by from_tool is equivalent to the tool. False of the copies: they have no settings, comparing or converting them is an AttributeError.", "quantifier": "every tool, definition line, format and unit", "why_tests_cant": "Parameters are unbounded numbers, definitions can be spelled in unboundedly many ways.", "anchors": ["gerber/excellon_statements.py:ExcellonTool.equivalent", "gerber/excellon_statements.py:ExcellonTool.from_tool", "gerber/excellon_statements.py:ExcellonTool.from_excellon"]}
{"id": "C157", "title": "Linked tools", "statement": "A list of tool numbers separated by slashes is read as the list of these tools, and every list of tools can be written and read back. False of the empty list, which is written as a text that cannot be read. Drill files with linked tools are not understood: the line is kept as an unknown statement.", "quantifier": "every list of numbers, every spelling with blanks and leading zeros", "why_tests_cant": "Lists and spellings are unbounded.", "anchors": ["gerber/excellon_statements.py:LinkToolStmt"]}
{"id": "C158", "title": "Gerber files which state no format", "statement": "A Gerber file without a format statement is read as absolute coordinates with two digits before and five after the decimal point, trailing zeros left out (missing digits are filled with zeros on the right); without a unit statement it is in inches, and a unit statement changes only the unit.", "quantifier": "every file written in this format without a format statement, with includes up to ten levels; every coordinate of up to seven digits", "why_tests_cant": "Files and digit strings are unbounded.", "anchors": ["gerber/rs274x.py:242", "gerber/cam.py:57-93"]}
{"id": "C159", "title": "A Gerber file with aperture macros keeps its image when it is read and written again", "statement": "When a Gerber file with aperture macros is read with gerber.loads and the resulting GerberFile is written with write(filename), reading the new file gives the same marks in the same order (same places, polarities, units and apertures; an aperture made from a macro has the same macro primitives) and the same rendered image.", "quantifier": "all Gerber texts whose statements can be written exactly in their own number format, with any number of macros, apertures and marks; all scales, all include files", "why_tests_cant": "Writing puts the primitives last built for a macro in place of its text, so the outcome depends on how often and with which modifiers every macro is used; a test tries a few files.", "anchors": ["gerber/rs274x.py:150-155", "gerber/rs274x.py:584-585", "gerber/rs274x.py:613-614", "gerber/gerber_statements.py:427-469"]}
{"id": "C160", "title": "Drill hits converted to another unit one by one", "statement": "Calling to_inch() or to_metric() on every hit of a list (DrillHit and DrillSlot objects whose tools are in the other unit) converts every hit: holes have their position and slots their start and end in the new unit afterwards.", "quantifier": "all lists of hits and slots, all tools shared between them in any way, both directions", "why_tests_cant": "The outcome depends on which hits share a tool object: the first call converts the tool too, and every later hit decides by the unit of the tool.", "anchors": ["gerber/excellon.py:102-110", "gerber/excellon.py:143-153"]}
{"id": "C161", "title": "All parts of a Gerber format statement", "statement": "A format statement (%FS...*%) decides which zeros are left out, whether coordinates are absolute, and how many digits x and y have before and after the decimal point; sequence number, preparatory, draft and miscellaneous code lengths (N, G, D, M) do not matter. A coordinate after it is read with the digits given for its axis.", "quantifier": "every format statement with any optional parts, all digits 0 to 7 per part; every coordinate line with all digits", "why_tests_cant": "Statements combine independent options; a test tries a few of the usual ones, which have the same digits for x and y.", "anchors": ["gerber/rs274x.py:188", "gerber/rs274x.py:365-369", "gerber/gerber_statements.py:104-119"]}
{"id": "C162", "title": "What is read of a drill tool stays", "statement": "Once a drill file has defined a tool, or a tool is given to the parser beforehand, nothing that follows changes its number, diameter, feed rate, retraction rate, spindle speed, depth or maximal hit count; its hit count never falls, and plating once known stays.", "quantifier": "every drill file and every continuation of it, all tools given beforehand, any settings", "why_tests_cant": "Continuations of files are unbounded and every line of them could change earlier tools, for example comments about plating.", "anchors": ["gerber/excellon.py:441-779", "gerber/excellon_statements.py:138-189"]}
{"id": "C163", "title": "A netlist is read record by record", "statement": "Reading an IPC-D-356 netlist gives one statement for every record, in the order of the file: comments, parameters, test records (317, 327, 337, 347, 367), conductors, adjacency records, outlines and the end, each in the units and with the long net names stated above it, whether or not records are continued on further lines.", "quantifier": "all netlists of any length in inches or millimetres with any mix of records in their documented columns", "why_tests_cant": "Netlists are unbounded and every parameter acts on all records below it.", "anchors": ["gerber/ipc356.py:170-238", "gerber/ipc356.py:440-454"]}
{"id": "C164", "title": "Drill files which state no units", "statement": "A drill file whose header has no unit line is read in the units, number format, zeros and notation of the settings given to ExcellonParser; without settings in inches, with two digits before and four after the decimal point, leading zeros kept and absolute positions.", "quantifier": "all files with any tool definitions and any program of tool changes, holes, repeats and mode changes; all settings", "why_tests_cant": "Programs and settings are unbounded.", "anchors": ["gerber/excellon.py:379-404", "gerber/excellon.py:441-728"]}
{"id": "C165", "title": "The primitives of a Gerber file hold what its image shows", "statement": "The primitives of a Gerber file are, in order, the marks of its image: each object has the end points, centre, position, aperture, dimensions, hole and units of its mark; after to_inch or to_metric each has the same values converted (the number of sides and the rotation of a polygon are kept), and after offset the same values moved.", "quantifier": "every list of statements; both units; every offset", "why_tests_cant": "Objects share apertures and are changed in place; tests look at single objects.", "anchors": ["gerber/rs274x.py:102-177", "gerber/rs274x.py:560-725", "gerber/primitives.py:127-187"]}
{"id": "C166", "title": "Lines of a drill file that draw nothing do not change the drawing", "statement": "A blank line, a comment without a keyword, a feed rate, a version, a cutter compensation or a line that is not understood can be inserted between any two lines of a drill file, or before the first: the settings, the tools, the holes and the slots that are read are the same, and a file with an error gives the same error. The statements get one more (none for a blank line).", "quantifier": "every file, every place, every such line, with blanks around it and any line end", "why_tests_cant": "Tests read fixed files; the lines may stand in the header, between tools, in a routed path or after the end.", "anchors": ["gerber/excellon.py:433-479", "gerber/excellon.py:516-552", "gerber/excellon.py:600-650", "gerber/excellon.py:651-680"]}
{"id": "C167", "title": "What a drill file has drilled stays when it goes on", "statement": "When more lines follow, the holes and slots read so far stay where they are, in their order and before the new ones; each keeps its tool with its number, diameter and other values, even if a tool of the same number is defined again; the statements read so far stay in their order.", "quantifier": "every text and every continuation such that both can be read; any settings and tools given beforehand", "why_tests_cant": "Tests compare whole files; units, formats and tools can change at any line.", "anchors": ["gerber/excellon.py:207-223", "gerber/excellon.py:433-747"]}
{"id": "C168", "title": "Lines of a netlist that are no records do not change what is read", "statement": "A blank line, a comment, a parameter that is neither UNITS nor a net name, or a line of unknown kind can be inserted between any two lines of an IPC-D-356 netlist: the records, the settings, the test points, the nets, the components, the vias and what is rendered are the same, and a netlist with an error gives the same error.", "quantifier": "every list of lines, every place, every such line", "why_tests_cant": "Tests read one fixed netlist.", "anchors": ["gerber/ipc356.py:76-155", "gerber/ipc356.py:170-238"]}
{"id": "C169", "title": "A file ends at its end statement", "statement": "What follows the end statement of a file (M02 in a Gerber file, M30 in a drill file, 999 in a netlist) is not part of it: the file means the same whether or not anything comes after that statement.", "quantifier": "every file, every text after its end statement", "why_tests_cant": "Test files stop at their end statement.", "anchors": ["gerber/rs274x.py:232", "gerber/rs274x.py:466-471", "gerber/rs274x.py:482-510", "gerber/excellon.py:518-520", "gerber/excellon_statements.py:596-630", "gerber/ipc356.py:170-213"]}
{"id": "C170", "title": "What a netlist has stated stays when it goes on", "statement": "Lines added at the end of an IPC-D-356 netlist change nothing of what was read before: the statements, the test points, what is rendered, the vias, the components and the units are those of the shorter netlist, followed by those of the new lines; a netlist with an error stays an error.", "quantifier": "every list of lines, every list of further lines", "why_tests_cant": "Tests read one fixed netlist as a whole.", "anchors": ["gerber/ipc356.py:76-155", "gerber/ipc356.py:170-238"]}
{"id": "C171", "title": "The listing of a Gerber file has one line for each statement", "statement": "After a Gerber file has been read, the parser's dump_str() never raises and returns exactly as many lines as statements were read: the k-th line is str() of the k-th statement, is enclosed in angle brackets and contains no line break; the listing of statements that follow others is appended to the listing of those. Statements with the same description are of the same kind and have the same number, name, mode or text.", "quantifier": "every text and every set of included files that can be read and evaluated, every list of statements, every pair of statements", "why_tests_cant": "Tests list one or two statements; a comment, name or macro with a line break in it, or a mirror statement without both axes, would break the listing only for particular files.", "anchors": ["gerber/rs274x.py:314-318", "gerber/gerber_statements.py:52-59", "gerber/gerber_statements.py:168-1190", "gerber/rs274x.py:279-308"]}
{"id": "C172", "title": "The ends of the lines of a netlist do not matter", "statement": "An IPC-D-356 netlist gives the same settings, statements and test points (or the same error) whether its lines end in a line feed, a carriage return or both; the conventions may be mixed as long as a carriage return at the end of one line and the line feed of an empty line after it do not run together; the last line needs no end.", "quantifier": "every list of lines, every choice of line ends, every last line", "why_tests_cant": "Tests read one netlist with one convention; a doubled line break would separate a record from its continuation only with the other one.", "anchors": ["gerber/ipc356.py:170-184"]}
{"id": "C173", "title": "Blanks around the lines of a drill file and the way its lines end do not matter", "statement": "The text of a drill file gives the same file (or the same error) with any white space before and after its lines, with or without an end of the last line, and whether its lines end in a line feed, a carriage return or both.", "quantifier": "every list of lines, every white space around them, all settings and external tools", "why_tests_cant": "Tests read files with one convention and without indentation.", "anchors": ["gerber/excellon.py:433-439", "gerber/excellon.py:62-84"]}
{"id": "C174", "title": "Statements are equal exactly when they are of the same kind and hold the same", "statement": "For two statements of a Gerber file, or two statements of a drill file, a == b is true exactly when they are of the same class and have the same units and the same contents. Comparing a statement with anything gives an answer.", "quantifier": "every two statements, their units and ids", "why_tests_cant": "Tests compare a few statements made by hand; a collision of two kinds with the same attributes is only found by comparing all kinds with each other.", "anchors": ["gerber/gerber_statements.py:70-71", "gerber/excellon_statements.py:53-55", "gerber/excellon_statements.py:70-71"]}
{"id": "C175", "title": "Primitives with the same attributes are equal", "statement": "Two primitives of the same class are equal (==) exactly when their public attributes are the same, whether or not their bounding boxes have been asked for.", "quantifier": "every class with memoized boxes, all attributes, every history of reading, assigning, moving and converting", "why_tests_cant": "Tests compare primitives which have just been made.", "anchors": ["gerber/primitives.py:51-63", "gerber/primitives.py:70-71"]}
{"id": "C176", "title": "Descriptions of drill statements tell what the statements hold", "statement": "str() of a coordinate, a repeated hole, a slot or an unknown statement of a drill file tells it apart: two of these statements with the same description are of the same kind, in the same mode and have the same operands.", "quantifier": "all statements of these kinds, all operands, present or missing", "why_tests_cant": "Tests look at the descriptions of single statements.", "anchors": ["gerber/excellon_statements.py:438-445", "gerber/excellon_statements.py:498-502", "gerber/excellon_statements.py:840-841", "gerber/excellon_statements.py:956-969"]}
{"id": "C177", "title": "Layers of a board can be looked up", "statement": "For every layer x and list of layers l (such as PCB.layers), \"x in l\" is True exactly when x is one of the layers of l. Internal layers are ordered by their numbers.", "quantifier": "all layers and lists of layers", "why_tests_cant": "Tests compare internal layers with each other, never with the other layers of a board.", "anchors": ["gerber/layers.py:262-295", "gerber/pcb.py:70-73"]}
{"id": "C178", "title": "Every drill tool has a description which tells its number and size", "statement": "repr() of every tool of a drill file states its number, its unit, and its diameter to as many significant digits as the number format has decimal places.", "quantifier": "all tools, numbers, diameters and formats", "why_tests_cant": "Tests look at the description of one tool at most.", "anchors": ["gerber/excellon_statements.py:270-273"]}
{"id": "C179", "title": "The description of settings tells them apart", "statement": "Two FileSettings objects, made by the constructor and changed by assignments, have the same str() exactly when they agree on every key.", "quantifier": "all constructor arguments that are accepted, all sequences of assignments by key (any value) and to zeros and zero_suppression (documented values)", "why_tests_cant": "Tests never look at descriptions of settings.", "anchors": ["gerber/cam.py:172-174"]}
{"id": "C180", "title": "Only pairs of numbers are taken for points", "statement": "validate_coordinates returns without an exception exactly for None and for sequences of exactly two ints, floats or booleans, and otherwise raises TypeError, no other exception. The checks at the start of AMOutlinePrimitive() pass exactly when the start point and every other point are such, and otherwise raise TypeError.", "quantifier": "all positions (None, booleans, numbers, texts, tuples and lists of any values, objects without length); all start points and lists of points", "why_tests_cant": "Tests try six positions that are refused, none that is accepted, and no outline.", "anchors": ["gerber/utils.py:233-240", "gerber/am_statements.py:404-406"]}
{"id": "C181", "title": "The description of a netlist record tells what it shows", "statement": "Two statements of an IPC-D-356 netlist of one class have the same repr() exactly when they agree: comments on their text, parameters (whose names have no equals sign) on name and value, test records on net name and feature type, outlines on their type, conductors and adjacency records on their net.", "quantifier": "all pairs of statements of one class, all texts", "why_tests_cant": "Tests never look at descriptions of netlist records.", "anchors": ["gerber/ipc356.py:253-254", "gerber/ipc356.py:272-273", "gerber/ipc356.py:368-370", "gerber/ipc356.py:394-395", "gerber/ipc356.py:443-444", "gerber/ipc356.py:461-462", "gerber/ipc356.py:473-474"]}
{"id": "C182", "title": "The description of a drill hit tells place and tool", "statement": "If str() of two drill hits is the same text, their positions differ by at most a millionth in each coordinate, and either both have no tool, or their tools have the same number and unit, and one text states the diameters of both to the digits that each tool shows.", "quantifier": "all pairs of hits, all positions, tools and formats", "why_tests_cant": "Tests never look at descriptions of hits.", "anchors": ["gerber/excellon.py:126-127", "gerber/excellon_statements.py:270-273"]}
