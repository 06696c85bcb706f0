{"id": "C01", "title": "Intersection of rectangles is set intersection", "statement": "A position lies inside a.Intersection(b) exactly when it lies inside both a and b; the intersection never has negative width or height when a and b do not, and is the empty rectangle when they do not overlap.", "quantifier": "all pairs of rectangles with any integer origin and non-negative size, and all positions", "why_tests_cant": "four unbounded integers per rectangle; the boundary cases (touching, nested, disjoint, empty) cannot be enumerated", "anchors": ["rect.go:Rect.Intersection", "rect.go:Rect.Contains"]}
{"id": "C02", "title": "Rows and Columns partition a rectangle", "statement": "Rows() returns exactly Height one-line rectangles of the full width, top to bottom, and Columns() exactly Width one-column rectangles, left to right; every position of the rectangle lies in exactly one of them and no other position lies in any.", "quantifier": "all rectangles with any origin and non-negative size, all positions", "why_tests_cant": "unbounded sizes", "anchors": ["rect.go:Rect.Rows", "rect.go:Rect.Columns"]}
{"id": "C03", "title": "Inner removes exactly the padding", "statement": "r.Inner(p) is the set of positions at least p.Left from the left edge, p.Right from the right edge, p.Top from the top and p.Bottom from the bottom of r; it is contained in r, and it is the zero rectangle exactly when the padding does not fit.", "quantifier": "all rectangles, all non-negative paddings, all positions", "why_tests_cant": "unbounded integers", "anchors": ["rect.go:Rect.Inner", "padding.go:Padding"]}
{"id": "C04", "title": "Padding builders change only the side they name", "statement": "WithTop/WithRight/WithBottom/WithLeft set exactly the named side of a padding and leave the three others alone; NewPadding follows the CSS 0/1/2/4 argument convention.", "quantifier": "all paddings and all integers", "why_tests_cant": "unbounded integers; the wrong side can coincide with the right one for symmetric samples", "anchors": ["padding.go:Padding.WithLeft", "padding.go:NewPadding"]}
{"id": "C05", "title": "Buffer addressing is a bijection", "statement": "CellAt panics exactly for positions outside the buffer area; for positions inside, distinct positions address distinct cells, cells are stored row by row, and PosOf inverts the index of a position.", "quantifier": "all buffer areas (any origin, any non-negative size) and all positions / indices", "why_tests_cant": "unbounded sizes and origins", "anchors": ["buffer.go:Buffer.CellAt", "buffer.go:Buffer.indexOf", "buffer.go:Buffer.PosOf"]}
{"id": "C06", "title": "A buffer always holds exactly one cell per position of its area", "statement": "After any sequence of buffer operations (create, SetStringN, SetStyle, Reset, Resize, cell writes) that did not panic, the number of stored cells equals the area of the buffer.", "quantifier": "all histories of buffer operations with all arguments", "why_tests_cant": "unbounded histories", "anchors": ["buffer.go:NewBufferFilled", "buffer.go:Buffer.Resize", "buffer.go:Buffer.SetStringN", "buffer.go:Buffer.SetStyle", "buffer.go:Buffer.Reset"]}
{"id": "C07", "title": "SetStyle restyles exactly the requested area", "statement": "Buffer.SetStyle(area, style) never panics, patches the style of every cell in the overlap of area and the buffer exactly once, never changes any symbol, and changes nothing outside the overlap.", "quantifier": "all buffers, areas, styles and positions", "why_tests_cant": "unbounded sizes and overlaps", "anchors": ["buffer.go:Buffer.SetStyle", "cell.go:Cell.SetStyle"]}
{"id": "C08", "title": "Patching styles composes", "statement": "Giving a cell style s and then style t has the same effect as giving it s.Patched(t) once; Patched is associative and the empty style is its identity.", "quantifier": "all cells and all styles buildable through the style API", "why_tests_cant": "2^32 modifier combinations times colours; equality must hold bit by bit", "anchors": ["style.go:Style.Patched", "cell.go:Cell.SetStyle"]}
{"id": "C09", "title": "The last modifier request wins", "statement": "For a style built by any sequence of WithModifier/WithoutModifier (and the named helpers) the sets of added and removed modifiers never overlap, and applying the style sets a modifier iff the last call naming it was an add, clears it iff it was a remove, and leaves it alone if it was never named.", "quantifier": "all sequences of style builder calls, all modifier sets", "why_tests_cant": "unbounded call sequences", "anchors": ["style.go:Style.WithModifier", "style.go:Style.WithoutModifier", "bit.go"]}
{"id": "C10", "title": "Clear and Fill cover exactly their area", "statement": "The clear widget resets, and the fill widget sets the symbol and style of, every cell of the area they are given and no other cell.", "quantifier": "all buffers and all areas inside them", "why_tests_cant": "unbounded sizes", "anchors": ["widget/clearwidget/clear.go", "widget/fillwidget/fill.go", "cell.go:Cell.Reset"]}
{"id": "C11", "title": "SetStringN writes a prefix of the text and nothing else", "statement": "SetStringN(x,y,s,n,style) puts the clusters of the longest prefix of s that fits in n columns and before the right edge at consecutive columns starting at x, blanks the second half of wide clusters, applies the style to exactly those cells, leaves every other cell alone, returns the first free column and never panics when (x,y) is inside the buffer.", "quantifier": "all buffers, start positions inside the buffer, texts, limits and styles", "why_tests_cant": "unbounded texts with arbitrary cluster widths", "anchors": ["buffer.go:Buffer.SetStringN", "buffer.go:Buffer.SetString"]}
{"id": "C12", "title": "Buffer.Diff is a sound and minimal update list", "statement": "Writing the updates returned by prev.Diff(next) over prev yields exactly next (for buffers of the same area made of one-column cells), updates come in row-major order without repetition, and a cell that did not change is never in the list.", "quantifier": "all pairs of equally sized buffers", "why_tests_cant": "exponentially many buffers of unbounded size", "anchors": ["buffer.go:Buffer.Diff"]}
{"id": "C13", "title": "The screen shows the last frame", "statement": "After any history of draws and resizes, a terminal that executes the bytes sent to it displays exactly the cells the widget rendered in the last draw: symbol, colours and modifiers of every cell of the viewport.", "quantifier": "all histories of Draw/Resize with arbitrary rendered buffers (well-formed: one or two column symbols)", "why_tests_cant": "unbounded histories; every pair of consecutive frames matters", "anchors": ["terminal.go:Terminal.Draw", "terminal.go:Terminal.Resize", "terminal.go:Terminal.SwapBuffers", "terminal_backend.go:DefaultBackend.Draw", "buffer.go:Buffer.Diff"]}
{"id": "C14", "title": "A draw leaves the terminal's attributes at their defaults", "statement": "After the backend draws any list of cells, the terminal's foreground, background and all text attributes are back at their defaults, whatever they were before the reset codes.", "quantifier": "all cell lists and all starting attribute states", "why_tests_cant": "unbounded lists", "anchors": ["terminal_backend.go:DefaultBackend.Draw", "ansi/attr.go"]}
{"id": "C15", "title": "Attribute transitions reach the requested attributes", "statement": "Going from any modifier set to any other, the emitted attribute codes leave the terminal with exactly the requested modifiers.", "quantifier": "all pairs of modifier sets", "why_tests_cant": "2^18 pairs, and the interaction of shared reset codes (bold/dim, slow/rapid blink)", "anchors": ["terminal_backend.go:_StyleModifierDiff", "ansi/attr.go"]}
{"id": "C16", "title": "Emitted escape sequences are well formed", "statement": "The bytes written for cursor moves, attribute changes and clears parse back, by an independent reader of the escape grammar, to exactly the intended operation with the intended (1-based) parameters.", "quantifier": "all positions with non-negative coordinates, all attributes", "why_tests_cant": "unbounded coordinates, decimal encoding", "anchors": ["ansi/command.go", "ansi/attr.go"]}
{"id": "C17", "title": "Text rendering never leaves its area and never panics", "statement": "Rendering a span, line or text into any area, including areas partly or fully outside the buffer, never panics and changes only cells inside both the area and the buffer.", "quantifier": "all texts (arbitrary cluster widths), styles, alignments, areas and buffers", "why_tests_cant": "unbounded texts and geometries", "anchors": ["widget/textwidget/span.go:Span.Render", "widget/textwidget/line.go:Line.Render", "widget/textwidget/text.go:Text.Render"]}
{"id": "C18", "title": "Aligned lines are placed and truncated correctly", "statement": "A line that fits is drawn unchanged with left, centred or right indentation as requested; a line that does not fit is cut on the right (left alignment), on the left (right alignment) or on both sides (centre), showing a contiguous window of its text; the line's style covers the drawn text.", "quantifier": "all lines, alignments, widths", "why_tests_cant": "unbounded texts", "anchors": ["widget/textwidget/line.go:Line.renderWithAlignment", "widget/textwidget/line.go:renderSpans", "widget/textwidget/line.go:unicodeTruncateStart"]}
{"id": "C19", "title": "Text drawn by text widgets cannot smuggle control characters to the terminal", "statement": "No cell written by span, line or text rendering holds a control character, so text content can never be interpreted by the terminal as commands; the same holds for text written with SetString.", "quantifier": "all input texts", "why_tests_cant": "adversarial inputs", "anchors": ["widget/textwidget/span.go:Span.StyledGraphemes", "buffer.go:Buffer.SetStringN"]}
{"id": "C20", "title": "Splitting text into lines is lossless", "statement": "Building a text from a string and printing it back gives the same string; each resulting line contains no line break.", "quantifier": "all strings", "why_tests_cant": "unbounded strings, including very long lines and carriage returns", "anchors": ["widget/textwidget/line.go:NewLinesStr", "widget/textwidget/text.go:Text.String"]}
{"id": "C21", "title": "Word wrapping keeps every word and fits every line", "statement": "Wrapping a paragraph never drops, duplicates or reorders non-blank text, and no produced line is wider than the available width.", "quantifier": "all paragraphs, widths and trim settings", "why_tests_cant": "unbounded texts", "anchors": ["internal/reflow/wrapper.go:WordWrapper"]}
{"id": "C22", "title": "Unwrapped paragraphs show one row per line", "statement": "Without wrapping, each line of the paragraph becomes one row holding the longest prefix of the line that fits (after horizontal scrolling), and no row is wider than the available width.", "quantifier": "all paragraphs, widths and horizontal offsets", "why_tests_cant": "unbounded texts", "anchors": ["internal/reflow/truncator.go:LineTruncator"]}
{"id": "C23", "title": "The list window always shows the selection and never overflows", "statement": "For every list state the rendered range of items is a contiguous range of existing items whose total height fits the viewport, and it contains the selected item whenever that item fits.", "quantifier": "all item height lists, offsets, selections, scroll paddings and viewport heights", "why_tests_cant": "unbounded lists; depends on the whole scrolling history through the offset", "anchors": ["widget/listwidget/list.go:List.getItemsBounds", "widget/listwidget/list.go:List.RenderStateful"]}
{"id": "C24", "title": "List selection stays in range under any key history", "statement": "After any sequence of navigation calls and renders, the selected index used for rendering denotes an existing item, navigation moves by exactly the requested amount and saturates at both ends.", "quantifier": "all sequences of list state operations and renders, with 64-bit integers", "why_tests_cant": "unbounded histories, integer overflow", "anchors": ["widget/listwidget/state.go"]}
{"id": "C25", "title": "The text input behaves as a text with a cursor", "statement": "After any sequence of editing operations the input's text and cursor equal those of a plain two-sided text editor (text before the cursor, text after it), and the cursor never leaves the text.", "quantifier": "all sequences of editing operations with all arguments", "why_tests_cant": "unbounded histories", "anchors": ["widget/inputwidget/state.go:State"]}
{"id": "C26", "title": "The text input can be drawn in any area and keeps the cursor visible", "statement": "Rendering the input never panics, draws only inside its area and shows the cell under the cursor, for every state reachable by editing and rendering.", "quantifier": "all reachable states and all area widths", "why_tests_cant": "the horizontal offset depends on the whole history", "anchors": ["widget/inputwidget/input.go:Input.RenderStateful", "widget/inputwidget/state.go:State.getBounds"]}
{"id": "C27", "title": "The scroll thumb is well proportioned", "statement": "For any content length, viewport and position the track before the thumb, the thumb and the track after it have non-negative lengths adding up to the track length, the thumb has at least one cell, and, as long as content length times track length stays below 2^52, a larger position never moves the thumb backwards.", "quantifier": "all integer content lengths, viewports, positions and track lengths", "why_tests_cant": "unbounded integers and rounding", "anchors": ["widget/scrollwidget/scroll.go:Scroll.partLens"]}
{"id": "C28", "title": "The scroll bar does not overlap the content area", "statement": "For every orientation the cells where the bar is drawn are disjoint from the inner area reported for the content, and on the side the orientation names.", "quantifier": "all areas and orientations", "why_tests_cant": "unbounded areas", "anchors": ["widget/scrollwidget/scroll.go:Scroll.Inner", "widget/scrollwidget/scroll.go:Scroll.scrollbarArea"]}
{"id": "C29", "title": "Scroll position stays inside the content", "statement": "Starting from the top, any sequence of Next/Prev/First/Last keeps the position between 0 and the last line, and Next/Prev move by at most one.", "quantifier": "all sequences of operations and content lengths", "why_tests_cant": "unbounded histories", "anchors": ["widget/scrollwidget/state.go"]}
{"id": "C30", "title": "The gauge fills the right number of cells", "statement": "For a ratio between 0 and 1 the gauge fills exactly the leftmost round(ratio*width) cells of its area in every row, draws only inside its area, and ratios outside [0,1] are rejected.", "quantifier": "all ratios, areas and labels", "why_tests_cant": "continuous ratio, unbounded widths", "anchors": ["widget/gaugewidget/gauge.go:Gauge.Render", "widget/gaugewidget/gauge.go:Gauge.WithRatio"]}
{"id": "C31", "title": "A block's content never overlaps its border", "statement": "The inner area of a block is contained in its area, excludes every border cell and title row that is drawn, and the border drawing changes only cells on the outline of the area.", "quantifier": "all areas, border side sets, paddings and title positions", "why_tests_cant": "unbounded geometries", "anchors": ["widget/blockwidget/block.go:Block.Inner", "widget/blockwidget/block.go:Block.Render"]}
{"id": "C32", "title": "A spinner advances once per tick and never speeds up", "statement": "However ticks are duplicated or delayed, each tick message of a running spinner is accepted at most once, at most one accepted tick chain is alive, ticks of other spinners are ignored and the frame shown always exists.", "quantifier": "all interleavings of tick deliveries", "why_tests_cant": "unbounded schedules", "anchors": ["widget/throbberwidget/state.go:State.TryUpdate", "widget/throbberwidget/throbber.go"]}
{"id": "C33", "title": "Pairwise layout constraints cover every pair exactly once", "statement": "The pair enumeration used to equalise growing segments visits every pair of segments i<j exactly once.", "quantifier": "all numbers of segments", "why_tests_cant": "unbounded n", "anchors": ["layout.go:combinations", "layout.go:nextCombination", "layout.go:binomial"]}
{"id": "C34", "title": "Split returns segments inside the area, in order and of non-negative size", "statement": "Layout.Split returns one segment per constraint and one more spacer than constraints; every segment lies inside the padded area, has non-negative size along the layout direction and exactly the area's size across it; neighbouring segments and spacers share their edges.", "quantifier": "all constraint lists, flex modes, spacings, paddings, areas and all map iteration orders of the solver", "why_tests_cant": "unbounded constraint lists and a nondeterministic simplex solver", "anchors": ["layout.go:Layout.split", "layout.go:changesToRects", "internal/casso/solver.go:Solver.AddConstraint"]}
{"id": "C35", "title": "Solving a layout cannot fail", "statement": "Layout.Split never panics: the required constraints of a layout are always satisfiable and the solver never reports them unsatisfiable or unbounded.", "quantifier": "all constraint lists, areas of non-negative size, all map iteration orders", "why_tests_cant": "requires a completeness argument for the simplex method", "anchors": ["layout.go:Layout.split", "internal/casso/solver.go:Solver.addWithArtificialVariable", "internal/casso/solver.go:Solver.optimize"]}
{"id": "C36", "title": "The solver returns an optimal compromise", "statement": "When solving finishes, the weighted sum of violations of the soft constraints is minimal among all assignments that satisfy the required constraints.", "quantifier": "all constraint sets and all map iteration orders", "why_tests_cant": "optimality quantifies over all competing real assignments", "anchors": ["internal/casso/solver.go:Solver.optimize"]}
{"id": "C37", "title": "Reported changes determine every variable's value", "statement": "After solving, reading the reported changes and taking zero for variables not mentioned gives the same value for every variable as asking the solver for it.", "quantifier": "all constraint sets and all map iteration orders", "why_tests_cant": "unbounded pivot histories", "anchors": ["internal/casso/solver.go:Solver.FetchChanges", "internal/casso/solver.go:Solver.varChanged"]}
{"id": "C38", "title": "Layouts of any length are solved correctly", "statement": "The solver never confuses two of its internal quantities, however many constraints a layout has.", "quantifier": "all numbers of constraints", "why_tests_cant": "the counter that names them wraps only for large layouts", "anchors": ["internal/casso/solver.go:Solver.idTick", "internal/casso/solver.go:Solver.createRow"]}
{"id": "C39", "title": "Variables created concurrently are distinct", "statement": "Two variables created by any goroutines are never equal, so layouts computed concurrently do not disturb each other.", "quantifier": "all interleavings of variable creations", "why_tests_cant": "schedules", "anchors": ["internal/casso/variable.go:NewVariable", "layout.go:newElements"]}
{"id": "C40", "title": "Every input byte is delivered exactly once", "statement": "However the terminal's input is split into reads, the bytes covered by the delivered messages, concatenated, are exactly the bytes read (except an unterminated trailing escape, paste or rune still being buffered), and each step consumes at least one byte, so decoding never stalls or loops.", "quantifier": "all byte streams and all ways of cutting them into reads", "why_tests_cant": "unbounded streams and cut points", "anchors": ["input.go:readAnsiInputs", "input.go:detectOneMsg"]}
{"id": "C41", "title": "Decoded messages do not depend on read boundaries", "statement": "Cutting the same input bytes into different reads yields the same key, mouse, focus and paste messages.", "quantifier": "all byte streams and all cuts", "why_tests_cant": "every cut point of every sequence", "anchors": ["input.go:readAnsiInputs", "input.go:detectOneMsg", "input.go:detectReportFocus"]}
{"id": "C42", "title": "The longest known key sequence wins", "statement": "If the input begins with known key sequences, the message is the key of the longest of them, independent of map iteration order, and exactly that sequence is consumed.", "quantifier": "all inputs and all map iteration orders", "why_tests_cant": "unbounded inputs; random map order", "anchors": ["input.go:detectSequence", "input.go:extSequences", "input.go:seqLengths"]}
{"id": "C43", "title": "Pasted text arrives verbatim as one message", "statement": "Text between the bracketed paste markers that contains no end marker is delivered as a single paste message with exactly the characters of the text, never as key presses, also when the paste is longer than one read.", "quantifier": "all pasted texts and all continuations", "why_tests_cant": "unbounded texts, texts containing escape sequences", "anchors": ["input.go:detectBracketedPaste"]}
{"id": "C44", "title": "Mouse events decode to what the terminal encoded", "statement": "For every button, action, modifier set and cell, the message decoded from the SGR (or X10) encoding of the event reports that button, action, modifiers and cell (the X10 encoding of a release does not name the button, so neither does the message).", "quantifier": "all events and coordinates", "why_tests_cant": "unbounded coordinates", "anchors": ["mouse.go:parseSGRMouseEvent", "mouse.go:parseX10MouseEvent", "mouse.go:parseMouseButton"]}
{"id": "C45", "title": "A key's name identifies the key", "statement": "Two key messages with the same name (as used for key bindings) are the same key press.", "quantifier": "all pairs of key messages", "why_tests_cant": "unbounded rune sequences", "anchors": ["input.go:Key.String"]}
{"id": "C46", "title": "Messages are handled one at a time, each at most once, in the order received", "statement": "Under every schedule the model's updates are serialised, every handled message was sent by a command, the input reader or the resize listener, no message is handled twice, and messages sent by one sender are handled in the order sent.", "quantifier": "all schedules of the program's goroutines", "why_tests_cant": "interleavings", "anchors": ["app.go:appRunner.eventLoop", "app.go:appRunner.Send", "app.go:appRunner.handleCommands"]}
{"id": "C47", "title": "Quit stops the program", "statement": "Once a quit message is handled no further update happens, at most one more draw happens (the final one while shutting down), the quit message itself is not shown to the model, and Run returns the last model without error after restoring the terminal.", "quantifier": "all schedules", "why_tests_cant": "interleavings", "anchors": ["app.go:App.eventLoop", "app.go:App.Run", "app.go:App.shutdown"]}
{"id": "C48", "title": "Every command returned to the program is run exactly once", "statement": "Each non-nil command returned by Init or Update, alone or inside Batch or Sequence, is executed exactly once unless the program ends.", "quantifier": "all schedules and all (nested) commands", "why_tests_cant": "interleavings and nesting", "anchors": ["app.go:App.handleCommands", "app.go:App.eventLoop", "cmd.go:Batch", "cmd.go:Sequence"]}
{"id": "C49", "title": "Sequence runs its commands in order", "statement": "While the context is not cancelled, the messages of the commands of a Sequence reach the model in the order of the commands, and a command is not started before the message of the one before it has been accepted.", "quantifier": "all schedules and command lists", "why_tests_cant": "interleavings", "anchors": ["app.go:App.eventLoop", "cmd.go:Sequence"]}
{"id": "C50", "title": "Batch composes commands", "statement": "Batch drops nil commands, is nil when nothing is left, is the single command when one is left, and otherwise is one message carrying the rest in order.", "quantifier": "all command lists", "why_tests_cant": "unbounded lists", "anchors": ["cmd.go:Batch"]}
{"id": "C51", "title": "Cancelling the context always ends the program", "statement": "After the context is cancelled, Run returns under every schedule (assuming the model's own functions return).", "quantifier": "all schedules and cancellation points", "why_tests_cant": "the bad interleaving needs cancellation between two specific steps", "anchors": ["app.go:App.Run", "app.go:App.eventLoop", "app.go:App.shutdown", "app.go:channelHandlers.shutdown"]}
{"id": "C52", "title": "The terminal is restored whenever Run returns", "statement": "On every way out of Run - quit, error, cancellation, panic - raw mode, alternate screen, bracketed paste and cursor visibility are put back.", "quantifier": "all ways out and all failure points", "why_tests_cant": "failure injection at every step", "anchors": ["app.go:App.Run", "app.go:App.recoverFromPanic", "tty.go:App.initTerminal", "tty.go:App.restoreTerminal"]}
{"id": "C53", "title": "Configuration values are immutable", "statement": "Deriving a new widget or layout from an existing one with a With... method never changes the existing value nor another value derived from it.", "quantifier": "all derivation trees of widgets and layouts", "why_tests_cant": "depends on slice capacities along the whole derivation history", "anchors": ["layout.go:Layout.WithConstraints", "widget/blockwidget/block.go:Block.WithTitle", "widget/textwidget/line.go:Line.WithSpans", "widget/textwidget/text.go:Text.WithLines"]}
{"id": "C54", "title": "A failed draw is reported and ends the program", "statement": "If drawing fails, Run returns the error.", "quantifier": "all schedules and failure points", "why_tests_cant": "failure injection", "anchors": ["app.go:App.draw", "app.go:App.eventLoop"]}
{"id": "C55", "title": "Setting colours works with any pair of colours", "statement": "The colour command emits a valid sequence for every pair of foreground and background, including when one of them is absent.", "quantifier": "all colour pairs", "why_tests_cant": "nil cases", "anchors": ["ansi/command.go:SetColors"]}
{"id": "C56", "title": "Tabs stay inside their area", "statement": "Rendering tabs draws titles, padding and dividers left to right, never outside the given area, and highlights exactly the selected title.", "quantifier": "all title lists, paddings, dividers, selections and areas", "why_tests_cant": "unbounded lists", "anchors": ["widget/tabswidget/tabs.go"]}
{"id": "C57", "title": "A paragraph is drawn only inside its area", "statement": "Rendering the text of a paragraph with any wrapping, alignment and scroll offset into an area inside the buffer never panics, changes only cells of the area, and row k of the area shows the composed line scroll+k placed as its alignment asks.", "quantifier": "all paragraphs, areas, buffers, alignments and scroll offsets", "why_tests_cant": "unbounded texts and geometries", "anchors": ["widget/paragraphwidget/paragraph.go:Paragraph.render", "widget/paragraphwidget/paragraph.go:Paragraph.renderText"]}
{"id": "C58", "title": "The scroll bar is drawn cell by cell as computed", "statement": "Rendering a scroll bar shows, along its own column or row, the begin symbol, the track before the thumb, the thumb, the track after it and the end symbol with the lengths computed for them, and changes no other cell of the buffer.", "quantifier": "all areas, states, orientations and symbol sets of one-column symbols", "why_tests_cant": "unbounded areas and states", "anchors": ["widget/scrollwidget/scroll.go:Scroll.RenderStateful", "widget/scrollwidget/scroll.go:Scroll.barSymbols"]}
{"id": "C59", "title": "Printing a line shows its spans in order and reports where it stopped", "statement": "Printing a line at a position with a limit of n columns shows the characters of its spans one after the other from that position, each in the style of its span over the style of the line, stops after n columns, changes no other cell and returns the column after the last character drawn.", "quantifier": "all lines, positions, limits and buffers", "why_tests_cant": "unbounded texts", "anchors": ["widget/textwidget/line.go:Line.Print", "widget/textwidget/span.go:Span.Print", "buffer.go:Buffer.SetStringN"]}
{"id": "C60", "title": "Segments that have room are where the constraints put them", "statement": "When the area has room for what the constraints of a layout ask (every fixed size is met, every minimum is within its share), Layout.Split returns one segment per constraint, in order: each starts after the segments and spaces before it, is as long as its Len, Max, Percentage or Ratio asks or has its weighted share of what is left for Fill and Min, and the free space is before, after or between the segments as the flex says; edges are within 0.505 cells of the real position and exact when it is a whole number.", "quantifier": "all layouts, areas, spacings and flexes with room, all orders of walking the solver's maps, all tableau histories", "why_tests_cant": "The claim ranges over all lists of constraints and sizes of area; the solver's map iteration order differs between runs, so a passing test shows one order.", "anchors": ["layout.go:Layout.Split", "layout.go:Layout.split", "layout.go:configureFlexConstraints", "layout.go:configureConstraints", "layout.go:configureFillConstraints", "layout.go:changesToRects"]}
{"id": "C61", "title": "Splitting is deterministic when there is room", "statement": "Splitting the same area by the same layout twice gives the same segments and the same spacers, although the constraint solver walks Go maps in an unspecified order.", "quantifier": "all pairs of runs: all map orders, all layouts and areas with room", "why_tests_cant": "Go randomises map iteration; no finite number of runs excludes an order that gives another result.", "anchors": ["layout.go:Layout.Split", "internal/casso/solver.go:Solver.optimize", "internal/casso/solver.go:Solver.AddConstraint"]}
{"id": "C62", "title": "FlexSpaceAround leaves space around the segments", "statement": "With FlexSpaceAround and more room than the segments need, there is free space before the first and after the last segment. (Refuted: it places every segment where FlexSpaceBetween does; the first segment starts at the edge of the area and the last ends at it.)", "quantifier": "all layouts with FlexSpaceAround that have room", "why_tests_cant": "That no layout leaves space around is a statement about all layouts; a test shows one.", "anchors": ["layout.go:configureFlexConstraints", "layout.go:FlexSpaceAround"]}
{"id": "C63", "title": "Splitting is deterministic for every layout", "statement": "Splitting the same area by the same layout twice gives the same segments, also when the area has no room for what the constraints ask. (Refuted: with FlexStart, [Len 5, Len 5, Fill 1, Len 5, Len 5] in ten columns, the first two segments get the area in one order of walking the solver's maps, the last two in another. C61 has the part that holds.)", "quantifier": "all pairs of runs: all map orders, all layouts and areas", "why_tests_cant": "Go randomises map iteration; a test that passes shows one order.", "anchors": ["layout.go:Layout.Split", "internal/casso/solver.go:Solver.optimize", "internal/casso/solver.go:Solver.getEnteringSymbol"]}
{"id": "C64", "title": "Segments never overlap", "statement": "With a spacing that is not negative, no cell is in two segments of a split, whether or not the area has room for what the constraints ask. If the spaces fit in the area, each segment starts at least the spacing after the one before it ends; if they do not fit, every segment is empty.", "quantifier": "all layouts (constraints, flex, padding, direction, spacing of at least 0), all areas, all orders of walking the solver's maps", "why_tests_cant": "Overlap would show only for some combination of constraints, area and map order; the combinations are unbounded.", "anchors": ["layout.go:Layout.Split", "layout.go:configureFlexConstraints", "layout.go:configureConstraints", "layout.go:changesToRects"]}
{"id": "C65", "title": "A popup stays in its area, at the place and with the size it was given", "statement": "Rendering a popup never panics. It changes only cells in one rectangle, which lies in the area; the rectangle that Inner returns lies in it and is left blank, with the style of the popup and of its block. A popup of fixed width and height that fit has exactly that size, and Left, Center, Right, Top, Middle and Bottom put it at the edges or in the middle.", "quantifier": "all popups (sizes, flexes, padding, block, style), all areas and buffers, all orders of walking the solver's maps", "why_tests_cant": "Sizes, areas, decorations and map orders are unbounded.", "anchors": ["widget/popupwidget/popup.go:Popup.Render", "widget/popupwidget/popup.go:Popup.Inner", "widget/popupwidget/popup.go:Popup.Top", "widget/popupwidget/popup.go:Popup.Right"]}
{"id": "C66", "title": "A popup shows its Content", "statement": "Rendering a popup draws the widget in its Content field in the inner rectangle. (Refuted: Render never looks at Content; it draws the same for every content.)", "quantifier": "all popups and contents", "why_tests_cant": "That no content is ever drawn is a statement about all popups.", "anchors": ["widget/popupwidget/popup.go:Popup.Render", "widget/popupwidget/popup.go:Popup"]}
{"id": "C67", "title": "The padding of a popup is kept once", "statement": "A popup that fills its area is the area without the padding of the popup. (Refuted: the padding is removed twice, once with the rows and once with the columns.)", "quantifier": "all areas and paddings", "why_tests_cant": "It must hold for every area and padding.", "anchors": ["widget/popupwidget/popup.go:Popup.Render", "layout.go:Layout.Split"]}
{"id": "C68", "title": "A layout keeps its edges and its spacing even when there is no room", "statement": "For every layout whose spacing is not negative and whose spaces fit in the area, whatever its constraints ask for: with the flexes Legacy (the default of NewLayout), Start, Center and End every next segment starts exactly the spacing after the one before it ends; with Legacy, Start and SpaceBetween (and SpaceAround of two or more segments) the first segment starts where the area starts, with Legacy, End and SpaceBetween (and SpaceAround of two or more) the last one ends where it ends; centred segments have equal margins and the gaps of SpaceBetween and SpaceAround are equal, up to the rounding to cells. In particular the default layout without spacing tiles its area: every cell of it is in exactly one segment.", "quantifier": "all lists of constraints, flexes, directions, paddings, areas, and orders in which the solver meets its maps", "why_tests_cant": "Which sizes compete depends on every constraint at once and on the order in which the solver meets its symbols; a table of layouts cannot cover them.", "anchors": ["layout.go:Layout.Split", "layout.go:configureFlexConstraints", "layout.go:NewLayout", "flex.go"]}
{"id": "C69", "title": "A spinner shows the frame it has reached, in the middle of its area", "statement": "Whatever messages a new spinner has been given, drawing it with any of the nine frame sets in any area of the buffer does not panic and changes no cell outside the area; if the frame it has reached fits, its characters stand side by side on the middle line, in the middle columns, and every other cell is as before.", "quantifier": "all message histories, spinner types, areas, buffers, and orders in which the layout solver meets its maps", "why_tests_cant": "The frame depends on the whole history of messages and its place on two runs of the layout solver; every combination of history, frame width and area matters.", "anchors": ["widget/throbberwidget/throbber.go:Throbber.RenderStateful", "widget/throbberwidget/set.go:Set.Frame", "widget/throbberwidget/state.go:State.TryUpdate"]}
{"id": "C70", "title": "An input draws in the line its vertical placement names and shows its cursor there", "statement": "For every area and block: a text input put at the top, in the middle or at the bottom draws its text in the first, the middle or the last line of its content area, one placed by default in the first; drawing changes no cell outside the area, and keeps the text and the cursor; the cell under the cursor, in that line, shows the character at the cursor (or a blank at the end of the text) in the cursor's style.", "quantifier": "all input states reached by edits one character at a time or by a first edit of any length, prompts, alignments, blocks, areas, buffers and solver orders", "why_tests_cant": "The place is the composition of a block, a layout run, a scrolled window over the text and an alignment, for every size of each.", "anchors": ["widget/inputwidget/input.go:Input.RenderStateful", "widget/inputwidget/input.go:Input.Top", "widget/inputwidget/input.go:Input.Middle", "widget/inputwidget/input.go:Input.Bottom"]}
{"id": "C71", "title": "Output reaches the terminal in order and once, and a reported success means it is there", "statement": "Whatever the output device does (short writes, errors, at any time), in every history of draws, resizes and mode changes the operations up to some point report success and all later ones report failure; the terminal has received exactly the bytes of the successful ones, in order, followed by a beginning of what the first failing one writes, and nothing of the later ones. So when Draw returns without error the screen shows the frame, whatever happened before.", "quantifier": "all device behaviours, histories of operations and frames", "why_tests_cant": "Needs failure injection at every write of every history; the buffering makes the failing write differ from the failing call.", "anchors": ["terminal.go:Terminal.Draw", "terminal.go:Terminal.Flush", "terminal.go:Terminal.Resize", "terminal_backend.go:DefaultBackend.execute", "terminal_backend.go:DefaultBackend.queue", "terminal_backend.go:DefaultBackend.Flush"]}
{"id": "C72", "title": "A failed write does not keep the terminal from being restored", "statement": "If writing to the terminal fails while drawing but works again afterwards, shutting down restores the terminal: raw mode ends, the cursor is shown, the alternate screen is left.", "quantifier": "all device behaviours and all points of failure", "why_tests_cant": "Needs a transient failure at every write.", "anchors": ["app.go:appRunner.restore", "tty.go:appRunner.restoreTerminal", "terminal_backend.go:NewDefaultBackend", "terminal_backend.go:DefaultBackend.execute"]}
{"id": "C73", "title": "While a program runs the terminal is in the modes it needs, and afterwards in the usual ones", "statement": "After the start of a program and any history of draws and resizes the terminal is on its alternate screen, hides its cursor and reports pastes as such (so that a paste arrives as one message); after restoring it is on its main screen, shows its cursor and does not bracket pastes.", "quantifier": "all histories of draws and resizes, all previous modes of the terminal", "why_tests_cant": "The modes are the result of every byte written.", "anchors": ["app.go:appRunner.init", "app.go:appRunner.restore", "tty.go:appRunner.initTerminal", "tty.go:appRunner.restoreTerminal", "terminal.go:Terminal.EnableBracketedPaste"]}
{"id": "C74", "title": "Solving a layout ends", "statement": "Splitting an area by a layout returns: the solver adds every constraint and stops, whatever the order in which it meets the keys of its maps.", "quantifier": "all layouts and areas, all orders in which Go walks its maps", "why_tests_cant": "A test that returns shows one order; a cycle of pivots needs particular orders, and that none is possible (or that one is) is a statement about infinitely many rounds.", "anchors": ["internal/casso/solver.go:Solver.optimize", "internal/casso/solver.go:Solver.getEnteringSymbol", "internal/casso/solver.go:Solver.getLeavingRow", "layout.go:Layout.Split"]}
{"id": "C75", "title": "Rounding errors do not move the segments of a layout in whole cells", "statement": "A layout whose sizes are whole cells (lengths, minima, maxima, at most one fill; or one such segment with any flex, centred too) and whose numbers fit in 32 bits is split, in float64 arithmetic and with the solver's test for zero, exactly as with exact arithmetic: so it does not panic, its segments are pieces of the area, they tile it where the layout says so and where there is room they are where the constraints ask for them, whatever the order in which Go walks its maps. With ratios this is false: a rounding error can take a cell from one segment and give another one more than it asks for, and it depends on the order of the maps.", "quantifier": "all layouts in whole cells with up to thirteen constraints, or with one constraint and any flex, all areas with 32-bit coordinates, all orders in which Go walks its maps", "why_tests_cant": "Whether any float64 operation of any run of the simplex rounds depends on the numbers that can occur in the tableau for every layout, area and map order; a test sees one run.", "anchors": ["layout.go:Layout.split", "layout.go:changesToRects", "internal/casso/solver.go:Solver.AddConstraint", "internal/casso/casso.go:_Row.InsertRow"]}
{"id": "C76", "title": "What a widget draws never covers the decoration of its block", "statement": "When a paragraph, a list, tabs or a text input is drawn with a block around it, every cell outside the block's content area - borders, titles, padding and everything outside the widget - is what the widget's background and the block alone leave there, whatever the content is and whatever the state of the widget.", "quantifier": "all contents, states, blocks, areas and buffers that hold the area; for wrapped paragraphs, words that fit the content area and narrow graphemes; for tabs, titles of one-column characters", "why_tests_cant": "A text, a title, a scroll offset or a selection that spills over the border does so only for particular combinations of contents, widths and offsets.", "anchors": ["widget/paragraphwidget/paragraph.go:Paragraph.Render", "widget/listwidget/list.go:List.RenderStateful", "widget/listwidget/list.go:List.Render", "widget/tabswidget/tabs.go:Tabs.Render", "widget/inputwidget/input.go:Input.RenderStateful", "widget/blockwidget/block.go:Block.Inner"]}
{"id": "C77", "title": "Every option of a widget is what the last call that names it gave", "statement": "After any sequence of builder calls on a title, a border set, a block, a paragraph, a list, tabs, a gauge, a popup, a text input, a spinner, a line, a text, a style or a layout, each option has the value that the last call naming it gave, or the one it had before if none did; titles, spans, lines and constraints are kept in the order in which they were added; no call changes an option it does not name. The text of an RGB colour says which bytes it was made of.", "quantifier": "all sequences of builder calls with all arguments, on all values", "why_tests_cant": "A builder that writes the wrong field, or also another one, is seen only by a sequence of calls that sets both, in the right order; Padding.WithLeft is such a case (C04).", "anchors": ["widget/blockwidget/block.go:Block.WithTitle", "widget/blockwidget/border.go:BorderSet.WithTopLeft", "widget/blockwidget/title.go:Title.WithPosition", "widget/paragraphwidget/paragraph.go:Paragraph.WithScroll", "widget/listwidget/list.go:List.WithItems", "widget/tabswidget/tabs.go:Tabs.Select", "widget/gaugewidget/gauge.go:Gauge.WithLabel", "widget/popupwidget/popup.go:Popup.WithWidth", "widget/inputwidget/input.go:Input.WithPrompt", "widget/textwidget/line.go:Line.WithSpans", "widget/textwidget/text.go:Text.WithLines", "style.go:Style.RGB", "layout.go:Layout.WithConstraints"]}
{"id": "C78", "title": "A buffer made of lines is as large as they are and shows them all", "statement": "Lines.NewBuffer returns a buffer at the origin, exactly as high as there are lines and as wide as the widest of them. Row k shows the characters of line k from the left edge on, each in the style of its span over that of its line, and is blank behind them; nothing is cut off. Characters that take no column are given one all the same, so lines with such characters can lose text or make the call panic; the alignment of a line is not looked at (both refuted).", "quantifier": "all lists of lines, all numbers of spans, all contents and styles", "why_tests_cant": "The room left for the spans of a line is computed wrongly (it never shrinks), so that nothing is cut holds only because the buffer is as wide as the widest line; tests see a few lines, not all of them.", "anchors": ["widget/textwidget/line.go:Lines.NewBuffer", "widget/textwidget/line.go:setLine", "widget/textwidget/line.go:Lines.Width", "widget/textwidget/line.go:Lines.Height", "buffer.go:Buffer.SetStringN"]}
{"id": "C79", "title": "On Windows a key press arrives as the same key as elsewhere", "statement": "When the console of Windows is read, the messages are those of the records, in order: a pressed key leads to as many equal key messages as it was repeated, a released key and Shift alone to none, a new window size to one size message and a repeated one to none. A cursor key with any modifiers, Enter, Backspace, Tab, Shift+Tab, Page Up, Page Down, Delete and Ctrl with a letter lead to the key message that the bytes of an xterm for the same keys lead to; a character without Ctrl leads to this character. Refuted: Ctrl+Page Up is Page Up; Insert, the function keys, Ctrl alone and Alt alone arrive as the character 0; characters typed with AltGr have Alt set; Ctrl with a bracket arrives as another key; characters beyond U+FFFF do not arrive.", "quantifier": "all sequences of console records, all virtual key codes, characters, repeat counts and states of the modifier keys, including lock keys", "why_tests_cant": "There are 65536 codes, 2^32 states and as many characters, and the decoding depends on the records before; the console cannot be driven by tests on other systems.", "anchors": ["key_windows.go:readConInputs", "key_windows.go:keyType", "input.go:KeyMsg", "input.go:sequences"]}
{"id": "C80", "title": "On Windows a mouse event says what the mouse did", "statement": "When the console of Windows is read, every mouse record leads to one mouse message with its place and modifiers. A click that changes one button reports this button, as pressed if it is down now and as released if not, whatever other buttons are held; a movement reports the button held, or none; a wheel reports its direction. Refuted: the click after a wheel record is reported without a button, because the distance of the wheel is remembered as if it were buttons.", "quantifier": "all sequences of console records, all states of the buttons and of the modifier keys", "why_tests_cant": "The button is computed from the difference to the record before, so it depends on the history of records.", "anchors": ["key_windows.go:mouseEvent", "key_windows.go:mouseEventButton", "key_windows.go:readConInputs", "mouse.go:MouseEvent"]}
{"id": "C81", "title": "A mouse event's name identifies the event", "statement": "Two mouse events that a terminal can report have the same String exactly if modifiers, button and action are the same; the place does not matter. Every mouse event delivered, whatever bytes come in, is such an event, so none is called unknown.", "quantifier": "all mouse events, all byte streams", "why_tests_cant": "Programs compare names as strings; that no two events share one is a statement about all pairs, and that nothing else is delivered one about all inputs.", "anchors": ["mouse.go:MouseEvent.String", "mouse.go:MouseMsg.String", "mouse.go:parseMouseButton", "mouse.go:parseSGRMouseEvent", "mouse.go:parseX10MouseEvent"]}
{"id": "C82", "title": "A fixed viewport draws only on its own part of the screen", "statement": "A terminal made with ViewportFixed for a blank part of the screen shows there, after any sequence of Draw, Clear and Resize calls, the frame drawn last, in the area named last. Draw changes nothing anywhere else, provided no glyph hangs over the edge of the area. Clear keeps the rows above the area and erases everything from its first row on, over the full width and down to the end of the screen. Refuted: that Clear is confined to the viewport; that the viewport keeps its area when the program handles a resize by calling Resize with the size of the terminal; that a new terminal shows a blank frame where something stood before; that ViewportInline can be used.", "quantifier": "all areas inside all screens, all screen contents, all sequences of Draw, Clear and Resize, all widgets that draw showable frames", "why_tests_cant": "What is left elsewhere on the screen depends on its contents before and on the whole history; a test looks at a few screens.", "anchors": ["terminal.go:NewTerminal", "terminal.go:Terminal.Draw", "terminal.go:Terminal.Clear", "terminal.go:Terminal.Resize", "viewport.go:ViewportFixed", "viewport.go:ViewportInline", "buffer.go:Buffer.Diff"]}
{"id": "C83", "title": "A text input owns its text", "statement": "A program may hold any number of input states. A call on one of them does to it exactly what the call does to a text of its own, and panics exactly when that does, whatever was made, copied and edited before. As long as no state is copied, every state is as if it were the only one; drawing a state does not change any text. With copies, a call changes only the state it is called on and states that share its text by copying; DeleteLine ends the sharing. Refuted: that a copy of a state is independent of the original; erasing through the copy, and typing through both, changes the text of the original.", "quantifier": "all histories of making, copying, editing and drawing any number of input states; all capacities that the runtime may choose for arrays; all ways of cutting text into clusters", "why_tests_cant": "Whether two states write into the same memory depends on the capacities along their whole history.", "anchors": ["widget/inputwidget/state.go:State", "widget/inputwidget/state.go:State.Append", "widget/inputwidget/state.go:State.DeleteUnderCursor", "widget/inputwidget/state.go:State.deleteWhile", "widget/inputwidget/state.go:State.splitAtCursor", "widget/inputwidget/input.go:Input.split"]}
{"id": "C84", "title": "When Run has returned the program is over", "statement": "After Run has returned, for whatever reason, no message is taken, Update is not called, nothing is drawn and no sequence begins; the results of Run stay. At most one message typed later is taken from the input. Refuted: that nothing typed after Run has returned is taken from the input (the reader is not stopped, so the first key typed after a normal Quit is lost); that no command starts after Run has returned (a sequence that contains Quit goes on with its next command).", "quantifier": "all programs, commands, inputs, schedules of the goroutines, and all ways Run can return", "why_tests_cant": "Depends on where every goroutine stands when Run returns.", "anchors": ["app.go:appRunner.Run", "app.go:appRunner.shutdown", "app.go:appRunner.eventLoop", "tty.go:appRunner.readLoop", "tty.go:appRunner.initCancelReader", "input.go:readAnsiInputs"]}
{"id": "C85", "title": "The screen of a running program shows its model", "statement": "Whenever a program waits for its next message, every message taken so far that is meant for the model has been given to Update, and the screen shows exactly what the resulting model draws on an empty frame of the terminal's size, provided that the program has handled the last change of that size. The same holds when it has drawn its last frame and is about to put the terminal back.", "quantifier": "all models, commands, inputs, schedules of the goroutines, resizes by the user at any moment, and all frames that the terminal can show", "why_tests_cant": "Ties together every schedule of the event loop with every history of frames and resizes.", "anchors": ["app.go:appRunner.Run", "app.go:appRunner.eventLoop", "app.go:appRunner.draw", "terminal.go:Terminal.Draw", "terminal.go:Terminal.Resize"]}
{"id": "C86", "title": "Split gives one segment per constraint, and Assign and Unwrap hand them out in order", "statement": "If Split returns, it returns one segment for each constraint and one spacer more, of sizes that are not negative and with the whole extent of the padded area across, however the solver rounds and whatever the constraints are. Assign stores the i-th segment where the i-th pointer points, passes over nil pointers, changes nothing else, and panics exactly if a pointer has no segment; Unwrap to Unwrap4 give the first segments in order and panic exactly if there are fewer. So a layout with as many constraints as pointers never panics there.", "quantifier": "all layouts with any number of constraints, all areas, all arithmetics and tolerances of the solver, all orders of the maps, all lists of pointers including nil and equal ones", "why_tests_cant": "All numbers of constraints, all outcomes of the solver and all aliasing of the pointers.", "anchors": ["layout.go:Splitted.Assign", "layout.go:Splitted.Unwrap", "layout.go:Splitted.Unwrap2", "layout.go:Splitted.Unwrap3", "layout.go:Splitted.Unwrap4", "layout.go:changesToRects", "layout.go:Layout.split"]}
{"id": "C87", "title": "A program is told the size of its terminal", "statement": "Whenever the terminal's size has changed and all signals and messages about it have been dealt with, the last size the program was told is the terminal's size; it is told only sizes the terminal had, and once for each change at most besides the two times at the start; and once the size stays the same this is reached after a few steps. If the size cannot be found out, the program is told of the error.", "quantifier": "all schedules of the goroutines, all moments at which the size changes, all delays of signals, on Unix and on Windows", "why_tests_cant": "The race between the first question, the signals and the changes has to be won in every schedule.", "anchors": ["signals_unix.go:appRunner.listenForResize", "signals_windows.go:appRunner.listenForResize", "tty.go:appRunner.checkResize", "app.go:appRunner.handleResize", "terminal_backend.go:DefaultBackend.GetSize", "inputreader_windows.go:newInputReader"]}
{"id": "C88", "title": "A block's titles stand where they were put", "statement": "The first and the last row of a rendered block show, between the vertical sides, the titles added for that row: those aligned left from the left end, those centred in the middle, those aligned right up to the right end, each group in the order in which its titles were added and with one free column between two titles. A title that says neither row nor alignment takes them from the block. Titles are drawn in the titles' style; left titles cover centred ones, which cover right ones; what does not fit is cut at the end of the row. Every character of a title that fits and that no other title covers is on the screen.", "quantifier": "all blocks, titles, alignments and areas inside the buffer, for titles of visible characters of any width", "why_tests_cant": "unbounded numbers of titles, widths and areas", "anchors": ["widget/blockwidget/block.go:Block.renderTitles", "widget/blockwidget/block.go:Block.renderRightTitles", "widget/blockwidget/block.go:Block.renderCenterTitles", "widget/blockwidget/block.go:Block.renderLeftTitles", "widget/blockwidget/block.go:Block.filterTitles", "widget/blockwidget/block.go:Block.titlesArea"]}
{"id": "C89", "title": "Programs made of the library's widgets can be shown", "statement": "Let a view be built of the library's widgets (spans, lines, texts, blocks, paragraphs, lists, tabs, gauges, scrollbars, inputs, throbbers, popups, clear and fill), in any order, anywhere in the frame and chosen in any way by the size of the frame, using texts and symbols made of one-column graphemes without control characters and styles whose colours the terminal has and which neither hide text nor blink rapidly. Whenever its Render returns, every cell of the frame holds one such grapheme and such a style, so the terminal can show the frame. If moreover every widget is given a part of the area around it (and is one of those that return for every size), Render returns for every size of the terminal, and whenever a program with this view waits for a message, knowing the terminal's size, the screen shows exactly what its model draws.", "quantifier": "every view composed of the widgets in any number and nesting, every text, style, state and size, every history of messages, draws and resizes", "why_tests_cant": "a test draws one composition of widgets on one size; the claim is about all compositions, sizes and histories", "anchors": ["widget.go:Widget", "widget/textwidget/span.go:Span.Render", "widget/textwidget/line.go:Line.Render", "widget/textwidget/text.go:Text.Render", "widget/blockwidget/block.go:Block.Render", "widget/paragraphwidget/paragraph.go:Paragraph.Render", "widget/listwidget/list.go:List.RenderStateful", "widget/tabswidget/tabs.go:Tabs.Render", "widget/gaugewidget/gauge.go:Gauge.Render", "widget/scrollwidget/scroll.go:Scroll.RenderStateful", "widget/inputwidget/input.go:Input.RenderStateful", "widget/popupwidget/popup.go:Popup.Render", "widget/throbberwidget/throbber.go:Throbber.RenderStateful", "terminal.go:Terminal.Draw"]}
{"id": "C90", "title": "Splitting a layout ends with probability one", "statement": "Go walks its maps in an order drawn anew each time. If at every walk each order of the keys can be drawn, then for every m there is a number of walks, the same for all layouts of few constraints and all areas, after which the chance that Split is still solving is at most one in m; and when it is done, the draws so far settle the segments. So although some sequences of orders make Split run for ever (C74), they have probability zero.", "quantifier": "all layouts whose constraints need at most 254 names, all areas, all ways to draw the orders that give every order of up to 1024 keys a chance, all bounds m, all continuations after the draws; in exact arithmetic, and in float64 for layouts in whole cells", "why_tests_cant": "The orders of map walks are drawn by the runtime; a test sees a few of the astronomically many sequences, and no run of a program shows that a probability is zero.", "anchors": ["internal/casso/solver.go:Solver.optimize", "internal/casso/solver.go:Solver.getEnteringSymbol", "internal/casso/solver.go:Solver.getLeavingRow", "layout.go:Layout.Split"]}
{"id": "C91", "title": "When there is no room for everything, the constraints of lower priority give way", "statement": "The constraints of a layout have priorities: minimums first, then lengths, percentages, ratios, maximums and fillings. If the split leaves a segment shorter than its constraint asks, then every segment of lower priority is empty, every other segment has no more than it asks for, and no room is left free. So if what the constraints of some priority and above ask for fits in the area together with the spaces, each of them gets at least what it asks, whatever the others ask for. No segment with a length, maximum, percentage or ratio becomes longer than it asks unless the flex is the legacy one (or there is one segment with space between), and then only a segment that minds least: nobody else could have taken the surplus at a lower cost (minimum, ratio, percentage, length, maximum, in this order).", "quantifier": "every layout of up to 80 constraints whose filling weights sum to at most 100000, every flex, non-negative spacing that fits, padding, area, and every order in which the solver's maps are walked", "why_tests_cant": "The priorities are only numbers in the objective of a linear program. That a constraint of lower priority never wins over one of higher priority depends on how many of them there are and on all their weights, and in particular on every combination of constraints, flex and area; a test looks at a few.", "anchors": ["layout.go:Layout.Split", "layout.go:configureConstraints", "layout.go:configureFillConstraints", "layout.go:configureFlexConstraints", "layout.go:_minSizeGTE and the other strengths", "constraint.go", "flex.go"]}
{"id": "C92", "title": "What the user types ends up in the text input", "statement": "In a program that hands its messages to a text input's TryUpdate, the bytes a terminal sends while the user types, pastes and presses editing keys change the input's text exactly as those events, one by one, change a plain line editor: characters are inserted at the cursor, arrows, Ctrl+A, Ctrl+E, Backspace, Delete and Ctrl+W do what they say, other events do nothing. It does not matter how the text is divided into reads and grouped into messages, what commands and goroutines do meanwhile, or how often the terminal is resized: whenever the program waits, its input holds the text after some prefix of the events, and after all of them once every message has been taken. If the characters combine into graphemes, typing and pasting still inserts exactly the text sent.", "quantifier": "every sequence of reads that carry whole events (text of any length and division, key sequences, mouse, focus, pastes), every program that hands over its messages, its commands, and every schedule of its goroutines", "why_tests_cant": "It joins the decoder, the program's event loop and the editor: the reads can be cut in endless ways, messages group characters differently each time, and goroutines interleave; a test fixes one cut and one schedule.", "anchors": ["key_other.go:readInputs", "input.go:readAnsiInputs", "app.go:App.Run", "app.go:eventLoop", "widget/inputwidget/state.go:State.TryUpdate", "widget/inputwidget/state.go:State.update", "widget/inputwidget/state.go:State.Append"]}
{"id": "C93", "title": "Only one goroutine at a time writes to the terminal", "statement": "While a program runs, setting up the terminal, drawing frames, clearing the screen on a resize and putting the terminal back are never done by two goroutines at once, and once the terminal is being put back no frame is drawn any more.", "quantifier": "every model, every input, every command (panicking or not), every interleaving of the program's goroutines, cancellation at any time", "why_tests_cant": "whether two goroutines write at once depends on the schedule; a test sees one schedule, and the race needs a command that panics at the moment a frame is drawn", "anchors": ["app.go:appRunner.recoverFromPanic", "app.go:appRunner.shutdown", "app.go:appRunner.restore", "app.go:appRunner.handleCmd", "app.go:appRunner.draw", "app.go:appRunner.eventLoop"]}
{"id": "C94", "title": "An App can be run again", "statement": "After Run has returned without an error, calling Run again on the same App runs the program again and can return its model without an error.", "quantifier": "every program, every input, every schedule of the first and of the second run", "why_tests_cant": "that no schedule of the second run succeeds is a statement about all interleavings; a test that sees one error cannot tell whether it was bad luck", "anchors": ["app.go:NewApp", "app.go:App.WithContext", "app.go:App.Run", "app.go:appRunner.shutdown", "app.go:appRunner.Run"]}
{"id": "C95", "title": "The screen of a program whose Render changes the model", "statement": "Whenever a running program whose Render changes its model (as widgets with a state, such as lists and inputs, do through pointers) waits for the next message, the terminal shows exactly what its view draws, on a frame of the terminal's current size, for the model that results from the messages taken so far, drawn once before each message and at the size the program knew then.", "quantifier": "all programs whose views draw printable frames, all terminals, all schedules, messages and resizes, at every moment at which the program waits for a message and knows the size", "why_tests_cant": "the model depends on every draw and every message before, in the order the schedule gave them", "anchors": ["app.go:App.Run", "terminal.go:Terminal.Draw", "widget/listwidget/list.go:List.RenderStateful"]}
{"id": "C96", "title": "The selection of a running program's list follows the keys", "statement": "In a running program that hands its key messages to a list's state, the item selected whenever the program waits is the one that the keys read so far select when each is applied to a plain list of the same length (down/j one on, up/k one back, g the first, G the last, ctrl+d and ctrl+u eight items), never beyond the ends, and it stands highlighted on the screen in full when there is room for it.", "quantifier": "all list programs, key sequences, schedules, resizes and terminals", "why_tests_cant": "the state is changed by keys and by every draw, and must agree with a plain list after any history of them", "anchors": ["widget/listwidget/state.go:State.TryUpdate", "widget/listwidget/list.go:List.RenderStateful", "app.go:App.Run"]}
{"id": "C97", "title": "A list shows its items", "statement": "A list that has room shows a range of its items, in order from the top or from the bottom, each in as many rows as it has lines: the column for the marker, with the marker in the selected item and blanks elsewhere, and the item's lines in the item's styles on the list's, with the highlight style over the selected item; all other cells look as if the list had no items.", "quantifier": "all lists, items, styles, markers, areas, states and buffers", "why_tests_cant": "a test fixes one list and one state; the claim is about every cell for every list", "anchors": ["widget/listwidget/list.go:List.RenderStateful", "widget/listwidget/list.go:List.getItemsBounds", "widget/textwidget/text.go:Text.Render"]}
{"id": "C98", "title": "A paragraph shows its text", "statement": "A paragraph shows the graphemes of its text, each in the text's style under its line's under its span's, in rows placed by the line's own alignment or else the paragraph's: wrapped, the rows of a line together hold exactly its non-blank graphemes in order; not wrapped, a line's row holds the longest run that fits after those scrolled past. All other cells of the area only get the paragraph's style.", "quantifier": "all texts, styles, alignments, areas, scroll positions and buffers", "why_tests_cant": "unbounded texts and areas; the claim is about every cell", "anchors": ["widget/paragraphwidget/paragraph.go:Paragraph.Render", "widget/paragraphwidget/paragraph.go:Paragraph.renderText", "internal/reflow/wrapper.go:WordWrapper.NextLine", "internal/reflow/truncator.go:LineTruncator.NextLine", "widget/textwidget/line.go:Line.StyledGraphemes"]}
{"id": "C99", "title": "A text input shows its prompt, its text, its cursor and its placeholder", "statement": "In its row, a text input shows the prompt in the prompt style, followed by a stretch of the text that contains the cursor, without a style of its own; the grapheme at the cursor, a blank if the cursor is behind the last one, has the cursor style when the cursor is shown and nothing added when it is hidden. Without text it shows the placeholder in its style with the cursor on its first grapheme. The whole is placed by the input's alignment; every other cell keeps the input's style and block. For texts, the view must have been near the cursor, or not moved yet.", "quantifier": "all prompts, texts, placeholders, cursor positions, views, styles, alignments, blocks, areas and buffers", "why_tests_cant": "unbounded texts and areas; the claim is about every cell", "anchors": ["widget/inputwidget/input.go:Input.RenderStateful", "widget/inputwidget/input.go:Input.split", "widget/inputwidget/state.go:State.getBounds"]}
{"id": "C100", "title": "A running program shows what the user types", "statement": "A program that hands the messages it reads to a text input and draws that input: whenever it waits for a message, knowing the terminal's size, the text and cursor of the input are those of a plain editor after the keys read so far, and the terminal's screen shows them: the row of the input shows the prompt, then the text, or a stretch of it that contains the cursor, with the cursor in its style, or the placeholder while there is no text; every other cell of the screen shows what was drawn before the input and the input's style and block. It holds whatever commands, goroutines, resizes and redraws happen in between, for keystrokes of one character each and with rows of constant width.", "quantifier": "all programs with a text input, keystrokes, schedules, commands, sizes told, prompts, placeholders, styles, blocks and places of the input", "why_tests_cant": "unbounded input and schedules; the redraw changes the state that the next key works on", "anchors": ["app.go:appRunner.eventLoop", "widget/inputwidget/state.go:State.TryUpdate", "widget/inputwidget/input.go:Input.RenderStateful", "terminal.go:Terminal.Draw"]}
{"id": "C101", "title": "The example program with a text input shows what is typed and quits on Ctrl+C", "statement": "The program of examples/input: whenever it waits for a message, knowing the terminal's size, every cell of the terminal's screen is as follows. Outside the popup the screen is filled with the program's background symbol. In the middle lies a popup 80 percent of the screen wide and three rows high, with its border and its title. Inside it the row shows the prompt and the text the user typed and pasted so far, with the cursor in its place, or the placeholder while there is no text. A key message makes the program ask to quit exactly if it is Ctrl+C without Alt; no other message makes it ask for any command.", "quantifier": "all messages read, schedules, sizes the terminal reports and moments at which the program waits, while the text fits the popup", "why_tests_cant": "unbounded input, sizes and schedules; the screen is the result of the layout solver, three widgets, the diff renderer and the event loop together", "anchors": ["examples/input/main.go:Model.Render", "examples/input/main.go:Model.Update", "widget/popupwidget/popup.go:Popup.Render", "widget/inputwidget/input.go:Input.RenderStateful", "widget/fillwidget/fill.go:Fill.Render", "app.go:appRunner.eventLoop"]}
{"id": "C102", "title": "The example program with a list shows the items around the selection, and its popup on the space bar", "statement": "The program of examples/list: whenever it waits for a message, knowing the terminal's size, every cell of the terminal's screen is as follows. A frame with its two titles surrounds the screen. Inside it the two-row items stand below one another from the first one in view on, as many as fit, each behind a two-column gutter; the selected one has the highlight symbol and the highlight style. Which items are in view is what a reader who scrolls only as far as needed would see: the view moves up to the selected item if that is above, and down just far enough if that is below. If the space bar was read an odd number of times, a popup of thirty by three cells lies in the middle over the list, with its border, its title and a centred line of text; otherwise nothing of it is seen. The selected item is the one the keys read so far select. A key message makes the program ask to quit exactly if it is the letter q or Ctrl+C, without Alt; no other message makes it ask for any command.", "quantifier": "all messages read, schedules, numbers of items, sizes of at least thirty columns and four rows the terminal reports, and moments at which the program waits", "why_tests_cant": "unbounded input, sizes and schedules; what is in view depends on the whole history of keys and resizes; the screen is the result of the layout solver, four widgets, the diff renderer and the event loop together", "anchors": ["examples/list/main.go:Model.Render", "examples/list/main.go:Model.Update", "widget/listwidget/list.go:List.RenderStateful", "widget/listwidget/list.go:List.getItemsBounds", "widget/listwidget/state.go:State.TryUpdate", "widget/popupwidget/popup.go:Popup.Render", "widget/paragraphwidget/paragraph.go:Paragraph.Render", "app.go:appRunner.eventLoop"]}
{"id": "C103", "title": "A program ends when the user asks it to, and not before", "statement": "Let a program's Update return Quit exactly at the messages of the input reader at which the user asks to leave, and let every other command of Init and Update bring one message of the program's own, not panicking. Then, in every run: a quit message is handled, or Run returns a model without an error, only after such a message was taken from the reader; the process never crashes; whenever the program waits for messages, its context not cancelled, and the reader's next message is one at which the user asks to leave, the program can go on to handle it, draw, run the Quit command and return from Run without an error with the terminal put back, and likewise if it has handled such a message already and is still waiting. The programs of examples/input (Ctrl+C) and examples/list (q or Ctrl+C, typed without Alt) and examples/throbber (Ctrl+C) are such programs.", "quantifier": "every such program, every list of input messages, every interleaving of Run's goroutines with resizes, errors of the reader, failed draws and cancellation of the context", "why_tests_cant": "Which goroutine goes first is up to the scheduler: the quit message competes with input, resizes and errors. A test sees a few schedules, and cannot see that no schedule ends the program unasked or leaves it with its Quit command lost.", "anchors": ["app.go: App.Run and its event loop and command handler", "cmd.go: Quit", "examples/input/main.go: Model.Update", "examples/list/main.go: Model.Update", "examples/throbber/main.go: Model.Update"]}
{"id": "C104", "title": "An animation goes on as long as its program runs, by one frame a tick", "statement": "Let a program start a throbber's ticks by the command Init returns, and give each tick to the throbber and return the command it answers with. Then in every run, whenever the program waits for messages: the ticks its model was given carried the tags 0, 1, 2, ... in this order, each once; unless the context is cancelled exactly one further tick is under way and it is the next one, so the animation neither stops nor doubles its speed, whatever the user types or the terminal does; and from there the program can come to handle any number of further ticks and nothing else. In examples/throbber, moreover, the frame is the number of ticks handled, every kind of throbber shows that frame of its set counted around, the time between frames is a ninth of a second and a millisecond more for each + and less for each - typed, and the program ends at Ctrl+C and not before (C103).", "quantifier": "every such program, every list of input messages, every interleaving of Run's goroutines, every number of ticks", "why_tests_cant": "The next tick is returned by the handling of the last one and passes through three goroutines; input, resizes and other commands come between at any point. A test sees a few frames of one schedule, not that no schedule loses the chain or starts a second one.", "anchors": ["app.go: App.Run, its event loop and command handler", "widget/throbberwidget/state.go: State.TryUpdate, State.Tick, State.tick", "cmd.go: Tick", "examples/throbber/main.go: Model.Init, Model.Update"]}
{"id": "C105", "title": "The throbbers of examples/throbber each have a box of their own on the screen", "statement": "The screen of examples/throbber is drawn without a panic and without touching a cell outside its area, whatever the size of the area. The grid has at least as many boxes as there are throbbers; no cell is in two boxes and every cell of the grid's area is in one; the throbber 3i + j is in row i and column j, and with nine throbbers the edges between boxes are at thirds of the width and of the height, rounded to the nearest cell. On a screen of at least 51 columns and 11 lines, the first line shows the rate, the last line the help text, and each box shows, letter by letter, the name of its throbber from its second column on, a thin frame around it, and in its middle the frame that the ticks handled so far bring the throbber to; nothing else is drawn.", "quantifier": "every area, every buffer around it, every history of messages of the throbber, every number of items that makes at most nine rows, every order in which the solver walks its maps", "why_tests_cant": "The places of the boxes come from four runs of a constraint solver whose rounding differs for every width and height and whose map orders differ from run to run; a test looks at a few sizes.", "anchors": ["examples/throbber/main.go: Model.Render, renderInfo, renderThrobbers, renderFooter, getGrid", "widget/throbberwidget/set.go: Type.String", "widget/throbberwidget/throbber.go: Throbber.RenderStateful", "widget/blockwidget/block.go: Block.Render, Block.Inner", "layout.go: Layout.Split, Splitted.Assign"]}
{"id": "C106", "title": "Tab and Shift+Tab go around the panels of examples/lazygitlike, and on a low screen the active one has the room", "statement": "The program of examples/lazygitlike starts with the Files panel active. Whatever the user does, the active panel is as many places after Files as Tab was pressed and as many before as Shift+Tab was, counted around Status, Files, Branches, Commits and Stash, and has that title. On a screen of at most 30 rows the active panel takes all the rows the other four leave, which have three each, or one each on at most 22 rows; on a higher one Status and Stash have three rows and the other three panels a third each of the rest. The sidebar has a third of the columns. The bottom row of the screen is for the keys; the command log has the lowest 3 rows of the right side, 10 on more than 40 rows. The program ends at q or Ctrl+C and not before.", "quantifier": "every sequence of messages, every schedule of the program, every size of the screen, every run of the layout solver", "why_tests_cant": "Tests press a few keys on a few screen sizes; the keys, their order, the schedule, the sizes and the solver's map iteration order are unbounded.", "anchors": ["examples/lazygitlike/main.go: Panel.Next, Panel.Prev, Panel.Title, Update, statusConstraint, filesConstraint, branchesConstraint, commitsConstraint, stashConstraint, commandLogHeight, drawSidebar, drawRight, Render", "layout.go: Layout.Split", "app.go: App.Run"]}
