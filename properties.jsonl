{"id": "C01", "title": "Lexing is total", "statement": "Scanning any source text to the end always finishes, never panics, and yields at most as many tokens as the source has bytes.", "quantifier": "every byte string (valid UTF-8 or not) used as Source", "why_tests_cant": "Needs a progress argument for every byte string; tests only sample a few files.", "anchors": ["lexer.go: Lexer, Scan, readTokens, readValue, readComment, readEol, skipWhitespace"]}
{"id": "C02", "title": "Tokens tile the source", "statement": "The tokens produced for a source, taken in order, occupy disjoint, strictly increasing, non-empty byte ranges; every byte that is not inside a token is a space or a tab, except that an unterminated string literal leaves the tail from its opening quote uncovered. The value of each token is exactly the text of its range, except that a comment drops its leading // and a quoted string has each \\\" replaced by \".", "quantifier": "every byte string", "why_tests_cant": "A statement about every byte of every source; a test compares a few token lists.", "anchors": ["lexer.go: Lexer.Scan, Curr, Token.String, Token.Begin, Token.End"]}
{"id": "C03", "title": "Token positions are line relative offsets", "statement": "The line of a token is the number of end-of-line tokens before it, and its begin and end are byte offsets from the byte after the previous end-of-line token, so (line, begin) is strictly increasing along the token list.", "quantifier": "every byte string and every token produced for it", "why_tests_cant": "Depends on the whole prefix of the source before the token.", "anchors": ["lexer.go: Token.Line, Token.Begin, Token.End, emit"]}
{"id": "C04", "title": "Lexical errors are exactly the unterminated strings", "statement": "The lexer reports an error if and only if the source ends inside a quoted string; it then reports exactly one error and every token before the opening quote is still returned.", "quantifier": "every byte string", "why_tests_cant": "An if-and-only-if over all sources.", "anchors": ["lexer.go: Lexer.Errors, readValue, readComment"]}
{"id": "C05", "title": "Lexer cursor laws", "statement": "For any interleaving of Scan, Return and Curr calls the lexer behaves as a cursor over one fixed token list that depends only on the source: Scan moves right and says whether a token is there, Return moves left unless at the start, Curr shows the token under the cursor.", "quantifier": "every source and every finite sequence of Scan/Return/Curr calls", "why_tests_cant": "The number of call histories is infinite.", "anchors": ["lexer.go: Lexer.Scan, Lexer.Return, Lexer.Curr"]}
{"id": "C06", "title": "Lexing does not depend on text encoding", "statement": "Token boundaries are decided byte by byte: no delimiter is ever recognised inside a multi-byte or malformed UTF-8 sequence and no delimiter byte is ever swallowed by one.", "quantifier": "every byte string, including malformed UTF-8", "why_tests_cant": "The space of malformed encodings cannot be enumerated.", "anchors": ["lexer.go: readValue, readComment, readEol (utf8.DecodeRune)"]}
{"id": "C07", "title": "Process never panics", "statement": "Process returns a result for every source text.", "quantifier": "every source text", "why_tests_cant": "A crash on one odd line in one file is invisible to examples; this is a universally quantified absence claim.", "anchors": ["process.go: Process, ProcessContext", "parser.go: arguments"]}
{"id": "C08", "title": "One listing entry per source line", "statement": "The listing returned by Process has exactly one entry per source line, so that listing index i is the instruction of line i (the linter, the debugger and the language server all use a listing index as a line number).", "quantifier": "every source text", "why_tests_cant": "Every combination of malformed lines matters.", "anchors": ["process.go: Process, ProcessResult.Listing, ProcessResult.Lines"]}
{"id": "C09", "title": "Diagnostics point into the document", "statement": "Every diagnostic returned by Process names a line that exists in the document and a range with begin <= end on that line.", "quantifier": "every source text and every diagnostic returned for it", "why_tests_cant": "Quantifies over all diagnostics of all sources.", "anchors": ["process.go: Process", "parser.go: parseError, lintError", "lexer.go: lexerError"]}
{"id": "C10", "title": "Lines are analysed independently", "statement": "The instruction produced for a line depends only on the tokens of that line and on the version and mode declared on earlier lines: changing a line that is neither a pragma nor a mode comment never changes the instructions of other lines.", "quantifier": "every pair of sources that differ in one such line", "why_tests_cant": "A relational property between two arbitrary documents.", "anchors": ["process.go: Process"]}
{"id": "C11", "title": "Version gating", "statement": "An instruction gets a mode/version error exactly when it is not available in the current mode, or when the version in which it was introduced for this mode is greater than the program version declared above it.", "quantifier": "every instruction line, mode and declared version", "why_tests_cant": "All opcodes times all versions times all positions of the pragma.", "anchors": ["process.go: Process, Ops, opItem.AppVersion, opItem.SigVersion", "linter.go: LINT0007, LINT0008"]}
{"id": "C12", "title": "Symbols and references are complete", "statement": "Symbols lists exactly the labels of the document in order; SymbolRefs lists exactly the label operands in order; MissRefs is exactly the references whose name no symbol carries; RefCounts counts the label operands of the listing by name.", "quantifier": "every source text", "why_tests_cant": "Exactness over all programs.", "anchors": ["process.go: ProcessResult.Symbols, SymbolRefs, MissRefs, RefCounts", "symbols.go"]}
{"id": "C13", "title": "Listing text round trip", "statement": "Printing an instruction returned by Process and processing that text again gives the same instruction.", "quantifier": "every instruction that Process can return", "why_tests_cant": "There are infinitely many instructions (immediates); a single misspelt opcode breaks it.", "anchors": ["expr.go: String methods", "process.go: opParse functions", "compiler.go: Listing.String"]}
{"id": "C14", "title": "Duplicate label rule is exact", "statement": "The linter reports a duplicate-label error on a line if and only if that line defines a label whose name is also defined on another line.", "quantifier": "every listing", "why_tests_cant": "If-and-only-if over all programs.", "anchors": ["linter.go: Linter.checkDuplicatedLabels, LINT0001"]}
{"id": "C15", "title": "Unused label rule is exact", "statement": "The linter reports an unused label on a line if and only if that line defines a label that no instruction names; the same lines, and no others, are offered for removal as redundant labels.", "quantifier": "every listing", "why_tests_cant": "If-and-only-if over all programs.", "anchors": ["linter.go: Linter.getUnusedLabels, LINT0002"]}
{"id": "C16", "title": "Unreachable code rule is sound", "statement": "A line reported as unreachable is never executed: no execution that starts at the first line and moves only by falling through, branching to a named label, calling or returning ever reaches it.", "quantifier": "every listing and every execution path of any length", "why_tests_cant": "Ranges over all execution paths of all programs.", "anchors": ["linter.go: LINT0003, UnreachableCodeError", "vm.go"]}
{"id": "C17", "title": "Unreachable code rule is exact", "statement": "A line is reported as unreachable if and only if it is an instruction that follows an unconditional b, return or err with no used label in between.", "quantifier": "every listing", "why_tests_cant": "If-and-only-if over all programs.", "anchors": ["linter.go: LINT0003"]}
{"id": "C18", "title": "Redundant branch rule is safe", "statement": "In a program without duplicate labels, every b reported as just before its own target label can be deleted without changing where any execution of the program goes.", "quantifier": "every listing, every reported line and every execution", "why_tests_cant": "Needs an argument about all executions of the program before and after the edit.", "anchors": ["linter.go: LINT0004, BJustBeforeLabelError, RedundantBLine"]}
{"id": "C19", "title": "Missing label rule is exact", "statement": "The linter reports a missing label for an instruction if and only if the instruction names a label the listing does not define.", "quantifier": "every listing", "why_tests_cant": "If-and-only-if over all programs.", "anchors": ["linter.go: MissingLabelError, LINT0005"]}
{"id": "C20", "title": "Infinite loop rule is sound", "statement": "If the linter reports an infinite loop at a b instruction, then an execution that is inside the reported region can never leave it other than by failing or by calling a subroutine outside.", "quantifier": "every listing, every reported loop, every execution length", "why_tests_cant": "A statement about unbounded executions.", "anchors": ["linter.go: Linter.canEscape, InfiniteLoopError"]}
{"id": "C21", "title": "Pragma placement rule is exact", "statement": "The linter reports a pragma if and only if an instruction (or another pragma) precedes it.", "quantifier": "every listing", "why_tests_cant": "If-and-only-if over all programs.", "anchors": ["linter.go: PragmaVersionAfterInstrError, LINT0006"]}
{"id": "C22", "title": "Optimizer preserves control flow", "statement": "Optimize returns a program with the same executions: the sequence of non-label instructions executed from the start, for every outcome of the conditional branches, is the same up to removed unconditional jumps.", "quantifier": "every listing and every execution", "why_tests_cant": "Semantic equivalence of two programs over all executions.", "anchors": ["compiler.go: Listing.Optimize, removeUnused, removeOpsAfterUnconditionalBranch, removeBJustBeforeItsTargetLabel, mergeLabels"]}
{"id": "C23", "title": "Optimizer only deletes", "statement": "Optimize never adds, edits or reorders instructions: its output is a subsequence of its input, and a label that is still named by a remaining instruction is never deleted.", "quantifier": "every listing", "why_tests_cant": "All programs.", "anchors": ["compiler.go: Listing.Optimize"]}
{"id": "C24", "title": "Optimized programs are clean", "statement": "After Optimize the linter finds no unused label, no unreachable instruction and no branch just before its own label; Optimize is idempotent.", "quantifier": "every listing", "why_tests_cant": "Fixpoint property over all programs.", "anchors": ["compiler.go: Listing.Optimize", "linter.go"]}
{"id": "C25", "title": "Compile flattens programs", "statement": "Compiling a nested program yields exactly the left-to-right flattening of its instructions and panics only on a value that is not an instruction, list or complex expression.", "quantifier": "every expression tree", "why_tests_cant": "Structural recursion over unbounded trees.", "anchors": ["compiler.go: Compile, Program.Compile, compiler.compile"]}
{"id": "C26", "title": "Semantic token encoding is lossless", "statement": "Decoding the relative encoding returned by Encode gives back exactly the given tokens, sorted by position; nothing is lost or duplicated.", "quantifier": "every list of tokens whose positions fit 32 bits", "why_tests_cant": "Round trip over all lists.", "anchors": ["semantics.go: SemanticTokens.Encode"]}
{"id": "C27", "title": "Overlap test", "statement": "Overlaps is symmetric and, for ranges on a single line, true exactly when the two closed ranges share a position.", "quantifier": "every pair of ranges", "why_tests_cant": "All integers.", "anchors": ["range.go: Overlaps"]}
{"id": "C28", "title": "Debugger runs terminate", "statement": "Run returns after finitely many steps for every program, also for programs with endless loops, because each step consumes opcode budget that is never refilled.", "quantifier": "every program and every VM state reachable by any sequence of debugger commands", "why_tests_cant": "Termination for all programs.", "anchors": ["vm.go: Vm.Run, Vm.Step, VmBranch.Budget", "expr.go: Cost methods"]}
{"id": "C29", "title": "Budget accounting", "statement": "On every branch the remaining budget is never negative and equals 700 minus the cost of the instructions in its trace.", "quantifier": "every program and every reachable VM state", "why_tests_cant": "An invariant over all histories.", "anchors": ["vm.go: VmBranch.Budget, VmBranch.Trace, Vm.Step"]}
{"id": "C30", "title": "Branch identifiers are unique", "statement": "No two branches of a VM ever have the same id, ids are never reused, and branches are never removed.", "quantifier": "every program and history of Step/Run/Switch/SetBreakpoints", "why_tests_cant": "An invariant over all histories.", "anchors": ["vm.go: Vm.Branches, VmBranch.fork, VmBranch.Id"]}
{"id": "C31", "title": "Branches do not interfere", "statement": "Stepping one branch leaves the stack, budget, trace, line and call frames of every other branch unchanged (a branch that had already run past the last line may be marked as exited).", "quantifier": "every reachable VM state and every step", "why_tests_cant": "All states.", "anchors": ["vm.go: Vm.Step, VmBranch.fork, VmStack"]}
{"id": "C32", "title": "Execution finishes exactly when every branch has exited", "statement": "The VM reports no current branch if and only if every branch has left the program.", "quantifier": "every reachable VM state after a step", "why_tests_cant": "An invariant over all histories.", "anchors": ["vm.go: Vm.skipNops, Vm.Branch"]}
{"id": "C33", "title": "Breakpoints bind only to executable lines", "statement": "SetBreakpoints verifies exactly the requested lines that exist and hold an executable instruction, and after a step a branch that advanced or was created in that step is reported as having hit a breakpoint exactly when its current line carries one.", "quantifier": "every program and every list of requested lines", "why_tests_cant": "All programs and line lists.", "anchors": ["vm.go: Vm.SetBreakpoints, Vm.updateBreakpoints, Vm.Triggered"]}
{"id": "C34", "title": "Breakpoints do not change the execution", "statement": "Continuing repeatedly until the end with any set of breakpoints reaches the same final state as running without breakpoints.", "quantifier": "every program and breakpoint set", "why_tests_cant": "Compares unbounded executions.", "anchors": ["vm.go: Vm.Run, Vm.Step, Vm.SetBreakpoints"]}
{"id": "C35", "title": "Instruction failures are contained", "statement": "A failing instruction (stack underflow, wrong type, missing frame) never crashes Step or Run; it is reported in Error and the run stops.", "quantifier": "every program and every reachable VM state", "why_tests_cant": "All states.", "anchors": ["vm.go: Vm.Step, Vm.Run, Vm.Error"]}
{"id": "C36", "title": "Branch instructions go to the right place", "statement": "b, bz, bnz, callsub, retsub, switch and match explore exactly their possible successors: the line of the named label and/or the following line (retsub: the line after the matching callsub).", "quantifier": "every program and every state in which such an instruction is about to execute", "why_tests_cant": "All programs and states.", "anchors": ["expr.go: Execute of B, Bz, Bnz, CallSub, RetSub, Switch, Match", "vm.go: find, fork"]}
{"id": "C37", "title": "Stack manipulation follows the language specification", "statement": "pop, popn, dup, dup2, dupn, swap, select, dig, bury, cover and uncover change the stack as the TEAL language specification says for every stack content.", "quantifier": "every stack and every immediate value", "why_tests_cant": "Unbounded stacks times 256 immediates.", "anchors": ["expr.go: Execute of the stack opcodes", "langspec.json: Doc"]}
{"id": "C38", "title": "Stack effect sizes follow the language specification", "statement": "Every executed instruction that is not a branch pops and pushes as many values as the language specification says.", "quantifier": "every opcode and every stack that is deep enough", "why_tests_cant": "All opcodes times all stacks.", "anchors": ["expr.go: Execute methods", "langspec.json: Args, Returns"]}
{"id": "C39", "title": "Answers reflect the latest text", "statement": "Whatever the history of open/change/save/close notifications, an answer about a document is computed from the text last sent for that document; a document that is closed or was never opened is not answered.", "quantifier": "every history of messages over any number of documents", "why_tests_cant": "The cache is only observable over histories.", "anchors": ["lsp/lsp.go: lspDoc.Update, lspDoc.Results, lsp.handle"]}
{"id": "C40", "title": "Server life cycle", "statement": "The server stops on exit with code 0 if shutdown was requested before and 1 otherwise; after shutdown no request is executed.", "quantifier": "every message history", "why_tests_cant": "All histories.", "anchors": ["lsp/lsp.go: lsp.handle, lsp.Run"]}
{"id": "C41", "title": "Every request gets exactly one response", "statement": "Each request message is answered by exactly one response that carries its id; notifications are never answered.", "quantifier": "every message and every server state", "why_tests_cant": "All messages in all states.", "anchors": ["lsp/lsp.go: lsp.handle, reply, success, fail"]}
{"id": "C42", "title": "Server request ids are unique", "statement": "Requests initiated by the server never reuse an id within a session.", "quantifier": "every message history", "why_tests_cant": "All histories.", "anchors": ["lsp/lsp.go: lsp.request"]}
{"id": "C43", "title": "Rename edits exactly the occurrences", "statement": "A rename on a label (or on a reference to it) returns one edit per definition and per reference of that name and no other, the edits do not overlap, and each covers exactly the text of the name; applying them yields the same document with the name replaced.", "quantifier": "every document, position and new name", "why_tests_cant": "All documents and cursor positions.", "anchors": ["lsp/lsp.go: textDocument/rename, textDocument/prepareRename", "process.go: SymbolsWithin, SymbolRefsWithin, SymByName, SymRefByName"]}
{"id": "C44", "title": "Go to definition", "statement": "The locations returned for a position are exactly the labels whose name is that of a reference under the position.", "quantifier": "every document and position", "why_tests_cant": "All documents and positions.", "anchors": ["lsp/lsp.go: textDocument/definition", "process.go: SymbolsForRefWithin"]}
{"id": "C45", "title": "Line splitting", "statement": "splitLines cuts a text at every \\n, \\r\\n and lone \\r and nowhere else: no line contains a terminator, there is one more line than terminators, and joining the lines with the terminators gives the text back.", "quantifier": "every text", "why_tests_cant": "All texts, in particular all mixtures of terminators.", "anchors": ["lsp/doc.go: splitLines"]}
{"id": "C46", "title": "Named value hints preserve meaning", "statement": "Replacing a number by the name offered in an inlay hint / quick fix yields a program with the same instruction.", "quantifier": "every document and every hint", "why_tests_cant": "All documents.", "anchors": ["process.go: InlayHints, InlayHintNamed", "lsp/lsp.go: teal.value.replace"]}
{"id": "C47", "title": "Decoded literal hints preserve meaning", "statement": "Replacing an encoded byte constant by the literal offered in the quick fix yields a program with the same bytes.", "quantifier": "every document and every hint", "why_tests_cant": "All byte strings.", "anchors": ["process.go: InlayHints, InlayHintDecoded", "lsp/lsp.go: teal.value.replace"]}
{"id": "C48", "title": "Position queries never fail", "statement": "Hover, completion, signature help and highlight queries return an answer for every document and every position.", "quantifier": "every document and every position (also outside the text)", "why_tests_cant": "All documents and positions.", "anchors": ["process.go: ArgAt, ArgValsAt, DocAt, SymOrRefAt, ImmAt"]}
{"id": "C49", "title": "Debug adapter numbering", "statement": "All messages the debug adapter sends in a session are numbered 1, 2, 3, ... and every response carries the sequence number of the request it answers.", "quantifier": "every message history", "why_tests_cant": "All histories.", "anchors": ["dbg/dbg.go: dbg.reply, dbg.notify"]}
{"id": "C50", "title": "Variable references are unambiguous", "statement": "A variables request with a reference taken from a scopes reply shows the data of exactly that scope of exactly that branch.", "quantifier": "every reachable debugger state and branch", "why_tests_cant": "All branch ids.", "anchors": ["dbg/dbg.go: variables, scopes"]}
{"id": "C51", "title": "Debug adapter survives any request", "statement": "No sequence of requests makes the debug adapter crash.", "quantifier": "every message history", "why_tests_cant": "All histories, in particular requests before launch.", "anchors": ["dbg/dbg.go: dbg.handle"]}
{"id": "C52", "title": "Breakpoint replies match the debugger", "statement": "The setBreakpoints reply has one entry per requested breakpoint, in order, with the requested line, marked verified exactly when the debugger can stop there.", "quantifier": "every program and request", "why_tests_cant": "All programs and requests.", "anchors": ["dbg/dbg.go: setBreakpoints", "vm.go: SetBreakpoints"]}
{"id": "C53", "title": "Stack traces show the call chain", "statement": "The stack trace of a branch has one frame per active subroutine call plus one, innermost first, and reports that number as the total.", "quantifier": "every reachable debugger state", "why_tests_cant": "All call depths.", "anchors": ["dbg/dbg.go: stackTrace", "vm.go: VmFrame"]}
{"id": "C54", "title": "String literal decoding", "statement": "A quoted literal is accepted exactly when it is well formed (escapes \\n \\r \\t \\\\ \\\" and \\xHH only), the decoded bytes are the standard meaning of the escapes, and encoding any byte string with escapes and decoding it gives the bytes back.", "quantifier": "every byte string", "why_tests_cant": "All byte strings.", "anchors": ["go_algorand.go: parseStringLiteral"]}
{"id": "C55", "title": "Integer immediates are range checked", "statement": "An 8-bit immediate is accepted exactly when it is a decimal numeral between 0 and 255 (-128 and 127 if signed) and its value is kept; a program version accepted by #pragma version is stored without truncation.", "quantifier": "every token text", "why_tests_cant": "All numerals.", "anchors": ["parser.go: readUint8, readInt8, readInt", "process.go: opPragma"]}
{"id": "C56", "title": "Named fields decode to their index", "statement": "For every field group a documented field name is accepted exactly from the version in which it was introduced and yields its own index; the printed name of the field parses back to the same field.", "quantifier": "every field of every group, every version", "why_tests_cant": "Finite but never enumerated by the tests: every field times every version.", "anchors": ["parser.go: readTxnField and the other field readers", "go_algorand.go: field spec tables, String methods"]}
{"id": "C57", "title": "Scanner reports are well located", "statement": "Every result of the SARIF scanner refers to the artifact of the file it was found in and to a 1-based line and column.", "quantifier": "every set of files", "why_tests_cant": "All sets of files.", "anchors": ["cmd/tealsarif/main.go: run, ToSarifLevel"]}
{"id": "C58", "title": "Scratch space belongs to the execution path", "statement": "What one explored path stores in the scratch space is not visible to another path: a load returns the value stored last on the path of its own branch.", "quantifier": "every program and every reachable VM state", "why_tests_cant": "Needs two interleaved paths with a store between them.", "anchors": ["vm.go: Vm.Scratch, VmBranch.store, VmBranch.fork", "langspec.json: store, load"]}
{"id": "C59", "title": "Subroutine calling convention", "statement": "When a subroutine prepared with proto A R returns, its A arguments and everything above them are replaced by its R results, as the language specification says for retsub.", "quantifier": "every program and every reachable VM state", "why_tests_cant": "All stacks and frame shapes.", "anchors": ["expr.go: Execute of RetSub, Proto, CallSub", "vm.go: VmBranch.prepare", "langspec.json: retsub"]}
{"id": "C60", "title": "Stack effect types follow the language specification", "statement": "An instruction whose operands have the types the language specification asks for (or unknown types) never fails, and its results have the types the specification promises.", "quantifier": "every opcode that is not a branch and every stack", "why_tests_cant": "All opcodes times all stacks.", "anchors": ["expr.go: Execute methods", "go_algorand.go: field specs", "langspec.json: Args, Returns"]}
{"id": "C61", "title": "Token positions agree with the lines of the document", "statement": "A token is found in the document at the line and between the columns it reports, where lines end at \\n, \\r\\n or a lone \\r as in an editor; the number of lines is one more than the number of end-of-line tokens.", "quantifier": "every source text and every token of it", "why_tests_cant": "Diagnostics, edits and breakpoints are sent to editors with these positions; all texts, including strings that contain line ends.", "anchors": ["lexer.go: Lexer.Scan, readTokens", "lsp/doc.go: splitLines"]}
{"id": "C62", "title": "Every debug request is answered", "statement": "Every request sent to the debug adapter is answered exactly once, in the order of the requests.", "quantifier": "every message history", "why_tests_cant": "All histories, including unknown commands and unreadable programs.", "anchors": ["dbg/dbg.go: dbg.handle, dbg.reply"]}
{"id": "C63", "title": "Stop events tell the truth", "statement": "After launch, pause, continue and next on a program the debug adapter sends exactly one stopped event, and what the event says holds: the named thread is the current one, or stands on the breakpoint lines that are named, or no branch can go on, or the last instruction failed; no other request is followed by a stopped event.", "quantifier": "every message history, program and breakpoint set", "why_tests_cant": "All interleavings of stepping, continuing and breakpoints.", "anchors": ["dbg/dbg.go: launch, pause, continue, next", "vm.go: Run, Step, Triggered"]}
{"id": "C64", "title": "The thread list is complete", "statement": "The threads reply lists every explored branch exactly once under its identity.", "quantifier": "every reachable debugger state", "why_tests_cant": "All branch sets.", "anchors": ["dbg/dbg.go: threads", "vm.go: fork"]}
{"id": "C65", "title": "Highlights are the occurrences of a label", "statement": "The ranges highlighted for a position are exactly the definitions of the label named there and the operands that refer to it; where no label is named, nothing is highlighted.", "quantifier": "every document and every position", "why_tests_cant": "All documents and positions.", "anchors": ["lsp/lsp.go: textDocument/documentHighlight", "process.go: SymOrRefAt, SymbolsWithin, RefsWithin"]}
{"id": "C66", "title": "Code lenses count references", "statement": "A code lens is shown at every label definition that is referred to, and shows the number of operands that name the label.", "quantifier": "every document", "why_tests_cant": "All documents; the counts come from instructions, the ranges from tokens.", "anchors": ["lsp/lsp.go: textDocument/codeLens", "process.go: RefCounts"]}
{"id": "C67", "title": "Operand completion offers what the parser accepts", "statement": "On an operand of an opcode, completion offers exactly the named values that the parser accepts there, with the value it reads, and for labels the defined labels.", "quantifier": "every document and every position on an operand or behind the last one", "why_tests_cant": "All fields times all versions times all positions.", "anchors": ["lsp/lsp.go: textDocument/completion", "process.go: ArgAt, ArgVals, ArgValsAt", "parser.go: readXxxField"]}
{"id": "C68", "title": "Signature help shows the parameter being typed", "statement": "Signature help on a line with an opcode names the opcode and the parameter that the operand at the cursor fills; elsewhere it shows nothing.", "quantifier": "every document and every position", "why_tests_cant": "All opcodes (with repeated last parameters) times all positions.", "anchors": ["lsp/lsp.go: textDocument/signatureHelp", "process.go: ArgAt, ImmAt"]}
{"id": "C69", "title": "Hover documents what is under the cursor", "statement": "Hovering shows the documentation of an opcode exactly on an opcode, the documentation of a field exactly on an operand that denotes the field by name or number where such a field belongs, and nothing elsewhere.", "quantifier": "every document and every position", "why_tests_cant": "All fields, numbers and positions.", "anchors": ["lsp/lsp.go: textDocument/hover", "process.go: DocAt"]}
{"id": "C70", "title": "Opcode completion offers the available opcodes", "statement": "At the start of a line completion offers exactly the opcodes that begin with the text typed and are available in the mode and version of the program.", "quantifier": "every document and every position on the first token of a line", "why_tests_cant": "All opcodes times versions and modes.", "anchors": ["lsp/lsp.go: textDocument/completion", "process.go: Ops.Items"]}
{"id": "C71", "title": "Removing a redundant line is safe", "statement": "The quick fix for a redundant line deletes exactly that line of the document, and the remaining program does the same as before.", "quantifier": "every document, every redundant line that is reported", "why_tests_cant": "All documents; the edit is in editor lines, the report in listing lines, and the next check reads the edited text.", "anchors": ["lsp/lsp.go: teal.line.remove, textDocument/codeAction", "linter.go: redundant lines"]}
{"id": "C72", "title": "Creating a missing label resolves it", "statement": "The quick fix for a missing label defines it: the edited document has the old program followed by the label, and the label is not missing any more, while no other reference changes.", "quantifier": "every document, every missing label that is reported", "why_tests_cant": "All documents, with any line ends and trailing blanks.", "anchors": ["lsp/lsp.go: teal.label.create, textDocument/codeAction"]}
{"id": "C73", "title": "Changing the version takes effect", "statement": "The quick fix for a version sets the version of the program, and after it exactly the opcodes are reported that need a newer version than the one set.", "quantifier": "every document, every version", "why_tests_cant": "All documents, with or without a version pragma.", "anchors": ["lsp/lsp.go: teal.version.update", "process.go: pragma"]}
{"id": "C74", "title": "Formatting replaces the document", "statement": "Applying the edit that answers a formatting request yields the formatted text and nothing else.", "quantifier": "every document and every formatter", "why_tests_cant": "All documents, with any line ends and any last line.", "anchors": ["lsp/lsp.go: textDocument/formatting"]}
{"id": "C75", "title": "Inlay hints show what operands mean", "statement": "The inlay hints of a range are, behind every operand in the range that selects a field by number, the name of the field, and behind every hexadecimal operand of readable bytes, the text, as far as each kind is switched on; and no others.", "quantifier": "every document, every range, all settings", "why_tests_cant": "All documents times all ranges and settings.", "anchors": ["lsp/lsp.go: textDocument/inlayHint", "process.go: InlayHints", "lsp.go: Overlaps"]}
{"id": "C76", "title": "Quick fixes are offered where they apply", "statement": "The code actions offered in a range are exactly the fixes for what is wrong or improvable there: redundant lines, missing labels, fields by number, readable hexadecimal text, and opcodes that need a newer version.", "quantifier": "every document, every range", "why_tests_cant": "All documents times all ranges.", "anchors": ["lsp/lsp.go: textDocument/codeAction", "lsp.go: Overlaps"]}
{"id": "C77", "title": "Highlighting shows every token in its role", "statement": "The semantic tokens of a document are exactly its macros, opcodes, numbers, texts, encodings, comments, label definitions and label references, each once, at its place and as its kind, none over another; on an opcode line that is read without error no token is left out, and the encoded answer decodes to them in document order.", "quantifier": "every document", "why_tests_cant": "All documents, with tokens of all kinds.", "anchors": ["lsp/lsp.go: textDocument/semanticTokens/full", "process.go: numbers, strings, keywords, macros, references", "semantics.go: Encode"]}
{"id": "C78", "title": "The signature of an opcode shows what it takes", "statement": "The signatures shown for an opcode are its name and the arguments it reads, in order, with their types, with dots behind those that stand for any number of values, and with those that may be left out together in one pair of brackets; a completion inserts the name and one numbered field for each argument.", "quantifier": "every opcode of the table, every sequence of arguments it reads", "why_tests_cant": "All opcodes; what an opcode reads is a tree over all values of the arguments.", "anchors": ["process.go: Ops (ArgsSig, FullSig)", "lsp/lsp.go: textDocument/completion, textDocument/signatureHelp"]}
{"id": "C79", "title": "Messages are told apart by their lengths", "statement": "Whatever arrives is taken as the sequence of the messages in it, each content part exactly as long as its header tells, with junk between messages and a message cut off at the end passed over; everything the language server and the debug adapter send is such a sequence of messages, and no header makes them crash.", "quantifier": "every byte stream, every session", "why_tests_cant": "All byte strings with any number of messages, header fields and bytes in between.", "anchors": ["lsp/lsp.go: Run, write", "dbg/dbg.go: Run, write"]}
{"id": "C80", "title": "Immediate notes are read exactly", "statement": "The reader of the immediate notes of the language specification accepts exactly the texts of their grammar and gives their structure; it shows one argument for every immediate, without the counts and lengths in front of arrays and bytes, and it accepts every note of the built-in specification.", "quantifier": "every text", "why_tests_cant": "All byte strings; notes have any number of fields and arrays, with parts in parentheses nested.", "anchors": ["langspec.go: parseImmArgs", "langspec.go: immLexer.tokenize", "langspec.json"]}
{"id": "C81", "title": "The opcode table follows the language specification", "statement": "Every opcode of the built-in language specification is known, is written with exactly the immediates of its note, each read in the encoding the note gives, and takes by name exactly the fields that are listed for it, with the listed types.", "quantifier": "every opcode of the specification, every sequence of operands, every field name", "why_tests_cant": "All opcodes times all operand texts.", "anchors": ["langspec.json", "process.go: Ops", "go_algorand.go: field specs"]}
{"id": "C82", "title": "The debugger shows every state of every real execution", "statement": "In a debugger session without errors that goes on until nothing is left to execute, every state that any real execution of the program passes, whatever the transaction, the ledger and the results of the operations, is shown by some branch at some time: at its line, with the right types and sources of all values on the stack and with its pending calls; only a branch whose budget does not suffice is given up.", "quantifier": "every program, every real execution, every session", "why_tests_cant": "All programs, with loops, subroutines and branches, times all inputs and all orders of stepping branches.", "anchors": ["vm.go: Step, Branch", "expr.go: Execute"]}
{"id": "C83", "title": "The debugger charges the published costs", "statement": "Every step takes exactly the published cost of the executed opcode from the budget of its branch: constant, by program version, by the named curve, or by the length of the operand the reference names where the debugger knows its bytes; a branch that cannot pay leaves the program.", "quantifier": "every opcode of the specification with any operands, every program, every reachable state", "why_tests_cant": "All opcodes times operands, versions and stacks.", "anchors": ["expr.go: Cost methods", "vm.go: Step, Lengths", "go_algorand.go: ecdsaVerifyCosts, ecdsaDecompressCosts"]}
{"id": "C84", "title": "Optimized programs give the same results", "statement": "A program that can be assembled and its optimized version have the same real executions, whatever the transaction, the ledger and the results of the operations, apart from the unconditional branches in them: the same instructions with the same stacks before and after them, and they are approved or not in the same cases; the optimized version can be assembled too.", "quantifier": "every program with unique and defined labels, every world", "why_tests_cant": "All programs, with loops and subroutines, times all inputs and ledger states, which may change during the execution.", "anchors": ["compiler.go: Optimize", "compiler.go: removeOpsAfterUnconditionalBranch", "compiler.go: removeBJustBeforeItsTargetLabel", "compiler.go: removeUnused"]}
{"id": "C85", "title": "Every malformed line is reported once, at the token at fault", "statement": "A line that is a statement (blank, comment, label, version pragma, or an opcode with exactly its operands) gets no parse error; any other line gets exactly one, on the token at fault: the label without a name, the unknown opcode, the first operand that is wrong, the first operand too many, or the last token where an operand is missing. Without parse errors every line has its own listing entry.", "quantifier": "every text, every line of it", "why_tests_cant": "All texts: lines are sequences of arbitrary tokens, and operand lists have any length.", "anchors": ["process.go: Process", "process.go: mustReadArg, failCurr, failPrev", "process.go: opPragma", "parser.go"]}
{"id": "C86", "title": "Stack frames are named after the label above their line", "statement": "Every frame of the answer to a stack trace request carries the name of the nearest label above the line it shows, or (main) if there is none above it; each caller is shown on the line of its callsub.", "quantifier": "every program, every debugger session, every branch that is still in the program", "why_tests_cant": "All programs with nested and recursive calls, jumps and forks, times all sessions.", "anchors": ["vm.go: skipNops, fork, jump, call, exit", "expr.go: RetSubExpr.Execute", "dbg/dbg.go: stackTrace request"]}
{"id": "C87", "title": "Integer constants mean what they say", "statement": "The operand of int is a number of at most 64 bits (decimal, or with 0x, 0o, 0 or 0b hexadecimal, octal or binary, single underscores between the digits) or a named transaction type or completion, and exactly the value it denotes is loaded; any other operand is reported. intcblock and pushints take numbers only.", "quantifier": "every text, every operand", "why_tests_cant": "All texts: numerals of any length in four bases with separators.", "anchors": ["parser.go: readInt, readConstInt", "process.go: parseConstUint64, parseUint64", "go_algorand.go: txnTypeMap, onCompletionMap"]}
{"id": "C88", "title": "Byte constants mean what they say", "statement": "The operand of byte is a hexadecimal text, a base64 or base32 text behind its keyword or in parentheses, or a quoted literal, and exactly the bytes it denotes are loaded: read as numbers the digits and the bytes agree, apart from fewer bits than a digit has. Anything else is reported.", "quantifier": "every text, every operand", "why_tests_cant": "All texts: encoded texts of any length and padding.", "anchors": ["process.go: parseBytes", "go_algorand.go: base32DecodeAnyPadding", "parser.go: parseStringLiteral"]}
{"id": "C89", "title": "Diagnostics are exact", "statement": "The diagnostics of a document are exactly: the unterminated literal it ends with, the mistake of each malformed line, the instructions its mode or version does not allow, and the findings about the program its lines make, each at its place. A document without diagnostics is a complete text of allowed statements whose labels are all defined once and used, with no instruction right behind an unconditional one, no needless jump, no loop without a way out and no late pragma.", "quantifier": "every text, every document, every diagnostic", "why_tests_cant": "All texts and all combinations of mistakes on them; nothing is bounded.", "anchors": ["process.go: Process", "compiler.go: Listing.Lint", "lexer.go: Lexer"]}
{"id": "C90", "title": "A label is documented by the comments above it and the proto below it", "statement": "The documentation of a label is the text of the comment lines right above it, and its signature is that of the proto its subroutine begins with.", "quantifier": "every text, every label of the document", "why_tests_cant": "All documents: comments and labels may be anywhere, and labels may be defined again.", "anchors": ["process.go: Process", "process.go: parserContext.emit"]}
{"id": "C91", "title": "The language server survives every session", "statement": "No sequence of messages ends the language server other than an exit: whatever the messages lack and wherever in a document they point, and whatever the texts are, each one is handled.", "quantifier": "every sequence of messages, every text", "why_tests_cant": "All sessions of any length; texts of any size, parameters missing or out of range.", "anchors": ["lsp/lsp.go: lsp.handle", "lsp/lsp.go: lsp.Run", "process.go: Process"]}
{"id": "C92", "title": "The scanner scans the TEAL files of a directory", "statement": "Given a directory, the scanner scans exactly the files below it, at any depth, whose names end with .teal, each once and in the order of their paths; given a file, that file. Each is reported under a well formed uri of its own. If one cannot be read there is no report.", "quantifier": "every file tree, every argument", "why_tests_cant": "Trees of any depth and width with files that cannot be read, directories that cannot be listed and symbolic links; arbitrary bytes in names.", "anchors": ["cmd/tealsarif/main.go: run"]}
{"id": "C93", "title": "The debugger agrees with the linter", "statement": "A debugger session never stands on a line that cannot be reached by the rules of the language; in particular it never stands on a line reported as unreachable and never stops at a breakpoint there, and a branch in a reported infinite loop is never seen outside of that loop again.", "quantifier": "every program, every debugger session, every branch", "why_tests_cant": "Sessions mix steps, continues, breakpoints and switches between branches; programs mix subroutines, conditional branches, duplicate and missing labels.", "anchors": ["vm.go: Vm.Step", "vm.go: VmBranch.fork", "linter.go: OpsAfterUnconditionalBranchRule.Run", "linter.go: CheckLoopsRule.Run"]}
{"id": "C94", "title": "Building programs with the package", "statement": "What the functions and variables of the package build compiles to the instructions they are named after: a builder of one instruction gives the line with that opcode and its operands, a block its parts in order, a string keeps its bytes when the text is read again.", "quantifier": "every builder of expr.go with every argument, all 118 variables, every nesting of lists and blocks", "why_tests_cant": "Cover makes an uncover, ExtractUint64 prints extract_unt64, Compile panics on every block, StringBytes does not escape quotes and backslashes.", "anchors": ["expr.go: Cover", "expr.go: Block", "expr.go: StringBytes", "expr.go: FuncExpr.Call", "compiler.go: Compile", "compiler.go: compiler.compile"]}
{"id": "C95", "title": "Removing a label", "statement": "The command teal.label.remove deletes the definitions of the named label and nothing else: in the new document no line defines it, every other instruction, label and reference is as before.", "quantifier": "every session, document and label name", "why_tests_cant": "Text behind a label is not read; once the label is deleted it becomes code. Between a lone carriage return and a line feed the label keeps two line ends apart.", "anchors": ["lsp/lsp.go: teal.label.remove", "process.go: ProcessResult.SymByName", "symbols.go: labelSymbol"]}
{"id": "C96", "title": "Where the values of the debugger come from", "statement": "Every value on a stack or in the scratch space was made by instructions of the program that some branch has executed: a shown constant is the constant of an executed line, a shown hash is the hash of such a value. Instructions that cost more than a branch starts with are never executed.", "quantifier": "every listing and every state a debugging session can reach", "why_tests_cant": "The debugger shows values instead of evaluating them; a value without an origin in the program would be an invention of the debugger.", "anchors": ["vm.go: VmValue", "vm.go: Vm.Step", "expr.go: Execute"]}
{"id": "C97", "title": "The text of a value tells the value", "statement": "Two values that a debugging session can hold and that are shown with the same text are the same value.", "quantifier": "all documents, all states debugging sessions with them can reach, all values on stacks and in the scratch space", "why_tests_cant": "The client sees values only as texts; signatures are written into the text without escaping.", "anchors": ["vm.go: VmValue.String", "vm.go: vmOpSource.String", "vm.go: VmDataType.String", "process.go: mustReadSignature"]}
{"id": "C98", "title": "The client's switches are obeyed", "statement": "Semantic tokens, named hints, decoded hints and code lenses are on unless the client switches them off when it initializes the server; the last word counts, nothing else changes the switches. What is off is neither announced nor sent.", "quantifier": "all sessions with the language server", "why_tests_cant": "Editors let users switch these features off; a server that sends them anyway, or that forgets the setting, overrides the user.", "anchors": ["lsp/lsp.go: New", "lsp/lsp.go: handle (initialize)", "lsp/lsp.go: handle (textDocument/codeLens)", "lsp/lsp.go: handle (textDocument/inlayHint)", "lsp/lsp.go: tealConfig"]}
{"id": "C99", "title": "The messages are true and tell the problems apart", "statement": "The messages shown about a line of a document are exactly those that are true of it: each text comes with the claim it makes about the line (unused, missing or duplicate label and its name, unknown opcode and the word, version needed and version in force, ...), it is shown if and only if the claim holds, and two diagnostics of a line with the same text are the same diagnostic.", "quantifier": "all documents, all lines, all messages but those that quote an error of a conversion", "why_tests_cant": "The text is all a user reads of a diagnostic; a wrong label name or version in it sends them to the wrong place.", "anchors": ["linter.go: Error methods", "process.go: Process", "process.go: ProgramMode.String", "parser.go: parseError.String", "parser.go: lintError.String", "lexer.go: lexerError.String", "lsp/lsp.go: doDiagnostic"]}
{"id": "C100", "title": "Every problem is reported once", "statement": "No diagnostic occurs twice among the diagnostics of a document.", "quantifier": "all documents", "why_tests_cant": "Repeated diagnostics clutter the list of problems and inflate the counts editors and CI scripts show.", "anchors": ["process.go: Process", "linter.go: CheckLoopsRule.Run", "linter.go: Linter.Lint", "linter.go: getLabelsUsers"]}
{"id": "C101", "title": "Operands are named as in the documentation", "statement": "The operands of an opcode have distinct names; an operand named by a letter is the one the description of the opcode in langspec.json gives that letter, every letter of a description is that of a value on the stack or of an operand, and the other operands are called by what they are.", "quantifier": "all opcodes of the table and their descriptions in langspec.json", "why_tests_cant": "Signature help, hover and the messages about missing operands name the operands; next to a description that uses other letters they would mislead.", "anchors": ["process.go: opCover", "process.go: Ops", "langspec.json"]}
{"id": "C102", "title": "Branches take turns", "statement": "At any time it is the turn of exactly one branch: the current one if it is in the program, else the next one in the order of creation, going around; a step executes the one instruction of that branch and nothing on the others, and afterwards the same branch goes on, or the next one that has not left the program.", "quantifier": "all reachable states of the debugger", "why_tests_cant": "The user steps through one branch at a time; executing another branch than the one shown, or skipping one, would make the session unintelligible.", "anchors": ["vm.go: Vm.Step", "vm.go: Vm.skipNops", "vm.go: Vm.Switch"]}
{"id": "C103", "title": "A refusal is explained", "statement": "When an operand is refused the message tells the cause truthfully: a name that exists only in later versions is answered with the version it needs and the version in force, it stays refused below that version and is accepted from it on; where no version is told no later version helps; value out of range is said exactly of texts that begin with a numeral that is too large; and exactly the refused operands get such a message, one per line.", "quantifier": "all documents, lines, versions and operands", "why_tests_cant": "The message is what a user acts on: a wrong version or a wrong cause sends them after the wrong fix.", "anchors": ["parser.go: readTxnField", "parser.go: readGlobalField", "process.go: parserContext.parseBytes", "process.go: parserContext.parseUint8", "go_algorand.go: parseStringLiteral"]}
{"id": "C104", "title": "A complaint names the operand", "statement": "The message about a refused number or field names the kind of operand that was expected and the operand.", "quantifier": "all documents, lines, versions and operands", "why_tests_cant": "An unknown field of global is said to be no transaction field, which points at the wrong list of names.", "anchors": ["parser.go: readGlobalField", "parser.go: readBlockField", "process.go: parserContext.mustReadGlobalField", "process.go: parserContext.parseEcdsaCurveIndex"]}
{"id": "C105", "title": "A quick fix does what its title says", "statement": "The title shown with a quick fix tells what choosing it does: the label or branch named stands on the line that is removed, the label named is the one created, the name or text quoted is what the operand is replaced with, and the version told is the one set.", "quantifier": "all documents and ranges", "why_tests_cant": "The title is all a user sees before choosing a fix.", "anchors": ["linter.go: RedundantLabelLine.String", "linter.go: RedundantBLine.String", "lsp/lsp.go: textDocument/codeAction"]}
{"id": "C106", "title": "Titles tell quick fixes apart", "statement": "Two quick fixes offered together under the same title do the same thing.", "quantifier": "all documents and ranges", "why_tests_cant": "Two entries of a menu that read alike but act differently cannot be chosen between.", "anchors": ["linter.go: RedundantLabelLine.String", "linter.go: RedundantBLine.String", "lsp/lsp.go: textDocument/codeAction"]}
{"id": "C107", "title": "The outline lists the labels", "statement": "The document symbols are exactly the labels that the document defines, by name, each definition once and from top to bottom; the range shown covers the label and its colon in the text the editor shows.", "quantifier": "all sessions, documents and labels", "why_tests_cant": "The outline is how a user finds and jumps to the parts of a program.", "anchors": ["lsp/lsp.go: textDocument/documentSymbol", "process.go: Process"]}
{"id": "C108", "title": "The snippets insert working code", "statement": "Choosing the snippet soc or func among the completions and filling in names gives code that assembles: a document in which nothing else is wrong has no diagnostics afterwards and its program is the old one with the skeleton in it.  Run, the skeleton of soc takes every kind of application call to the code under the label for that kind and from there to the common end; a call of the subroutine of func replaces its arguments by its results and goes on behind the call.", "quantifier": "all documents, places, names and executions", "why_tests_cant": "A snippet that inserts code which is refused or branches to the wrong handler is worse than none: the handlers of an application decide who may delete it.", "anchors": ["lsp/lsp.go: textDocument/completion", "go_algorand.go: OnCompletionNames"]}
{"id": "C109", "title": "The mode a document declares", "statement": "A document is a logic signature exactly if one of its lines is a comment reading #pragma mode logicsig, with any white space around it, and an application otherwise; the opcodes of a logic signature are never reported as missing in applications.", "quantifier": "all documents", "why_tests_cant": "The mode decides which opcodes are available: a document read in the wrong mode is full of false errors or lacks the true ones.", "anchors": ["process.go: Process", "process.go: ProgramMode"]}
{"id": "C110", "title": "Instructions run only on operands of the right types", "statement": "When the debugger executes an instruction without an error, the stack held as many operands as langspec.json demands for it and each had the demanded type; with operands missing or of another type the step ends in an error.", "quantifier": "all programs, states and instructions", "why_tests_cant": "A debugger that computes on with operands the chain would refuse shows an execution that cannot happen.", "anchors": ["vm.go: VmBranch.pop", "expr.go: Execute methods", "langspec.json"]}
{"id": "C111", "title": "An opcode taken from the completions gives an accepted line", "statement": "When an opcode offered on a fresh line of a document without complaints is taken and its places are filled in with operands that fit, the document still has no complaints and its program has gained exactly that instruction; and what would be accepted is offered.", "quantifier": "all documents without complaints, places in them, beginnings of names, offered opcodes and operands", "why_tests_cant": "A list of suggestions is trusted: what it offers should be allowed at that place, and what is allowed should not be missing.", "anchors": ["lsp/lsp.go: textDocument/completion", "process.go: Ops, ProcessContext", "lsp/lsp.go: insert text of a completion"]}
{"id": "C112", "title": "What is said about a field is right and the same everywhere", "statement": "The completion of an operand and hovering over it give the same name, number and text; the text says that a field is for applications only exactly when it is; the texts of different fields differ; and what a text forbids is reported.", "quantifier": "all kinds of operands with a table of fields, all their fields, documents and places", "why_tests_cant": "An author learns from these texts which field to use and where it may be used.", "anchors": ["go_algorand.go: Note, addExtra, txnFieldSpecs, globalFieldSpecs", "process.go: DocAt, ArgValsAt", "lsp/lsp.go: textDocument/completion, textDocument/hover"]}
{"id": "C113", "title": "Raising the version keeps programs accepted and unchanged", "statement": "When the only complaints about a document are opcodes that need a version up to v, the command that sets its version to v, not older than its present one, leaves no complaints at all and changes nothing in the program but the pragma; and every line that is read in a version is read as the same instruction in every newer one.", "quantifier": "all documents whose strings end on their lines, versions v up to 2^64 and environments", "why_tests_cant": "Authors move programs to newer versions of the language and rely on the editor to say whether that is safe.", "anchors": ["process.go: ProcessContext.minVersion, read functions", "parser.go: readTxnField and other fields", "lsp/lsp.go: teal.version.update"]}
{"id": "C114", "title": "Looking at a debugging session does not disturb it", "statement": "A debugging session in which every message has been dealt with takes the same course without the messages that only look (threads, scopes, variables, stack traces, pause, evaluate and the like): every other message gets the same answers but for their numbers, the program ends in the same state, and a question asked again is answered alike.", "quantifier": "all sessions of the debug adapter and all messages", "why_tests_cant": "A debugger is trusted to show an execution as it would be without being watched.", "anchors": ["dbg/dbg.go: handle, reply, notify", "dbg/dbg.go: Run"]}
{"id": "C115", "title": "Comments and blank lines mean nothing", "statement": "Putting a blank line or a comment line (other than the comment that declares the mode) between two lines of a document changes nothing about it but the line numbers behind it: the complaints are the same ones in the same columns, the version and the mode are the same, and the program is the same with an empty line in it; taking such a line away changes nothing either.", "quantifier": "all documents, all places between two lines and all blank or comment lines", "why_tests_cant": "Programmers comment and space out code freely; a comment that adds, hides or alters a complaint, or changes the program, would be a trap.", "anchors": ["process.go: Process", "lexer.go: readTokens, Scan", "linter.go: Lint"]}
{"id": "C116", "title": "Spacing, line ends and comments behind code do not matter", "statement": "Two documents that differ only in white space between words, in whether lines end with LF, CR or CRLF, and in comments behind code get the same complaints in the same order about the same tokens of the same lines, and are the same program with the same version and mode; the linter crashes over both or over neither, and debugging either is the same.", "quantifier": "all pairs of documents that differ in nothing else", "why_tests_cant": "Reformatting a file, or checking it out on another system, must not change what is found in it.", "anchors": ["lexer.go: readTokens, Scan", "process.go: readTokens, Process"]}
{"id": "C117", "title": "Labels are only names", "statement": "If the labels of a program are renamed so that no two names become one, the linter reports the same findings on the same lines under the new names, the optimizer removes the same lines, the program has the same runs, and the debugger, told to do the same things, has the same branches, lines, stacks, scratch space, budgets, triggered breakpoints and errors. This holds for the rename of the language server to a name that is not in use.", "quantifier": "all programs, all renamings that keep its names apart, all sequences of debugger commands", "why_tests_cant": "A user who renames a label expects that nothing but the name changes.", "anchors": ["linter.go: getLabelsUsers, getAllLabels, canEscape", "compiler.go: Listing.Optimize", "vm.go: Vm.find, VmBranch.fork", "lsp/lsp.go: textDocument/rename"]}
{"id": "C118", "title": "Complaints are filed under a rule that describes them", "statement": "Every complaint in a report of the scanner is filed under a declared rule, and its line has what the short description of that rule says is checked; whatever a description says is checked is reported under its rule, on the line where it is.", "quantifier": "all documents, all complaints, all rules", "why_tests_cant": "Users of a scan select, suppress and explain results by rule.", "anchors": ["cmd/tealsarif/main.go: run", "linter.go: LintRules, Id, Desc", "process.go: Process"]}
{"id": "C119", "title": "Continuing is stepping until there is a reason to stop", "statement": "The state in which continue leaves the debugged machine is the one a user gets by asking for next, for the thread the machine is at, until the program is over, an instruction failed or a breakpoint was hit; and if that comes to an end, so does continue.", "quantifier": "all sessions, all states they come to, all threads named in the request", "why_tests_cant": "What a user learns by stepping must hold for what happens between breakpoints.", "anchors": ["vm.go: Run, Step, Switch", "dbg/dbg.go: continue, next"]}
{"id": "C120", "title": "A rename can be taken back", "statement": "Renaming a label through the language server to a name that is not in use, applying the edits, then renaming the new name to the old one, gives back the document byte for byte; and there is a position to do it from.", "quantifier": "all documents whose strings end on their lines and whose branch targets are words, all positions on a label, all new names that are words and not in use", "why_tests_cant": "A refactoring that cannot be reversed has changed more than it said.", "anchors": ["lsp/lsp.go: textDocument/rename", "process.go: SymbolsWithin, SymbolRefsWithin, SymByName, SymRefByName", "lexer.go: Scan"]}
{"id": "C121", "title": "Lines and columns are counted the way the client says", "statement": "After an initialize request the debug adapter counts lines from 0 or 1 and columns from 0 or 1 as that request says, 1 when it says nothing: stack traces show lines and columns counted so, breakpoints are taken and echoed so, and two clients that do the same and count differently get the same answers apart from the counts.", "quantifier": "all sessions that begin with an initialize request and contain no other, all programs, all requests", "why_tests_cant": "A debugger that is one line off highlights the wrong instruction and stops at the wrong place.", "anchors": ["dbg/dbg.go: handle initialize, setBreakpoints, stackTrace"]}
{"id": "C122", "title": "A launch starts afresh", "statement": "The answers of the debug adapter to a launch request and to everything after it, and the state of the program, do not depend on what was debugged in the session before: no breakpoint, branch, stack or scratch value is left over.", "quantifier": "all pairs of sessions that count lines and columns alike, all programs, all later requests", "why_tests_cant": "Restarting is how one debugs; leftovers of the previous run make runs irreproducible.", "anchors": ["dbg/dbg.go: handle launch", "vm.go: NewVm"]}
{"id": "C123", "title": "The breakpoints in force are those last set in the file", "statement": "While a program is debugged its breakpoints are the instructions on the lines of the last setBreakpoints request for its file since the launch; requests for other files and stepping do not change them, and the program stops by a breakpoint only there.", "quantifier": "all sessions that begin with an initialize request and contain no other, all programs, all requests", "why_tests_cant": "The protocol sets breakpoints file by file; an editor with two files open sends a request for each.", "anchors": ["dbg/dbg.go: handle setBreakpoints, launch, continue", "vm.go: SetBreakpoints, NewVm"]}
{"id": "C124", "title": "The tools agree about a program", "statement": "For the same text the scanner and the language server report the same problems in the same order: the same rule, the same place and the same gravity, the scanner counting from 1; and the debugger runs the listing these reports are about.", "quantifier": "all texts the analysis returns for, all editor sessions in which the text is the latest of a document, all scans of files with different uris", "why_tests_cant": "A finding that is in the report of the build must be the one the editor shows.", "anchors": ["cmd/tealsarif/main.go: run, ToSarifLevel", "lsp/lsp.go: doDiagnostic", "dbg/dbg.go: handle launch", "process.go: Process"]}
{"id": "C125", "title": "A stop names breakpoints the client knows", "statement": "The identifiers in a stopped event are those of breakpoints the adapter reported as verified in its last reply to setBreakpoints, and each is named once.", "quantifier": "all sessions, all programs, all requests between the reply and the stop other than a launch, an initialize request or a change of the breakpoints", "why_tests_cant": "An editor looks the identifiers up to show which breakpoint was hit.", "anchors": ["dbg/dbg.go: handle setBreakpoints, continue", "vm.go: updateBreakpoints, Step, skipNops"]}
{"id": "C126", "title": "Next steps the thread it names", "statement": "A next request executes one instruction of the thread it names and nothing on the other threads, and the stop that follows names that thread while it is in the program.", "quantifier": "all sessions, all programs, all threads of the reached state", "why_tests_cant": "Depends on how the threads were created and in which order they ended.", "anchors": ["dbg/dbg.go: handle next", "vm.go: Switch, Step, skipNops"]}
{"id": "C127", "title": "The reason given for a stop is the right one", "statement": "A stop is put down to the launch, a pause or a step only after such a request, to an exception only if an instruction failed, and to a breakpoint only if a thread has come to a line with one; without breakpoints a continue runs to the end.", "quantifier": "all sessions, all programs, all requests", "why_tests_cant": "Depends on the whole session and on what the run came across.", "anchors": ["dbg/dbg.go: handle launch, pause, continue, next", "vm.go: Run, Step, updateBreakpoints"]}
{"id": "C128", "title": "A session does not go on after an instruction has failed", "statement": "Once an instruction has failed, no request but a launch moves the threads or changes the scratch space, and the failure is reported again by every attempt to go on.", "quantifier": "all programs, all states with a failed instruction, all requests", "why_tests_cant": "Whether a second attempt fails too depends on what the first left on the stack.", "anchors": ["vm.go: Step, Run, pop", "dbg/dbg.go: handle continue, next"]}
