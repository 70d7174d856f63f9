# Formal model of dragmz/teal in Rocq (Coq 8.16.1)

The source in /repo is read as text only. Every definition of the model carries the
file and lines it models. This file says what is modelled, how each property of
`properties.jsonl` is proved, what is trusted, and (section 5) what the proofs
revealed about the code.

## 1. Conventions of the model

* A Go `string`/`[]byte` is `str := list ascii` (a list of bytes); `bs` turns Coq string
  literals into it.  `int` used as a length, index, line or column is `nat` (or `Z` where
  negative values can occur); unsigned machine integers are `N` with explicit `mod 2^8`,
  `2^32`, `2^64`.
* A Go run-time panic is the value `Panic` of `res A := Ret a | Panic | OutOfFuel`; a Go
  `error` is an ordinary value.  A loop is structural recursion, a fold, or recursion on
  explicit fuel that answers `OutOfFuel`; theorems exclude that value, or say exactly when it
  occurs (C28: the real loop does not end there).
* A method that mutates its receiver returns the new receiver.
* Map iteration order in Go is unspecified.  Where the result depends on it, the model takes
  a fixed order and the theorem is stated up to membership, or the order is a parameter of the
  model that the theorem quantifies over (`pick` in `Vm.v`).
* The LSP and DAP servers are state machines `handle : state -> message -> res (state * list output)`
  over decoded messages; properties quantify over all message histories.
* Text edits of the language server are applied by an independent reading of the LSP
  specification (`Edit.v`), so that the quick fixes are judged by the document they produce.

## 2. Files

Model:

| file | models |
|---|---|
| `Base.v` | byte strings, `res` monad, list helpers |
| `Utf8.v` | `utf8.DecodeRune` of the Go standard library (used by the lexer) |
| `Strconv.v`, `Codec.v` | strconv, encoding/hex, base64, base32 as used by the parser and printer |
| `Lexer.v` | lexer.go |
| `Fields.v` | go_algorand.go field tables, parser.go readers |
| `Literals.v` | string literals (parser.go, go_algorand.go) |
| `OpTable.v` | process.go: the opcode table and the reader of each opcode |
| `Process.v` | process.go: lines, listing, diagnostics, symbols, token classes |
| `Query.v` | process.go: the queries over a result (positions, hints, completions, ...) |
| `Expr.v`, `Print.v` | expr.go: instructions, Nop/Terminator/Labels, String |
| `Linter.v` | linter.go |
| `Compiler.v` | compiler.go |
| `Semantics.v` | semantics.go, range.go |
| `DocLines.v` | lsp/doc.go |
| `VmOps.v`, `Vm.v` | vm.go and the Execute/Cost methods of expr.go |
| `Lsp.v` | lsp/lsp.go (state machine, all handlers) |
| `Dbg.v` | dbg/dbg.go (state machine) |
| `Sarif.v` | cmd/tealsarif/main.go, internal/sarif |
| `Frame.v` | the header framing of both servers (Run, write; net/textproto) |
| `Walk.v` | the files the scanner visits (filepath.WalkDir) and their uris |
| `Notes.v` | langspec.go: the reader of immediate notes |
| `LangOps.v` | langspec.json as data (opcodes, notes, argument enumerations) |

Specifications (small, independent of the model where the subject allows):

| file | says |
|---|---|
| `LexSpec.v`, `LexStatements.v` | the lexical structure of a text; tiling, positions, cursors |
| `Flow.v`, `LintSpec.v` | control flow of a listing with an oracle for conditional branches; the lint rules by line index |
| `CompilerSpec.v` | deletion, flattening, cleanliness |
| `VmSpec.v`, `LangSpec.v` | vocabulary of the interpreter; stack signatures from langspec.json |
| `AvmVersions.v`, `AvmFields.v` | published opcode and field tables |
| `ProcessSpec.v` | what a line means, without positions or bookkeeping |
| `RoundTripSpec.v` | which instructions are printed so that they are read back |
| `Edit.v`, `RenameSpec.v`, `HintSpec.v` | applying text edits; renaming a program; spellings of operands |
| `LspSpec.v`, `AnswerSpec.v`, `RangeSpec.v`, `PaintSpec.v` | sessions, answers at a position, answers about a range, roles of tokens |
| `DbgSpec.v` | sessions of the debug adapter |
| `SignatureSpec.v`, `NotesSpec.v` | signatures of opcodes; the grammar of immediate notes |
| `FrameSpec.v` | messages on the wire |
| `CostSpec.v` | the published opcode costs |
| `ErrorSpec.v` | statements, and the mistake of any other line |
| `NameSpec.v` | the label a line belongs to |
| `IntSpec.v` | how integer constants are written: numerals in four bases, named constants |
| `Base32.v` | `base32DecodeAnyPadding` over encoding/base32 |
| `ByteSpec.v` | hexadecimal, base64 and base32 as numbers in two bases, and the forms of a byte constant |
| `RepoTests.v` | the project's own tests and example programs, run on the model |
| `DiagSpec.v` | what is wrong with a document, as one inductive relation |
| `LabelSpec.v` | the comments above a label and the protos below it |
| `CrashSpec.v` | the messages that end the language server, over histories |
| `WalkSpec.v` | the files of a directory tree, their order, uris |
| `AgreeSpec.v` | lines a branch stands on, programs without subroutine returns |
| `Builders.v`, `BuilderSpec.v` | builder functions and variables of expr.go; the lines and instructions they are called for |
| `RemoveSpec.v` | the tokens that define a label, the listing without it |
| `ValueSpec.v` | the values a set of instructions can make |
| `ConfigSpec.v` | which features the client has switched off |
| `Messages.v` | the texts of the diagnostics (linter.go, parser.go, lexer.go) |
| `MessageSpec.v` | the claim each text makes about its line |
| `OnceSpec.v` | how often a problem is due to be reported |
| `LangDocs.v` | the descriptions of langspec.json |
| `LetterSpec.v` | how a description letters values and operands |
| `TurnSpec.v` | whose turn it is; runs that come to an endless instruction |
| `Complaints.v` | the errors and texts about refused operands |
| `ComplaintSpec.v` | which operand of a line is refused, and as what it is read |
| `Titles.v` | the titles of the quick fixes |
| `TitleSpec.v` | what a title says of the document and the fix |
| `OutlineSpec.v` | which lines define labels |
| `Snippets.v` | the texts of the snippets |
| `SnippetSpec.v` | what an editor makes of a snippet, the programs the two snippets stand for |
| `ModeSpec.v` | the white space of Unicode and the comment that sets the mode |
| `RejectSpec.v` | the operands langspec.json demands of the stack, jumps included |
| `CompleteSpec.v` | the line made of a completion, instructions that fit between two lines |
| `FieldDocs.v`, `NotedSpec.v` | the texts of the fields in hovers and completions; which fields are for applications only |
| `UpgradeSpec.v` | a program after its version has been raised |
| `LookSpec.v` | requests that only look, dialogues with the debug adapter |
| `QuietSpec.v` | blank and comment lines, line numbers after a line has been put in |
| `SpacingSpec.v` | documents without their spacing, complaints about the same tokens |
| `AliasSpec.v` | renamings that keep names apart, machines that differ in names only |
| `Rules.v` | the rules of a report with their descriptions (cmd/tealsarif/main.go, linter.go) |
| `UndoProofs.v` | proofs for C120 |
| `CountProofs.v` | proofs for C121 |
| `MarkProofs.v` | proofs for C123 and C125 |
| `HitCount.v` | how often a breakpoint is reported in one step, for C125 |
| `PlaySpec.v` | real executions with a changing world, what they do and whether they are approved |
| `RealSpec.v` | real executions with concrete values over an arbitrary world; what it means that a branch shows one |

Proofs: `*Proofs.v`, `*Thms.v`, `Vm{Skip,Step,Exec,Inv,Sim,Flow,Stack,Types,Scratch,Hits}.v`,
`Process{Run,Line,Doc,Avm}.v`, `RoundTrip*.v`, `DocTokens.v`, `CompilerFix.v`, `Fix{Lines,Version,Commands}.v`,
`PaintDoc.v`.  `Prop*.v` hold the property theorems, with `Print Assumptions` and a non-vacuity
`Example` beside each.

## 3. Properties: what is modelled and how it is proved

If the faithful model violates a property, the property keeps its full statement, a theorem
`..._refuted` gives the witness, and `..._partial` theorems give the strongest part that holds.
All claims that are only partial are so for this reason: the property is false as stated.

* **C01-C06 (lexer).** `Lexer.v` transliterates the lexer with explicit indices, slices that can
  panic and fuelled loops over `DecodeRune`.  A byte-wise specification lexer (`LexSpec.v`, plain
  structural recursion on the remaining bytes) is proved equal to it; totality, tiling,
  positions, errors and the cursor laws are then inductions on the specification run.
* **C07-C12 (Process).** The line parser and the opcode table are transliterated; each opcode is a
  program of reads (`prog`), run by the model with all bookkeeping and by the specification
  (`assemble`) without it; one simulation lemma per read, one induction over programs, one over
  lines.  The opcode table is compared with the published one by computation over the (finite) table.
* **C13 (round trip).** Printing and reading again: a text of words is lexed into these words
  (`RoundTripLex.v`), each kind of operand is read back from its print; by cases over instructions.
  The converse (`RoundTripExact.v`): a text falls into pieces in one way, so the line of the first exceptional
  instruction of a listing is known well enough to see that its first entry is another instruction.  Strings as labels
  are printed as they are and read back unless a quote is inside.
  Fourteen kinds of instruction are refuted by witnesses; the theorem covers all others.
* **C14-C21 (linter).** Each rule is a function of the listing; exactness is an iff with a
  specification by indices (`nth_error`); soundness of the unreachable-code and infinite-loop
  rules is stated over the control-flow relation of `Flow.v`.
* **C22-C25 (optimizer).** Forward simulation between listings for an abstract machine with an
  arbitrary oracle for conditional branches; deletion as a subsequence; exact fixpoints.
  `OptimizeExact.v` says which programs survive the first pass: dropping a retsub is replacing it by an
  empty line and dropping that, so the comparison is between two listings with the same lines. Programs
  that execute retsub in subroutines only keep their behaviour exactly if every retsub they can execute
  stands directly below a used label or leads on to one that does (C22_exact).
* **C26, C27, C45, C54, C61 (text).** Codec round trip, integer arithmetic, list induction.
* **C28-C38, C58-C60 (debugger VM).** Invariants over all sequences of Step/Run/Switch/SetBreakpoints,
  termination by the sum of budgets, simulation between runs with different breakpoints, and the
  effects of every instruction against langspec.json.
* **C39-C42 (LSP sessions).** State machine invariants over message histories.
* **C43, C46, C47, C71-C74 (edits).** The edits sent are applied to the text by `Edit.v`, the new
  text is lexed and processed, and the resulting program is compared with the one before.
* **C44, C48, C65-C70 (positions), C75, C76 (ranges), C77 (whole document).** Each answer is
  characterised by an iff with a specification over the tokens of the document.
* **C49-C53, C62-C64 (DAP).** State machine invariants over message histories.
* **C55, C56.** Range checks of immediates; field tables against the published ones.
* **C57.** The conversion of diagnostics to results as a pure function.
* **C78, C80, C81 (opcode table).** Signatures as a function of the program of reads of an opcode; the
  note reader against a grammar given as an inductive relation; the table against langspec.json by
  computation, with the argument trees compared symbolically.
* **C79 (framing).** A stream is an inductive sequence of messages and junk; the reader is proved to
  give exactly these messages, and what is written is proved to be such a stream.
* **C82 (real executions).** Abstract interpretation: every step of a concrete machine (`RealSpec.v`,
  written from langspec.json, all non-stack operations being one arbitrary typed relation) is
  covered by a step of the debugger (`instruction_covered`); a session that has nothing left to
  execute is then proved to have shown every reachable concrete state.
* **C83 (costs).** What a step takes from the budget against the published costs by opcode name; all
  instructions that a name can be read to are covered by one recursion over its program of reads.
* **C84 (results).** A real execution is a run of `Flow.v` together with what its instructions do to the
  data, and every such run of the other program is a real execution again; so the behaviour theorems
  of C22 carry over from moves to stacks and approval. The same lemma gives C16 and C20 for real executions.
* **C85 (parse errors).** `ErrorSpec.v` says what a statement is and, as a relation, what the mistake of any
  other line is; a wrong operand is the first one after which no continuation is an instruction. The
  relation is proved to be functional, so the theorem fixes each error and its place.
* **C86 (names of frames).** `NameSpec.v` says which label a line belongs to.  `NameProofs.v` keeps an invariant
  through every Execute method, also the ones that panic half way: a branch has the name of its line unless it
  stands on the label of a jump, which `skipNops` then takes over; pending calls keep the line and the name of
  their callsub.  Ended branches are all called `(exited)` only if every jump has a label to go to.
* **C87 (integer constants).** `IntSpec.v` has the grammar of numerals with the positional value of their digits.
  Proving that `parse_uint` reads exactly these found a slip in the model: it dropped the first digit behind a base
  prefix.  No other theorem depended on it, because the round trip (C13) prints numbers in decimal.
* **C88 (byte constants).** `decodes w ds v` says that digits of w bits and bytes are the same number, up to fewer than
  w bits; the three encodings share it.  base32 is also exact for the lengths it has; `encoding/base32` drops a last
  group of one, three or six digits, ignores what follows the padding, and takes the byte 255 for padding when there
  is none, which the model keeps.
* **Tests of the project.** `RepoTests.v` (generated from the `_test.go` files and `examples/`) checks that the model
  passes all of them; they are closed computations.
* **C89 (diagnostics).** `reported` combines the lexer's, the parser's, the mode and version checks' and the linter's
  specifications; the theorem is an equivalence for every diagnostic, positions included.  The multiplicity of equal
  diagnostics is not stated here (C85 states it for parse errors).
* **C90 (labels).** The comments collected for a label are those since the previous label, not those right above it;
  the signature is that of the last `proto` before the next label, also behind a `retsub`.
* **C91 (sessions).** `deadly` speaks about the messages before a call, not about the state of the server; after a
  shutdown only `didOpen` and `didChange` can still crash it, and a `didClose` is no longer heard (`heeded`).
* **C92 (files).** The file system is a tree given to the model; a directory has the entries that could be listed and
  those that could not. The argument is given as the elements of its clean absolute path.
* **C93 (debugger and linter).** Relates the two models `Vm.v` and `Linter.v` through the control flow relation of
  `Flow.v`; nothing is modelled anew.
* **C94 (builders).** A label argument is given by its name; the `Label` field of a block, which nothing reads, and a
  nil label are left out. `FuncExpr` occurs only through `Call`.
* **C95 (removing a label).** Deletions are applied with the meaning of `Edit.v`; documentation comments of the other labels are
  left out of the claim, since a comment behind the removed label becomes a line of its own.
* **C96, C97 (values and their texts).** `made` lists the values instructions can make. Texts of two different values can agree
  in general (`C97_only_held`), but not for values a session can hold: the instructions that record several operands cost more
  than the 700 a branch has.
* **C98 (switches).** The settings of a session are a fold over the messages before shutdown and exit; the rest are one-step
  facts about `handle`.
* **C99 (messages).** `true_message` lists the texts with their claims; exactness follows from C89, and the texts are shown to
  be injective in the problem (and the numbers in them by the digits up to the next blank or parenthesis).
* **C100 (once).** The rules are counted one by one (`OnceProofs.v`); the diagnostics of the lines come from C85 and C11, which
  give the whole list for a line (`OnceDoc.v`).
* **C101 (names).** The letters of the descriptions are read by a function proved equal to its specification; the table is then
  checked by computation.
* **C102 (turns).** `TurnProofs.v` follows the loop of `Vm.skipNops` around the ring of branches; with it C28 becomes exact:
  a run fails to end if and only if it comes to a dupn 255 that can be paid for and has a value.
* **C103, C104 (refusals).** `Complaints.v` models the conversions again with their errors, which `Process.v` reduces to
  `RValue`; `operand_error_spec` shows that the two agree, and `said_mistake`/`mistake_said` that every such error of a
  document has its complaint.  That the text is made where the error is found is by construction of `said`, not by
  running the parser once more.
* **C105, C106 (titles).** `Titles.v` gives the fixes of `Lsp.v` with their titles; `C105_actions` says that without the
  titles they are the answer of the server.  `says` is about the tokens of the document, not about the listing.
* **C108 (snippets).**  `SnippetSpec.inserted` is a small reading of the snippet language of the protocol: places with a
  number and a text, no nesting, no choices, no variables; this is all the two snippets use.  The executions are those of
  `RealSpec.v`.  That a block of lines may be put into a program without anything being reported is `InsertProofs.insert_sound`
  and `InsertSub.sub_sound`, on top of the exact account of the diagnostics (C89).
* **C109 (mode).**  `strings.TrimSpace` is modelled by the list of the encodings of white space (`Process.white_space`);
  `ModeProofs` proves that these are exactly the texts that decode to a character with the property White_Space.
* **C110 (operand types).**  The converse of C60: `served` is the state in which an instruction may run, and a step on an
  unserved instruction ends in an error; only the instructions without an Execute method (`ignores_operands`) escape.
* **C111 (completed lines).**  The text of a completion is expanded as in C108 (`chosen`); `one_sound` shows that an instruction
  that goes on with the next line and names only labels of the program disturbs none of the lint rules, and `insert_doc_at`
  carries it over to the document.
* **C112 (field texts).**  `app_only` lists the fields by name, apart from the flag in the tables; `noted` compares it with the
  text that is built from the flag.  `hover_tells` reads the name and the number back from a text: names have no blanks and
  numbers no carriage returns.
* **C113 (raising the version).**  `assemble_newer` shows that operands are read alike in newer versions; `updated` gives the
  lines of the changed document; `alike_sound` and `ahead_sound` show that the lint rules do not mind a changed or a new
  first pragma.
* **C114 (looking).**  `same_handle` shows that no handler reads the number of messages sent, `look_keeps` that looking changes
  nothing else; the rest is induction over the dialogue.
* **C115 (comments and blank lines).**  `finding_down`/`finding_big` renumber every relation of the linter; `layout_sink` lays out
  the rest of the document one line further down; `reports_exact` and `reports_count` (C89, C100) turn both into a permutation of
  the diagnostics.
* **C116 (spacing).**  `bare_lines` shows that the code lines of a document are those of its normal form but for positions;
  faults, gates and lint findings depend on kinds and numbers of tokens only.
* **C117 (names).**  The maps of the linter are re-keyed (`append_rekey`, `get_rekey`); `Like` relates computations of the debugger
  on machines that differ in names only, and is closed under `bind`, so that each instruction is a composition.
* **C118 (rules).**  `describes` gives each description a meaning; both directions follow from the exactness of the diagnostics (C89).
* **C119 (continue and next).**  `pressed` sends whole `next` requests through the adapter; the states are compared, not the messages.
* **C120 (taking a rename back).**  `respell` gives the words of a line after a rename; the pieces of a text (C02) are determined by their kinds and words.
* **C121 (counting lines and columns).**  `sent` and `received` shift the only lines and columns of the protocol; the handler commutes with the shift, for every message but initialize.
* **C122 (a launch starts afresh).**  A launch replaces the whole machine; the rest follows from C114's comparison of sessions.
* **C123 (breakpoints in force).**  `asks` keeps the last request, `asks_in` the last request for a file; only setBreakpoints and launch touch the breakpoints of the machine.
* **C124 (the tools agree).**  Puts together C89 for the server and C57 for the scanner; `same_report` compares a result with a diagnostic.
* **C125 (named breakpoints).**  `quiet` lists the messages that leave breakpoints and listing alone; the rest follows from C52 and C63.  How often one is named (`C125_twice`) needs an
  invariant of the running instruction (`Scarce` in `HitCount.v`), because a branch created in a step is reported too.
* **C126 (next).**  The switch makes it the turn of the named thread if it is in the program; then C102 applies.
* **C127 (reasons).**  `right` says what each reason claims; the proof reads it off C63, and `C127_none` takes the breakpoints from C123.
* **C128 (after a failure).**  An invariant of the dialogue: branches, scratch space and the error stay.

## 4. Trusted base

* Coq's kernel including `vm_compute`.  `Print Assumptions` stands below each property theorem and
  prints "Closed under the global context" for all of them.  No axiom is declared.  The checker
  lists seven constants of `Coq.ssr.ssrunder` (an abstract module of the standard library that the
  `Zify` plugins load); no theorem depends on them.
* The reading of the Go code into Gallina (cited line by line).
* The modelled behaviour of Go library functions named in the comments: `utf8.DecodeRune`,
  `strconv.ParseUint/ParseInt/Unquote`, `strings.*`, `hex`, `base64`, `base32`, `sort.Sort`.

Parameters of the model (every theorem holds for all values of them):

* `env` of `Process.v`: base32 decoding and the address checksum; `lenv` of `Lsp.v`: `env`, the
  document texts of `Hover`, and the formatter (tealfmt, an external package).
* `pick` of `Vm.v`: the iteration order of the Go map of branches.

Not modelled: JSON encoding of the messages, files and sockets, goroutines of the
transport (`cmd/tealsp`, `cmd/tealdbg`, `debug/*` main programs), the experimental translator in
`debug/translate`, documentation texts, and the values computed by
the interpreter (the code itself only tracks symbolic values).  Columns are byte offsets in
model and code; the LSP specification asks for UTF-16 units (not a claim here).

## 5. What the proofs revealed about the code

Each item is a witness in a `..._refuted` theorem or a hypothesis of a `..._partial` one.

Lexer and literals
* A string ending in an escaped backslash (`"a\\"`) is read as unterminated.
* A string may contain a line end; the lines of tokens then disagree with the editor (C61).
* A lone `"` is accepted as a string, the empty text panics in the literal reader (C54).
* Base64 text that starts with `//` is read as a comment (C13).

Process
* "Too many values" adds a second listing entry, so all later lines shift; linting may then panic
  (C07, C08), and the remove-line fix removes another line (C71).
* `args` is declared for applications instead of logic signatures (C11); `txna` fields are not
  gated by version (C56); `#pragma version` is kept modulo 256; the group index of `gitxna` is
  truncated modulo 256 (C55).
* Tokens after a label or after `#pragma version N` are neither an error nor highlighted.

Printing (C13)
* `repace2`, `extract_unt64`, `pushbytess` for `pushints`, swapped operands of `gtxnas`,
  re-quoted `method`, empty byte constant, numeric fields printed by name although the name is
  rejected, `txn Sender 0` printed as the rejected `txna Sender 0`.

Linter and optimizer
* Optimize deletes almost every `retsub` (C22); one round leaves unused labels and dead code
  (C24); a nested Program is not flattened (C25); the redundant-branch fix is unsafe with
  duplicate labels (C18).
* `Overlaps` is wrong for ranges over several lines (C27), hence missing hints and fixes (C75, C76).

Interpreter
* `dupn 255` does not end (C28); a branch that cannot pay keeps the execution alive (C32); a
  negative breakpoint line panics (C33); a fork loses call frames (C36); scratch space is shared
  between branches (C58); `retsub` with `proto` keeps locals (C59); `dup2` order, `bury` from the
  bottom, `dig` modulo 256 (C37); five instructions without Execute (C38); `getbit`, `setbit`,
  `bitlen`, `app_opted_in` reject allowed types and `pushints` pushes bytes (C60).
* `json_ref` is charged by the length of the key instead of the object and rounded twice (C83).
* The optimizer can turn a program that always rejects into one that always approves (C84_refuted).
* A scratch slot that was not written is shown without a value although it holds 0 (C82); after the
  budget is used up the current branch may be a finished one.

Language server
* Diagnostic requests are answered for unopened documents (C39); executed commands, unknown
  methods and requests about unopened documents are never answered (C41); negative positions and
  hovering over `txn -1` panic (C48).
* Rename sends every edit twice between touching quoted operands (C43); go to definition looks up
  only the first (C44).
* Hints: version ignored, signed numerals, backslashes not escaped, offered for operands that are
  not byte constants (C46, C47).
* Completion uses the version at the end of the document and ignores the mode (C67, C70); signature
  help is wrong in front of an operand (C68); hover shows opcodes for comments such as `//int` and
  nothing for the curves of the ec opcodes (C69).
* Fixes: create-label fails for quoted operands and open strings (C72); version change edits only
  the last pragma (C73); formatting leaves a blank last line (C74).
* The numbers of `intcblock`/`pushints` are highlighted twice (C77).
* `workspace/executeCommand` is never answered; `didClose` is obeyed only before shutdown; a request
  without id is answered with a null id; the snippets of completion are offered in every mode.
* The long signature opens a bracket per optional argument and closes none (C78); `txn`, `gtxn` and
  `gtxns` take one operand more than the specification, and `gitxna` reads its group index as a
  64 bit number (C81).
* A negative or too large `Content-Length` crashes both servers (C79).

Debug adapter and scanner
* `pause`/`next` before launch, missing arguments and out-of-range start/count panic (C51);
  `setBreakpoints` before launch answers an empty list (C52); `totalFrames` is always 1 (C53);
  unknown commands and unreadable programs are never answered (C62); `next` for a finished thread
  steps another one.
* The artifact index of a SARIF result is the index of the diagnostic (C57).
* The snippets are offered below version 8, where their code is refused (C108).
* An opcode above the comment that sets the mode is judged as one of an application (C109).
