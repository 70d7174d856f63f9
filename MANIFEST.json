{
 "claims": [
  {
   "property": "C01",
   "status": "proved",
   "theorems": [
    "C01_lexing_total"
   ],
   "note": ""
  },
  {
   "property": "C02",
   "status": "proved",
   "theorems": [
    "C02_tokens_tile_source"
   ],
   "note": ""
  },
  {
   "property": "C03",
   "status": "proved",
   "theorems": [
    "C03_token_positions"
   ],
   "note": ""
  },
  {
   "property": "C04",
   "status": "proved",
   "theorems": [
    "C04_errors_are_open_strings"
   ],
   "note": ""
  },
  {
   "property": "C05",
   "status": "proved",
   "theorems": [
    "C05_lexer_is_cursor"
   ],
   "note": ""
  },
  {
   "property": "C06",
   "status": "proved",
   "theorems": [
    "C06_bytewise",
    "C06_encoding_independent"
   ],
   "note": ""
  },
  {
   "property": "C07",
   "status": "partial",
   "theorems": [
    "C07_refuted",
    "C07_outcome",
    "C07_partial"
   ],
   "note": "false as stated: a line with too many values shifts the lint lines and may panic. C07_outcome: that is the only way to panic and Process never diverges; no such line: it returns."
  },
  {
   "property": "C08",
   "status": "partial",
   "theorems": [
    "C08_refuted",
    "C08_length",
    "C08_partial"
   ],
   "note": "false as stated: a line with too many values has two entries; proved for all documents without that diagnostic"
  },
  {
   "property": "C09",
   "status": "proved",
   "theorems": [
    "C09"
   ],
   "note": "a lexer error lies at the end of the text, on the line after the last line end"
  },
  {
   "property": "C10",
   "status": "proved",
   "theorems": [
    "C10"
   ],
   "note": "entries are compared by position before and after the changed block; mode comments do not change instructions"
  },
  {
   "property": "C100",
   "status": "partial",
   "theorems": [
    "C100_refuted",
    "C100_partial",
    "C100_exact",
    "C100_linter"
   ],
   "note": "Refuted: a line that names a missing label twice is reported twice. Proved: the exact number of times every diagnostic occurs, and that repetitions occur only then."
  },
  {
   "property": "C101",
   "status": "partial",
   "theorems": [
    "C101_refuted",
    "C101_partial",
    "C101_explained",
    "C101_distinct",
    "C101_words",
    "C101_order"
   ],
   "note": "Refuted: the description of vrf_verify does not speak of its operand f, and some opcodes call their operand index or field where the description has a letter. Proved: exactly which opcodes these are, and the claim for all others."
  },
  {
   "property": "C102",
   "status": "proved",
   "theorems": [
    "C102_turn",
    "C102_unique",
    "C102_shown",
    "C102_step"
   ],
   "note": "A branch that cannot pay for its instruction stays the current one after the step; the next step goes on with the next branch (C102_turn)."
  },
  {
   "property": "C103",
   "status": "proved",
   "theorems": [
    "C103",
    "C103_one",
    "C103_version",
    "C103_no_version",
    "C103_range",
    "C103_values",
    "C103_never",
    "C103_apart",
    "C103_words"
   ],
   "note": "The texts of the errors of base32, base64, hex and the address decoder are left out (the cause is CLibrary), and so are quoted texts with characters outside printable ASCII."
  },
  {
   "property": "C104",
   "status": "partial",
   "theorems": [
    "C104_refuted",
    "C104_curve",
    "C104_partial",
    "C104_others"
   ],
   "note": "False for the fields of global, asset_holding_get, asset_params_get, app_params_get, acct_params_get, vrf_verify and block (no name, and called a txn field) and for the curves (misspelt ESCDS); true for all other numbers and fields (C104_partial), and for none of these (C104_others)."
  },
  {
   "property": "C105",
   "status": "partial",
   "theorems": [
    "C105_refuted",
    "C105_literal_refuted",
    "C105_actions",
    "C105_partial",
    "C105_others_partial"
   ],
   "note": "False behind a line with too many operands (another line is removed than the title says) and for texts with a backslash (the literal inserted stands for other bytes); true for all other fixes."
  },
  {
   "property": "C106",
   "status": "partial",
   "theorems": [
    "C106_refuted",
    "C106_place_partial",
    "C106_partial"
   ],
   "note": "False over a selection (two constants with the same text in one line); at the cursor, with nothing selected, equal titles mean equal fixes (C106_partial), and everywhere they mean the same fix up to its place."
  },
  {
   "property": "C107",
   "status": "partial",
   "theorems": [
    "C107_refuted",
    "C107_partial",
    "C107_unopened"
   ],
   "note": "False for labels below a string that goes over several lines: the line told is not the line of the editor.  The names, their number and their order are right in every document; the ranges in every document whose strings end on the line they begin on."
  },
  {
   "property": "C108",
   "status": "partial",
   "theorems": [
    "C108_refuted",
    "C108_too_old",
    "C108_untouched",
    "C108_soc_partial",
    "C108_dispatch",
    "C108_func_partial",
    "C108_call"
   ],
   "note": "False below version 8: the snippets are offered in every version, unlike the opcodes, and their switch and proto are refused.  From version 8 on the code is accepted wherever the place is reached and the names are new (soc), or wherever the name is what the document lacks (func), and it runs as it should."
  },
  {
   "property": "C109",
   "status": "partial",
   "theorems": [
    "C109_refuted",
    "C109_mode",
    "C109_judged_partial"
   ],
   "note": "False for the opcodes above the comment: they are judged as those of an application, in a document that counts as a logic signature.  What makes a document a logic signature is exact, down to the white space of Unicode, and so is the mode each opcode is judged in."
  },
  {
   "property": "C11",
   "status": "partial",
   "theorems": [
    "C11_exact",
    "C11_refuted",
    "C11_partial"
   ],
   "note": "gating is exact relative to the table of the code; that table differs from the published one at args"
  },
  {
   "property": "C110",
   "status": "partial",
   "theorems": [
    "C110_refuted",
    "C110_executed_partial",
    "C110_rejected_partial",
    "C110_exact"
   ],
   "note": "False for extract_uint64, b- and b|, which have no Execute method and run on any stack.  Proved for every other instruction langspec.json describes, the jumps included; together with C60 the condition is exact for the instructions that depend on nothing but their operands."
  },
  {
   "property": "C111",
   "status": "partial",
   "theorems": [
    "C111_refuted",
    "C111_partial",
    "C111_refused_partial",
    "C111_offered_partial",
    "C111_offered_refuted"
   ],
   "note": "False as stated: the completions compare the version an opcode has in applications and ignore the mode, so arg is offered in applications and log in logic signatures, both refused, and ed25519verify is missing in a logic signature of version 1 that may use it.  Proved: with an opcode the mode has, the line is accepted and the program gains exactly it; an opcode the mode lacks is always refused; in applications nothing acceptable is missing."
  },
  {
   "property": "C112",
   "status": "partial",
   "theorems": [
    "C112_refuted",
    "C112_noted",
    "C112_alike",
    "C112_tells"
   ],
   "note": "The last clause is false: global Round, described as for applications only, is accepted in a logic signature, and txn NumLogs, described as only with itxn in version 5, is accepted there.  Proved: notes mention application mode exactly for the effects and the values of a running application, completions and hovers agree, texts of different fields differ."
  },
  {
   "property": "C113",
   "status": "proved",
   "theorems": [
    "C113",
    "C113_line"
   ],
   "note": "Documents in which a string runs over the end of a line are left out by the statement."
  },
  {
   "property": "C114",
   "status": "proved",
   "theorems": [
    "C114",
    "C114_added",
    "C114_again"
   ],
   "note": "Sessions that end because the adapter crashes are the subject of C51."
  },
  {
   "property": "C115",
   "status": "partial",
   "theorems": [
    "C115_refuted",
    "C115_partial",
    "C115_away_partial",
    "C115_listing"
   ],
   "note": "Refuted where a line has too many operands: such a line counts twice in the listing, so that the linter can report lines that do not exist and crash (C07, C08), and a blank line at the end makes up for that. Proved for documents without surplus operands, and for every listing."
  },
  {
   "property": "C116",
   "status": "proved",
   "theorems": [
    "C116",
    "C116_crash",
    "C116_debug"
   ],
   "note": "Only the column of an open string, which is where the text ends, is not compared."
  },
  {
   "property": "C117",
   "status": "proved",
   "theorems": [
    "C117",
    "C117_optimize",
    "C117_runs",
    "C117_debug",
    "C117_rename"
   ],
   "note": "The order of findings that Go takes from a map is the order of the model. Branches and frames of the debugger are shown under the renamed labels, or under one of the two fixed names for the main program and for a branch that ended."
  },
  {
   "property": "C118",
   "status": "partial",
   "theorems": [
    "C118_refuted",
    "C118_partial",
    "C118_complete",
    "C118_declared"
   ],
   "note": "False as stated: a branch to a label that does not exist is filed under LINT0005, which is described as a check for infinite loops (linter.go:428-443). It holds for all other complaints, and in the other direction for all rules."
  },
  {
   "property": "C119",
   "status": "proved",
   "theorems": [
    "C119",
    "C119_back"
   ],
   "note": "The number of nexts is bounded by the fuel of the run; C119_back gives the run for any fuel not below it."
  },
  {
   "property": "C12",
   "status": "proved",
   "theorems": [
    "C12"
   ],
   "note": ""
  },
  {
   "property": "C120",
   "status": "proved",
   "theorems": [
    "C120",
    "C120_can"
   ],
   "note": "The edits are applied as the language server protocol defines it (Edit.v). C120_ex shows that a name in use has no way back."
  },
  {
   "property": "C121",
   "status": "proved",
   "theorems": [
    "C121",
    "C121_trace",
    "C121_breakpoints"
   ],
   "note": "The protocol allows initialize once. C121_again_refuted shows that a second one that says 0 is not heeded."
  },
  {
   "property": "C122",
   "status": "proved",
   "theorems": [
    "C122",
    "C122_said"
   ],
   "note": "The numbers of the messages of the adapter go on, so the answers are compared without them. A launch whose file cannot be read is ignored and the old program stays (C122_unread)."
  },
  {
   "property": "C123",
   "status": "partial",
   "theorems": [
    "C123_refuted",
    "C123_exact",
    "C123_partial",
    "C123_stops"
   ],
   "note": "False as stated: the file of a request is ignored, so that clearing the breakpoints of another file clears those of the program. Exact: the last request since the launch counts, whatever its file. Proved as stated for sessions that speak of no other file."
  },
  {
   "property": "C124",
   "status": "proved",
   "theorems": [
    "C124",
    "C124_debugger"
   ],
   "note": "The text of a message is d.String() in both tools and not compared here."
  },
  {
   "property": "C125",
   "status": "partial",
   "theorems": [
    "C125_refuted",
    "C125_partial",
    "C125_twice"
   ],
   "note": "False as stated: a breakpoint below a label is named twice, once when the label is skipped and once after the step. That all named breakpoints are known and verified is proved for all sessions, and that one breakpoint is named, once, or twice where the line above is not an instruction."
  },
  {
   "property": "C126",
   "status": "partial",
   "theorems": [
    "C126_refuted",
    "C126_partial",
    "C126_exact"
   ],
   "note": "False as stated: a next request for a thread that has ended executes an instruction of another thread. Proved for all threads that are in the program; which thread is stepped is told exactly for every request."
  },
  {
   "property": "C127",
   "status": "partial",
   "theorems": [
    "C127_refuted",
    "C127_partial",
    "C127_none"
   ],
   "note": "False as stated: at the end of the program the reason given is a breakpoint (dbg.go:519-523), even in a session without any. All other stops are proved right, and that a continue without breakpoints runs every thread to its end or to a failing instruction."
  },
  {
   "property": "C128",
   "status": "partial",
   "theorems": [
    "C128_refuted",
    "C128_partial",
    "C128_where"
   ],
   "note": "False as stated: a failed instruction may have taken values off the stack, and a next request tries it again on what is left (byte 0x00; int 0; int 0; getbyte), so the session goes past it. Proved for all requests other than next and launch, and that the machine stays before the instruction that failed."
  },
  {
   "property": "C13",
   "status": "partial",
   "theorems": [
    "C13_refuted",
    "C13_partial",
    "C13_exact",
    "C13_listing_partial",
    "C13_immediates",
    "C13_unnamed"
   ],
   "note": "false as stated for 14 listed kinds of instruction; proved for every listing without one of them, and C13_exact proves that a listing with one of them never reads back"
  },
  {
   "property": "C14",
   "status": "proved",
   "theorems": [
    "C14_duplicate_labels",
    "C14_reported_once"
   ],
   "note": ""
  },
  {
   "property": "C15",
   "status": "proved",
   "theorems": [
    "C15_unused_labels",
    "C15_redundant_labels",
    "C15_reported_once"
   ],
   "note": ""
  },
  {
   "property": "C16",
   "status": "proved",
   "theorems": [
    "C16_unreachable_is_unreachable",
    "C16_real"
   ],
   "note": "against the control-flow semantics of Flow.v, and for the real executions of PlaySpec.v"
  },
  {
   "property": "C17",
   "status": "proved",
   "theorems": [
    "C17_unreachable_exact"
   ],
   "note": ""
  },
  {
   "property": "C18",
   "status": "proved",
   "theorems": [
    "C18_redundant_branch_exact",
    "C18_redundant_branch_safe",
    "C18_all_redundant_lines_safe",
    "C18_duplicate_labels_refuted"
   ],
   "note": "the hypothesis on duplicate labels is necessary: C18_duplicate_labels_refuted"
  },
  {
   "property": "C19",
   "status": "proved",
   "theorems": [
    "C19_missing_labels"
   ],
   "note": ""
  },
  {
   "property": "C20",
   "status": "proved",
   "theorems": [
    "C20_infinite_loop",
    "C20_real"
   ],
   "note": ""
  },
  {
   "property": "C21",
   "status": "proved",
   "theorems": [
    "C21_pragma_placement"
   ],
   "note": ""
  },
  {
   "property": "C22",
   "status": "partial",
   "theorems": [
    "C22_refuted",
    "C22_optimize_partial",
    "C22_below_labels",
    "C22_exact",
    "C22_dead_code_pass",
    "C22_redundant_branch_pass"
   ],
   "note": "false as stated: Optimize deletes every retsub that is not directly below a used label. Proved for programs whose executed retsubs are, or lead on to such a retsub; C22_exact shows that no other program that executes retsub in subroutines only is preserved; the two later passes are proved for every program with unique labels."
  },
  {
   "property": "C23",
   "status": "proved",
   "theorems": [
    "C23_optimize_only_deletes",
    "C23_named_labels_survive"
   ],
   "note": ""
  },
  {
   "property": "C24",
   "status": "partial",
   "theorems": [
    "C24_refuted",
    "C24_no_redundant_branch_partial",
    "C24_fixpoint_partial",
    "C24_repeat_partial"
   ],
   "note": "false as stated (single round of passes); the redundant-branch part holds for every program. Exact: which programs Optimize leaves alone; and repeating it as often as the program is long always ends in such a program"
  },
  {
   "property": "C25",
   "status": "partial",
   "theorems": [
    "C25_compile_flattens",
    "C25_compile_panics_exactly",
    "C25_nested_program_refuted"
   ],
   "note": "holds for nesting by lists; a nested Program value is not flattened"
  },
  {
   "property": "C26",
   "status": "proved",
   "theorems": [
    "C26_encode_lossless",
    "C26_encode_total",
    "C26_encode_size",
    "C26_encode_determined"
   ],
   "note": ""
  },
  {
   "property": "C27",
   "status": "proved",
   "theorems": [
    "C27_symmetric",
    "C27_single_line",
    "C27_sound",
    "C27_multi_line_refuted"
   ],
   "note": "for ranges over several lines only the positive answer is right"
  },
  {
   "property": "C28",
   "status": "partial",
   "theorems": [
    "C28_refuted",
    "C28_run_terminates_partial",
    "C28_step_exact",
    "C28_exact"
   ],
   "note": "false as stated: dupn 255 loops forever. Proved for every program without dupn 255; exact: a run does not end if and only if it comes to a dupn 255 that a branch can pay for and has a value for."
  },
  {
   "property": "C29",
   "status": "proved",
   "theorems": [
    "C29_budget",
    "C29_price_determined"
   ],
   "note": ""
  },
  {
   "property": "C30",
   "status": "proved",
   "theorems": [
    "C30_ids_unique"
   ],
   "note": ""
  },
  {
   "property": "C31",
   "status": "proved",
   "theorems": [
    "C31_independent"
   ],
   "note": "branches share the scratch space, see C58"
  },
  {
   "property": "C32",
   "status": "partial",
   "theorems": [
    "C32_no_branch_sound",
    "C32_refuted",
    "C32_no_branch_complete_partial",
    "C32_exact"
   ],
   "note": "only-if holds; if fails exactly when the branch whose turn it was cannot pay for its instruction"
  },
  {
   "property": "C33",
   "status": "partial",
   "theorems": [
    "C33_refuted",
    "C33_verified_partial",
    "C33_reported",
    "C33_run_stops"
   ],
   "note": "a negative line crashes SetBreakpoints; proved for all non-negative lines"
  },
  {
   "property": "C34",
   "status": "proved",
   "theorems": [
    "C34_same_end",
    "C34_continue_ends"
   ],
   "note": "continue_ends needs a program without dupn 255 (C28)"
  },
  {
   "property": "C35",
   "status": "proved",
   "theorems": [
    "C35_failures_contained",
    "C35_failure_reported",
    "C35_failure_stops"
   ],
   "note": ""
  },
  {
   "property": "C36",
   "status": "partial",
   "theorems": [
    "C36_jump_successors",
    "C36_successors_determined",
    "C36_frames_kept",
    "C36_retsub_returns_partial",
    "C36_refuted"
   ],
   "note": "false for retsub on a branch forked inside the subroutine; everything else proved"
  },
  {
   "property": "C37",
   "status": "partial",
   "theorems": [
    "C37_stack_ops_partial",
    "C37_dup2_refuted",
    "C37_bury_refuted",
    "C37_dig_refuted"
   ],
   "note": "dup2, bury and dig on stacks deeper than 256 are wrong; the rest is proved (select is abstracted by the code)"
  },
  {
   "property": "C38",
   "status": "partial",
   "theorems": [
    "C38_effect_sizes_partial",
    "C38_refuted"
   ],
   "note": "five instructions have no Execute method; all others proved"
  },
  {
   "property": "C39",
   "status": "partial",
   "theorems": [
    "C39_refuted",
    "C39_partial",
    "C39_query",
    "C39_unopened"
   ],
   "note": "false only for diagnostic requests: they are answered even for documents that are not open"
  },
  {
   "property": "C40",
   "status": "proved",
   "theorems": [
    "C40",
    "C40_dead",
    "C40_silent"
   ],
   "note": "document notifications are still accepted after shutdown; they write nothing"
  },
  {
   "property": "C41",
   "status": "partial",
   "theorems": [
    "C41_refuted",
    "C41_at_most_one",
    "C41_notification",
    "C41_partial"
   ],
   "note": "executed commands, unknown methods and requests about unopened documents are never answered; at most one response, with the right id, in all cases"
  },
  {
   "property": "C42",
   "status": "proved",
   "theorems": [
    "C42"
   ],
   "note": ""
  },
  {
   "property": "C43",
   "status": "partial",
   "theorems": [
    "C43_refuted",
    "C43_partial",
    "C43_elsewhere",
    "C43_prepare",
    "C43_prepare_elsewhere"
   ],
   "note": "between two touching quoted references every edit is sent twice. Proved for documents whose references are not quoted, whose strings do not run over a line end, and for new names that are one word: edits are exactly the occurrences, disjoint, cover exactly the name, and the edited document has the renamed program"
  },
  {
   "property": "C44",
   "status": "partial",
   "theorems": [
    "C44_refuted",
    "C44_partial"
   ],
   "note": "a quoted operand may touch the next one; at that boundary only the first is looked up. Proved for documents whose references are not quoted"
  },
  {
   "property": "C45",
   "status": "proved",
   "theorems": [
    "C45_split_lines",
    "C45_total"
   ],
   "note": ""
  },
  {
   "property": "C46",
   "status": "partial",
   "theorems": [
    "C46_refuted",
    "C46_sign_refuted",
    "C46_partial"
   ],
   "note": "the hint ignores the program version and is offered for signed numerals; proved for the remaining hints"
  },
  {
   "property": "C47",
   "status": "partial",
   "theorems": [
    "C47_refuted",
    "C47_int_refuted",
    "C47_partial"
   ],
   "note": "backslashes are not escaped and the hint is offered for operands that are not byte constants; proved for the remaining hints"
  },
  {
   "property": "C48",
   "status": "partial",
   "theorems": [
    "C48_refuted",
    "C48_line_refuted",
    "C48_partial",
    "C48_exact_partial"
   ],
   "note": "negative lines and hovering over a negative numeral panic; proved otherwise. C48_exact_partial: these are exactly the requests that fail"
  },
  {
   "property": "C49",
   "status": "proved",
   "theorems": [
    "C49_numbered"
   ],
   "note": "Numbers of all messages for every history, and the responses carry number and command of a subsequence of the requests."
  },
  {
   "property": "C50",
   "status": "proved",
   "theorems": [
    "C50_scopes",
    "C50_distinct"
   ],
   "note": "For every reached session, every branch and every scope: the reply shows exactly the data of that scope of that branch."
  },
  {
   "property": "C51",
   "status": "partial",
   "theorems": [
    "C51_refuted",
    "C51_crashes",
    "C51_answers"
   ],
   "note": "Refuted: pause before launch crashes. Proved instead: the exact list of crashing requests (deadly), and that no request hangs unless the program has dupn 255."
  },
  {
   "property": "C52",
   "status": "partial",
   "theorems": [
    "C52_refuted",
    "C52_partial"
   ],
   "note": "Refuted before launch (empty reply). Proved for a launched program and lines not before the first one."
  },
  {
   "property": "C53",
   "status": "partial",
   "theorems": [
    "C53_refuted",
    "C53_partial"
   ],
   "note": "Refuted: the total is always 1. The frames themselves are proved to be the call chain."
  },
  {
   "property": "C54",
   "status": "partial",
   "theorems": [
    "C54_literal_accepts",
    "C54_needs_quotes_partial",
    "C54_no_panic_partial",
    "C54_round_trip",
    "C54_meaning_determined",
    "C54_refuted"
   ],
   "note": "a lone quote is accepted and the empty text crashes; everything else proved"
  },
  {
   "property": "C55",
   "status": "partial",
   "theorems": [
    "C55_uint8",
    "C55_int8",
    "C55_refuted",
    "C55_pragma_partial",
    "C55_gitxna_refuted"
   ],
   "note": "immediates proved; the version of a pragma and the group index of gitxna are kept modulo 256"
  },
  {
   "property": "C56",
   "status": "partial",
   "theorems": [
    "C56_refuted",
    "C56_named_partial",
    "C56_itxn",
    "C56_txna_partial",
    "C56_printed"
   ],
   "note": "array fields (txna and relatives) are not gated by version; everything else proved against the published tables"
  },
  {
   "property": "C57",
   "status": "partial",
   "theorems": [
    "C57_refuted",
    "C57_partial",
    "C57_ends",
    "C57_level"
   ],
   "note": "Refuted: the artifact index is the index of the diagnostic. Uri, line, column, rule and level are proved right."
  },
  {
   "property": "C58",
   "status": "partial",
   "theorems": [
    "C58_refuted",
    "C58_only_stores_write_partial",
    "C58_store_writes_partial"
   ],
   "note": "false as stated: the scratch space is shared by all branches"
  },
  {
   "property": "C59",
   "status": "partial",
   "theorems": [
    "C59_refuted",
    "C59_retsub_partial"
   ],
   "note": "false as stated: locals of the subroutine are not removed; holds when the results stand directly on the arguments"
  },
  {
   "property": "C60",
   "status": "partial",
   "theorems": [
    "C60_effect_types_partial",
    "C60_field_types",
    "C60_refuted",
    "C60_pushints_refuted"
   ],
   "note": "bitlen, getbit, setbit, app_opted_in and pushints deviate; proved for the others"
  },
  {
   "property": "C61",
   "status": "partial",
   "theorems": [
    "C61_tokens_on_lines_partial",
    "C61_refuted"
   ],
   "note": "false when a quoted string contains a line end; proved otherwise"
  },
  {
   "property": "C62",
   "status": "partial",
   "theorems": [
    "C62_refuted",
    "C62_partial"
   ],
   "note": "Refuted for unknown commands, unreadable programs and bad arguments. Exact: the answered requests are the understood ones."
  },
  {
   "property": "C63",
   "status": "proved",
   "theorems": [
    "C63_stops",
    "C63_only_then"
   ],
   "note": "Requests that crash the adapter or never end are excluded; C51 characterises them."
  },
  {
   "property": "C64",
   "status": "proved",
   "theorems": [
    "C64_threads"
   ],
   "note": ""
  },
  {
   "property": "C65",
   "status": "proved",
   "theorems": [
    "C65",
    "C65_unique"
   ],
   "note": "Between two touching quoted operands two names are at the cursor; one of them is highlighted."
  },
  {
   "property": "C66",
   "status": "proved",
   "theorems": [
    "C66"
   ],
   "note": ""
  },
  {
   "property": "C67",
   "status": "partial",
   "theorems": [
    "C67_refuted",
    "C67_array_refuted",
    "C67_sound_partial",
    "C67_complete_partial"
   ],
   "note": "Refuted: the version at the end of the document decides, and array fields are offered by version although the parser accepts them in every version. Proved for lines with the version of the document."
  },
  {
   "property": "C68",
   "status": "partial",
   "theorems": [
    "C68_refuted",
    "C68_partial",
    "C68_elsewhere"
   ],
   "note": "Refuted in the gap in front of an operand. Proved on operands and behind the last one."
  },
  {
   "property": "C69",
   "status": "partial",
   "theorems": [
    "C69_refuted",
    "C69_ec_refuted",
    "C69_opcode_partial",
    "C69_field_partial"
   ],
   "note": "Refuted on comments that read like an opcode and for the curves of the ec opcodes. Exact otherwise."
  },
  {
   "property": "C70",
   "status": "partial",
   "theorems": [
    "C70_refuted",
    "C70_offered_partial",
    "C70_partial"
   ],
   "note": "Refuted: the mode is ignored (opcodes that applications do not have are offered), and two snippets are always offered. Exact for the remaining ones."
  },
  {
   "property": "C71",
   "status": "partial",
   "theorems": [
    "C71_refuted",
    "C71_surplus_refuted",
    "C71_partial",
    "C71_line_partial",
    "C71_command"
   ],
   "note": "Refuted when a string runs over a line end or a line has surplus operands: another line is removed. Duplicate labels: C18_duplicate_labels_refuted. Proved otherwise, with the exact program after the edit; with a lone CR an empty line may vanish too."
  },
  {
   "property": "C72",
   "status": "partial",
   "theorems": [
    "C72_refuted",
    "C72_open_refuted",
    "C72_partial",
    "C72_offered",
    "C72_command"
   ],
   "note": "Refuted for quoted operands, and in documents with open or multi-line strings. Proved otherwise, for documents without surplus operands."
  },
  {
   "property": "C73",
   "status": "partial",
   "theorems": [
    "C73_refuted",
    "C73_partial",
    "C73_command"
   ],
   "note": "Refuted for several pragmas with opcodes in between. Proved when the pragmas come first. The edited document is assumed to be processed without panic."
  },
  {
   "property": "C74",
   "status": "partial",
   "theorems": [
    "C74_refuted",
    "C74_partial"
   ],
   "note": "Refuted: blanks on a last line without tokens remain. Exact otherwise. The formatter is a parameter (an external package)."
  },
  {
   "property": "C75",
   "status": "partial",
   "theorems": [
    "C75_refuted",
    "C75_partial"
   ],
   "note": "Refuted for ranges over several lines: an operand is left out if its column is behind the last column of the range. Every hint sent is proved right for all ranges; completeness for ranges within a line."
  },
  {
   "property": "C76",
   "status": "partial",
   "theorems": [
    "C76_refuted",
    "C76_partial"
   ],
   "note": "Refuted for ranges over several lines (same cause as C75). Every fix offered is proved to apply for all ranges; completeness for ranges within a line."
  },
  {
   "property": "C77",
   "status": "partial",
   "theorems": [
    "C77_refuted",
    "C77_partial",
    "C77_twice",
    "C77_line",
    "C77_whole_line",
    "C77_wire"
   ],
   "note": "Refuted: the numbers of intcblock and pushints are sent twice. All else is proved for all documents: which tokens, in which role and place, apart, and once outside those lists; C77_twice gives the exact list with the repetitions."
  },
  {
   "property": "C78",
   "status": "partial",
   "theorems": [
    "C78_refuted",
    "C78_partial",
    "C78_unique",
    "C78_inserted",
    "C78_types"
   ],
   "note": "Refuted: the long signature opens a bracket for every optional argument and closes none. The short signature and the inserted text are proved for every opcode, the long one up to those brackets."
  },
  {
   "property": "C79",
   "status": "partial",
   "theorems": [
    "C79_refuted",
    "C79_crash",
    "C79_partial",
    "C79_unique",
    "C79_ends",
    "C79_served",
    "C79_sent",
    "C79_debugged",
    "C79_debug_sent"
   ],
   "note": "Refuted: a negative or too large Content-Length crashes both servers. Proved otherwise for all streams of messages and junk lines or headers, up to 2^48 bytes of content; what is sent is proved for all inputs. net/textproto is modelled after the Go library."
  },
  {
   "property": "C80",
   "status": "proved",
   "theorems": [
    "C80_note",
    "C80_refused",
    "C80_args",
    "C80_built_in"
   ],
   "note": "The arguments shown are proved for the notes whose immediates are encodings, which all built-in ones are."
  },
  {
   "property": "C81",
   "status": "partial",
   "theorems": [
    "C81_refuted",
    "C81_known",
    "C81_partial",
    "C81_unique",
    "C81_optional",
    "C81_fields"
   ],
   "note": "Refuted: gitxna reads its group index as a number of 64 bits, and txn, gtxn and gtxns take one operand more. Proved for all other opcodes; what those with optional operands read is given."
  },
  {
   "property": "C82",
   "status": "partial",
   "theorems": [
    "C82_pushints_refuted",
    "C82_load_refuted",
    "C82_branch_in_subroutine_refuted",
    "C82_partial"
   ],
   "note": "Refuted: pushints pushes values typed as bytes, an unwritten slot is shown without a value, and a branch that jumps in a subroutine loses the pending calls. Proved for all executions without the instructions and states with a known defect (C36, C37, C38, C58, C59, C60), which the definition followed lists."
  },
  {
   "property": "C83",
   "status": "partial",
   "theorems": [
    "C83_json_key_refuted",
    "C83_json_rounding_refuted",
    "C83_partial",
    "C83_json_partial",
    "C83_curves",
    "C83_any_operand"
   ],
   "note": "Refuted: json_ref is charged by the length of the key instead of the object, and rounded wrongly. Proved for all other opcodes, and for json_ref when key and object are equally long and at most three bytes over a multiple of seven."
  },
  {
   "property": "C84",
   "status": "partial",
   "theorems": [
    "C84_refuted",
    "C84_partial",
    "C84_below_labels",
    "C84_dead_code_pass",
    "C84_redundant_branch_pass",
    "C84_assembles"
   ],
   "note": "Refuted: a program that is always rejected becomes one that is always approved, because the retsub of its subroutine is deleted. Proved for programs whose reachable retsubs stand directly below used labels or lead on to such a retsub, and for the two later passes for every program."
  },
  {
   "property": "C85",
   "status": "proved",
   "theorems": [
    "C85",
    "C85_determined",
    "C85_clean"
   ],
   "note": "The errors about the form of a line, for every processed text. The version and mode messages are C11; a text with too many operands on a line can make Process panic (C07)."
  },
  {
   "property": "C86",
   "status": "proved",
   "theorems": [
    "C86",
    "C86_one_name",
    "C86_ended_partial",
    "C86_ended_refuted"
   ],
   "note": "For every branch that is still in the program. A branch that has ended is called (exited) unless it jumped to a missing label: that one keeps its name."
  },
  {
   "property": "C87",
   "status": "proved",
   "theorems": [
    "C87",
    "C87_operand",
    "C87_determined",
    "C87_blocks"
   ],
   "note": "The grammar of numbers and the published names are stated in IntSpec.v without the functions of the model. Besides the published names the long names of the transaction types are accepted."
  },
  {
   "property": "C88",
   "status": "partial",
   "theorems": [
    "C88_refuted",
    "C88",
    "C88_partial",
    "C88_hex",
    "C88_base64",
    "C88_base32",
    "C88_base32_refuted",
    "C88_base32_partial",
    "C88_blocks"
   ],
   "note": "Every constant is read as what it denotes. Refuted: what is behind the parenthesis is ignored, and base32 texts of impossible lengths are accepted. Proved for operands without these two defects."
  },
  {
   "property": "C89",
   "status": "proved",
   "theorems": [
    "C89",
    "C89_clean",
    "C89_labels",
    "C89_severity",
    "C89_server"
   ],
   "note": "In d (r_diag r) exactly if d is reported by an inductive definition over the text, its lines and the program; what a document without diagnostics is; the answer of the server about it."
  },
  {
   "property": "C90",
   "status": "partial",
   "theorems": [
    "C90_refuted",
    "C90",
    "C90_partial",
    "C90_signature",
    "C90_signature_refuted",
    "C90_signature_partial"
   ],
   "note": "Refuted: comments about other instructions are taken for the label, and a proto anywhere before the next label for its signature. Proved: exactly which comments and which proto are used, and the property where no others are near."
  },
  {
   "property": "C91",
   "status": "partial",
   "theorems": [
    "C91_refuted",
    "C91_client_refuted",
    "C91",
    "C91_survives",
    "C91_partial"
   ],
   "note": "Refuted by messages without parameters, changes without text, texts whose analysis panics, negative lines and hovers over negative numbers. Proved: exactly these sessions crash, all others are served, and those whose messages are all in order are among them."
  },
  {
   "property": "C92",
   "status": "partial",
   "theorems": [
    "C92_refuted",
    "C92_link_refuted",
    "C92",
    "C92_partial",
    "C92_ordinary",
    "C92_file",
    "C92_report",
    "C92_unreadable",
    "C92_uri"
   ],
   "note": "Refuted by directories that cannot be listed, which are left out silently, and by an argument that is a symbolic link to a directory, of which nothing is scanned. Proved: exactly the listed .teal files are scanned, in order and once, all of them when every directory can be listed; uris are well formed and determine the path."
  },
  {
   "property": "C93",
   "status": "partial",
   "theorems": [
    "C93_refuted",
    "C93",
    "C93_breakpoints",
    "C93_loop",
    "C93_partial"
   ],
   "note": "Refuted: a branch forked inside a subroutine forgets the pending calls and walks past the retsub to lines no run reaches. Proved: never on a line reported as unreachable, no stop at breakpoints there, reported loops are never left, and every visited line is reachable when nothing returns from subroutines."
  },
  {
   "property": "C94",
   "status": "partial",
   "theorems": [
    "C94_refuted",
    "C94_partial",
    "C94_lists",
    "C94_read_back",
    "C94_blocks",
    "C94_variables",
    "C94_strings"
   ],
   "note": "Refuted: Cover builds uncover, ExtractUint64 is misspelt, every block panics in Compile, strings with a quote or backslash are not kept. Proved: every other builder and variable prints what it is named after, lists of any depth compile to their content and read back, Compile panics exactly on blocks, strings are kept exactly when they have neither quote nor backslash."
  },
  {
   "property": "C95",
   "status": "partial",
   "theorems": [
    "C95_refuted",
    "C95_ends_refuted",
    "C95_command",
    "C95_partial"
   ],
   "note": "Refuted: in x: err the removal of x leaves the instruction err, which was not read before; a label between a lone carriage return and a line feed takes a line with it. Proved: the command sends exactly the deletion of the tokens defining the label; when only comments follow the label and no line ends in a lone carriage return, the listing, symbols and references are the old ones without the label."
  },
  {
   "property": "C96",
   "status": "proved",
   "theorems": [
    "C96_origin",
    "C96_constants",
    "C96_dear"
   ],
   "note": "For every reachable machine, a held value is made by executed lines of the listing; an instruction dearer than 700 is never executed."
  },
  {
   "property": "C97",
   "status": "proved",
   "theorems": [
    "C97_text_tells_value"
   ],
   "note": "Texts are injective on the values held in sessions with processed documents. The exact texts are fixed by C97_texts."
  },
  {
   "property": "C98",
   "status": "partial",
   "theorems": [
    "C98_refuted",
    "C98_settings",
    "C98_announced",
    "C98_lenses_off",
    "C98_hints_off"
   ],
   "note": "Refuted: code lenses are announced and semantic tokens are sent although they are off. Proved: the settings are exactly the last words of the client before shutdown, the announcements follow them for tokens and hints, and lenses and hints that are off are not sent."
  },
  {
   "property": "C99",
   "status": "proved",
   "theorems": [
    "C99",
    "C99_told_apart",
    "C99_all",
    "C99_labels"
   ],
   "note": "Every text is compared with an independent list of claims; the texts about a wrong operand, which quote the error of a library, are not modelled."
  }
 ]
}