# Formal model of markflow in Rocq (Coq 8.16.1)

## What this is

`rocq/theories` holds an executable model of markflow's Python code, written function by
function, and theorems about it. Every definition of the model names the file and lines
it stands for. `properties.jsonl` lists the properties in English, `MANIFEST.json` says
which theorem belongs to which property, and `seeded/LOG.jsonl` records how the theorems
react to wrong programs.

## Trusted base

* Coq's kernel (8.16.1).
* `rocq/theories/Assumptions.v` runs `Print Assumptions` on every theorem of the
  manifest. Each of the 236 answers is "Closed under the global context": no axiom is
  used, not even one of the standard library.
* Loading the standard library also loads `Coq.ssr.ssrunder`, whose `Under_rel` module
  has seven axioms (`Under_rel`, `Under_rel_from_rel`, `Under_relE`, `Over_rel`,
  `over_rel`, `over_rel_done`, `under_rel_done`). They appear when the whole context of a
  compiled file is listed (`coqchk -o`). No theorem depends on them.
* The reading of the Python code that led to the model, and of the parts of Python's
  library it relies on (below). The code cannot be run here; `Tests.v` runs the
  repository's own test vectors through the model with `vm_compute`.
* No axioms, admitted proofs, functors, module types or plugins of our own.

## The model

| File | Models |
| --- | --- |
| `Py.v` | Python's string methods, exceptions as values (`res`), widths |
| `Regex.v` | a backtracking matcher for the shape of regular expressions the code uses |
| `Utils.v` | `_utils/_utils.py` |
| `TextWrap.v` | `_utils/textwrap.py` |
| `Lines.v` | `detectors/_lines.py` |
| `Detectors.v` | `detectors/*.py` and `parser.py` |
| `Formatters.v` | `formatters/*.py` and `reformat_markdown.py` |
| `Logging.v` | the logging configuration changed by `reformat_markdown.py` and `_utils.py` |
| `Records.v` | the log records of `reformat_markdown.py` and `formatters/atx_heading.py`, and which are shown |
| `Notices.v` | the log records of `detectors/fenced_code_block.py`, `detectors/link_reference_definition.py` and `parser.py` |
| `Cli.v` | `__main__.py` and `_argparse.py` over a file-system map |
| `RunLog.v` | the log records of `__main__.py`, and those of a whole run |
| `Glob.v` | `glob.glob` as `_argparse.py` uses it, with `fnmatch`, over a file system whose directories are listed (after Python 3.8; the other modules take any function instead) |
| `Version.v` | `get_version` of `__main__.py`, and the start of a run |
| `Tests.v` | the repository's test vectors (tests, not proofs) |

How Python is represented:

* A string is a list of code points. `is_space` and `is_linebreak` are the exact sets of
  `str.isspace` and `str.splitlines`; so tabs, no-break spaces, `\x0b`, `\x85`, `\u2028`
  and the like are covered.
* An exception is a value `Err e`. `Redirected e` marks an exception that left a
  `redirect_info_logs_to_debug` block; `exn_base` forgets the mark.
* Recursion: `lim` is the interpreter's recursion limit, counted in nested calls of the
  functions that recurse through nested texts. Running out gives `RecursionError`.
  Theorems hold for every `lim`. `OutOfFuel` belongs to loops whose number of iterations
  is bounded by the number of lines; C08 and C06 prove that it never occurs.
* A width is an `int`, `math.inf` or a finite float (as an exact rational).
* A file system is a map from paths to nodes. A run is a list of elementary effects, so
  that a crash is a prefix of that list.

Simplifications:

* The three parallel lists of `textwrap.py` are one list of triples.
* In `Formatters.v` logging calls have no effect except that `repr(formatter)` is evaluated
  (`repr_check`), as `reformat_markdown.py:57` does. `Records.v` follows the same calls and
  collects the records; that it computes the same results is proved (`C75_result`).
* Python 3.7 or later is assumed: PEP 479 turns a `StopIteration` inside the generator
  of `_reformat_markdown_text` into a `RuntimeError`.
* The limit of newer Python versions on the number of digits `int()` accepts is not
  modelled, nor are NaN and negative infinity as widths.

Not modelled: argparse's tokenising of the command line and its help texts,
rich's rendering of messages, text encodings and decoding errors,
symbolic and hard links, other processes changing files at the same time, memory limits and the packaging.

## The specifications

`Spec*.v` define the vocabulary of the theorems without the model's helpers: what a
heading, a fence, a quote, a table row is (`SpecLines.v`, `SpecParser.v`), greedy filling
and inline code (`SpecWrap.v`), inline links (`SpecInline.v`), tables (`SpecTable.v`), lists (`SpecList.v`), quotes
(`SpecQuote.v`), definitions (`SpecDefinition.v`), documents (`SpecDocument.v`,
`SpecFormat.v`), nesting (`SpecLimit.v`), reasons for failures (`SpecErrors.v`), letters (`SpecLetters.v`), widths (`SpecWidth.v`), messages (`SpecRecords.v`, `SpecNotices.v`, `SpecRunLog.v`), directories (`SpecGlob.v`), runs
of the command (`SpecCli.v`) and versions (`SpecVersion.v`). `Base.v` and `Proofs*.v` hold lemmas, `Props*.v` the
theorems. Beside each theorem an `Example` shows a concrete case that meets its
hypotheses.

Where a property is false the theorem ending in `_refuted` gives a counterexample and
another, usually ending in `_partial`, proves it for as many inputs as we could.

## Properties

| Id | Title | Status | Theorems in | Proof |
| --- | --- | --- | --- | --- |
| C01 | Returned text is a self-consistent first pass, and inconsistency is always reported | proved | `PropsApi.v` | Unfold `reformat_markdown_text`; both directions. |
| C02 | Result ends with exactly one newline and no other trailing whitespace | proved | `PropsApi.v` | Unfold, facts on `rstrip`. |
| C03 | Idempotence: reformatting a reformatted document changes nothing | partial | `PropsApi.v`, `PropsLocal.v` | Unfold; the trimmed text is a fixed point if there was nothing to trim. |
| C04 | Only newline characters separate lines of the output | proved | `PropsChars.v` | Set of characters pushed through every splitter and formatter. |
| C05 | No invented characters | proved | `PropsChars.v` | Set of characters pushed through every splitter and formatter. |
| C06 | Formatting succeeds on every document | partial | `PropsErrors.v` | Inversion of every failing call; induction over the nesting. |
| C07 | Parsing is lossless | proved | `PropsParser.v` | Induction over the lines for every splitter, then over the parser's loop. |
| C08 | Every line belongs to some section type | proved | `PropsParser.v` | Every line is accepted by some splitter; induction. |
| C09 | Parsing and formatting terminate | proved | `PropsLimit.v` | Approximation order between results at different limits; well-founded order on nested texts. |
| C10 | Section types mean what they say | proved | `PropsParser.v` | Specification of each line test, induction for each splitter. |
| C11 | Splitters are mutually exclusive | partial | `PropsParser.v` | Case analysis over all 66 pairs. |
| C12 | Fenced code blocks end at the first closing fence | proved | `PropsParser.v` | Induction over the lines. |
| C13 | Table and list sections are maximal runs | proved | `PropsParser.v` | Induction over the lines. |
| C14 | Block quote sections contain only quote lines and lazy continuation lines | proved | `PropsParser.v` | Induction over the loops of the quote splitter. |
| C15 | Code blocks keep their content | partial | `PropsLeaf.v` | Characterise the formatter, parse its output again. |
| C16 | Indented code keeps its lines and indentation | proved | `PropsLeaf.v` | Characterise the formatter, parse its output again. |
| C17 | ATX headings keep level and text | proved | `PropsLeaf.v` | Characterise the formatter, parse its output again. |
| C18 | Setext headings keep level and are underlined to the heading's length | proved | `PropsWrap.v` | Characterise the formatter with the specification of `wrap`. |
| C19 | Thematic breaks fill the width and stay thematic breaks | partial | `PropsLeaf.v` | Characterise the formatter, parse its output again. |
| C20 | Wrapped lines fit the width | proved | `PropsWrap.v` | Invariants of the four splitting functions (where each piece stands in the text, `solid`) and of `join`. |
| C21 | Wrapping is greedy | proved | `PropsWrap.v` | Invariant of `join`; `filled` is the specification of greedy filling. |
| C22 | Wrapping keeps the text | partial | `PropsWrap.v`, `PropsStable.v` | Invariants of the four token passes. |
| C23 | Wrapping does not separate what was not separated | partial | `PropsWrap.v` | Every character of the text and of the output is marked with what stands before it (nothing, whitespace, whitespace with a line break); each token pass and the filling of lines relate the marks. With links: a match of the link patterns ends before whitespace or an opening bracket and begins after whitespace or a closing one (the matcher is greedy and takes the leftmost match). |
| C24 | Inline code stays on one line | proved | `PropsWrap.v` | The tokens of `code_split` follow the specification of inline code. |
| C25 | Plain text paragraphs are filled, stable and lossless end to end | proved | `PropsDocument.v` | Whole function on plain paragraphs: parse, wrap, parse, wrap. |
| C26 | List entries partition the list | partial | `PropsList.v` | Invariant of the loop of `_split_list`. |
| C27 | Dedenting removes only the marker and indentation | proved | `PropsList.v` | Characterise `_dedent_entries`. |
| C28 | Ordered lists are renumbered consecutively | proved | `PropsList.v` | Characterise the formatter over the nested pass. |
| C29 | Bullet lists use one bullet | proved | `PropsList.v` | Characterise the formatter over the nested pass. |
| C30 | Block quote output is quoted line by line | proved | `PropsQuote.v` | Characterise the formatter over the nested pass. |
| C31 | Block quotes respect the width | partial | `PropsQuote.v` | Paragraph theorem applied to the nested pass. |
| C32 | Table output is rectangular | partial | `PropsTable.v` | Lengths of padded cells. |
| C33 | Tables keep their cells | partial | `PropsTable.v` | Split the output again. |
| C34 | Table alignment is preserved | proved | `PropsTable.v` | Read the divider row again. |
| C35 | Ragged tables are rejected with the right line number | partial | `PropsTable.v` | Induction over the rows and over the sections before the table. |
| C36 | Link reference definitions keep label, link and title | partial | `PropsDefinition.v` | Case analysis over the formatter with the specification of `wrap`. |
| C37 | Link reference definitions are recognised wherever they stand | partial | `PropsDefinition.v` | Specification of the closing quote; induction over the lines. |
| C38 | A setext heading directly after a block quote is separated by a blank line | proved | `PropsLeaf.v` | Induction over the sections. |
| C39 | Blank lines are emptied and kept | proved | `PropsLeaf.v` | Induction over the sections. |
| C40 | Structured documents are fixed points | proved | `PropsDocument.v` | Grammar of documents; parse and format each section, then sequences of them. |
| C41 | --check modifies nothing | partial | `PropsCli.v` | Effects of a run. |
| C42 | --check exit status | proved | `PropsCli.v` | Induction over the files. |
| C43 | In-place runs write exactly the reformatted text to exactly the named files | proved | `PropsCli.v` | Induction over the files. |
| C44 | A failing file stops the run, earlier files stay reformatted, later files are untouched | partial | `PropsCli.v` | Induction over the files. |
| C45 | Crash safety of in-place rewriting | partial | `PropsCli.v` | Every prefix of the effects. |
| C46 | Separate outputs get every input's text | partial | `PropsCli.v`, `PropsRuns.v` | Induction over the files. |
| C47 | Line length below one means infinite width | proved | `PropsCli.v` | Unfold. |
| C48 | Verbosity is clamped | proved | `PropsCli.v` | Arithmetic. |
| C49 | Standard input mode prints the result and touches no file | proved | `PropsCli.v` | Unfold. |
| C50 | Files with CRLF newlines are normalised | partial | `PropsChars.v` | Universal newlines and C04. |
| C51 | Bad argument combinations are rejected before any file is touched | proved | `PropsCli.v` | Unfold. |
| C52 | Logging configuration is restored | partial | `PropsApi.v` | State machine of the logging configuration. |
| C53 | Truncation never exceeds its length | proved | `PropsApi.v` | Arithmetic. |
| C54 | Render files are named after the output file | proved | `PropsCli.v`, `PropsRuns.v` | Effects of a run. |
| C55 | Named paths are never ignored | partial | `PropsCli.v` | Unfold. |
| C56 | The summary counts are right | proved | `PropsCli.v` | Induction over the files. |
| C57 | Lines without a marker continue only quoted paragraphs | partial | `PropsLazy.v` | Invariant of the loop of the quote splitter; results at different limits agree. |
| C58 | Parts separated by a blank line are formatted independently | proved | `PropsLocal.v` | Every splitter finds the same section with the blank line and more text appended; induction over the sections. |
| C59 | Where a paragraph ends | proved | `PropsParagraph.v` | The paragraph splitter stops at the first line of these kinds; the other splitters leave such a line to it. |
| C60 | Hard line breaks are kept | partial | `PropsParagraph.v` | Invariant of the wrapping: no line ends in a blank; the break is appended after wrapping. |
| C61 | Exactly the valid invocations are carried out | proved | `PropsRuns.v` | Case analysis of the validation. |
| C62 | A second run finds nothing to do | partial | `PropsRuns.v` | C43, C03 and C63. |
| C63 | --check tells what the run does | proved | `PropsRuns.v` | Induction over the files with the state of the file system. |
| C64 | Exit status of the process | proved | `PropsRuns.v` | C63 and the same induction up to the failing file. |
| C65 | Wrapped lines are not indented | proved | `PropsParagraph.v` | Invariant of the wrapping: every piece of text is empty or begins in ink. |
| C66 | Nested documents | proved | `PropsNested.v` | Grammar of nested documents, indexed by what they say; induction over the depth, with the parser and formatter lemmas of C40 for the sections. |
| C67 | Line endings of the input do not matter | proved | `PropsNewlines.v` | Relation of texts with the same lines; simulation of two runs. |
| C68 | Wrapping wrapped text changes nothing | partial | `PropsStable.v` | Reading of the code spans as a relation that determines the tokens; a line break put between two tokens keeps the reading, and the tokens are joined into the same lines. With links: a relation of the tokens of the wrapped text to those of the text, which are joined into the same lines. |
| C69 | Words, inline code and links survive wrapping | proved | `PropsProse.v` | Inductive grammar of prose; the passes of the splitter find its pieces, and find them again in the lines made of them. |
| C70 | The output is determined by what the document says | proved | `PropsRender.v` | Each splitter and formatter of C66 returns the lines of SpecRender; induction over the nesting. |
| C71 | The width of earlier formatting is forgotten | proved | `PropsRender.v` | C70 and the grammar of C66, which depends on the width only through thematic breaks. |
| C72 | The version, and starting without one | proved | `PropsVersion.v` | What a match of the regular expressions means; induction over the lines and folders. |
| C73 | Letters survive | partial | `PropsLetters.v` | The filter commutes with splitting, wrapping, indenting and joining; induction over the nesting. |
| C74 | Lines keep to the width | partial | `PropsWidth.v` | Induction over the nesting: each formatter's lines are located in the text they come from, with the width that is left. |
| C75 | Verbose output lists every section once | proved | `PropsRecords.v` | A model of the records beside that of the results; the levels of nested and repeated records by induction over the nesting, the list of messages by induction over the sections. |
| C76 | Corrections are announced | partial | `PropsRecords.v` | Induction over the nesting; which warnings there are is a relation defined from the parsed sections. |
| C77 | The parser's messages are right | partial | `PropsNotices.v` | Every splitter with records: its result is that without records, and its warnings have a reason in the text before and after it, by induction; refuted by a fence after a paragraph. |
| C78 | No false alarms | proved | `PropsNotices.v` | From C77: the lines the parser reads are, but for quote markers, ends of lines of the document. |
| C79 | Runs are quiet by default | proved | `PropsRunLog.v` | Invariants of the logging configuration along a run: logging.INFO is at most INFO, and levels above WARNING stay above it. |
| C80 | A run reports on each file as if it were alone | proved | `PropsRunLog.v` | Induction over the files; a successful call restores the levels (C52), and no file is changed before it is read. |
| C81 | A directory stands for the Markdown files below it | partial | `PropsGlob.v` | Induction over the depth of the tree; a run by C43. Refuted by examples. |

What is proved and what is missing:

* C03: False in general: the final trimming can change how the last section parses (a link reference definition at the end of the file, an empty numbered entry directly after a quote). Proved whenever the formatted text has nothing to trim, and when only blank lines are trimmed and the sections of the result leave nothing open (C58). Missing: a heading without text at the end, and definitions and unfinished titles at the end that happen to be stable.
* C06: False as stated: C06_refuted gives documents for each kind of failure. C06_causes names a reason in the document (or in a text nested in it, or in the output of the first pass) for every failure, and C06_exceptions lists every exception a caller can see. C06_partial: with plain spaces in front of every > and without tables, fences, link reference definitions, hard line breaks and words that begin with a dot a pass succeeds, and the whole function succeeds or reports that its two passes differ.
* C09: C09_reformat is the statement; C09_parser has an explicit bound. C09_tab_quote and C09_wrapped_quote show that the condition is needed, also for a > that begins a line only after wrapping.
* C11: Refuted: five pairs of detectors overlap (list order decides). Proved that these five pairs are the only overlaps.
* C15: Refuted for a block that is never closed, whose last line is always lost; proved for closed blocks.
* C19: The length is proved for every integer width and the infinite one; staying a thematic break is refuted below width three and proved from three on.
* C20: A line that does not fit is one word, inline code, an HTML line break or the second half of a link, as it stands in the text. Wrapping succeeds unless a word begins with a single dot (see C06).
* C22: Refuted: the target of a link around an image is lost. Proved for text in which each link is closed before the next begins and there is whitespace between inline links and references. This covers text with inline links only (C22_links_partial).
* C23: Refuted both ways: two links with a space between them are joined, and inline code touching a word is broken off. Proved: in text without inline code, links and HTML line breaks the words are the same; with markup whose links are apart, no whitespace other than a line break is added; without links, whitespace is kept (spaces and line separators) and a line break that is not at whitespace is beside a backtick, a full stop after one, or an HTML line break; at unlimited width the words are the same; with links that are apart, whitespace that is lost is around the middle of a link or between a word with a closing and a word with an opening bracket, and a line break that is not at whitespace is beside one of the characters above or an opening bracket, or between a closing bracket and a link. Missing: text whose links touch.
* C25: C25_prose_paragraph extends the statement to paragraphs with inline code and links.
* C26: Refuted for indented fences, where any indented fence line closes any other. Splitting always succeeds and keeps every line once and in order, every entry starts with a marker; without indented fences entries start exactly where they should.
* C31: Refuted for indented quotes (the indentation widens the text) and for widths of at most two (no limit at all). Proved for the paragraphs of all other quotes.
* C32: Refuted for tables with an escaped bar in the body, whose columns are counted one way and written another; proved for all others.
* C33: Refuted for escaped bars in body rows, rows without closing bar, dividers with fewer columns and a second row that is no divider; proved for well-formed tables, whose headers may contain escaped bars and which are also proved fixed after one formatting.
* C35: Refuted for tables in quotes and lists (line number relative to the nested text); proved for tables of the document itself.
* C36: Refuted: when the first word of the title does not fit on the line of the link, label and link disappear. Proved in all other cases: every visible character is kept, and every word when there is no inline code, link or HTML line break.
* C37: Refuted for a label and link on the last line, and for titles that are never closed, which take all lines but the last. All other definitions are recognised with exactly their lines.
* C40: The formatted sections say what the sections said: the same words, inline code, links, code lines, cells, sides of columns and link targets. Also covers indented code, tables, one-line link reference definitions and setext headings. A table or heading interacts with the section after it only as stated in ends_before. Reformatting the output again needs the document not to end in a link reference definition (see C03).
* C41: False with --output-file/--output-dir (unchanged inputs are still copied) and with --write-renders; proved for every run without those options, completed or not.
* C42: Completed in-place runs; the second theorem shows that status 1 is also what an uncaught exception gives.
* C44: Everything but 'the error names the failing file', which only holds for RuntimeErrors and is refuted for the others.
* C45: Refuted: write_text truncates first. Proved: at every crash point at most one named file is affected and it holds a prefix of its new text.
* C46: Refuted for inputs with the same name and --output-dir; proved when outputs are distinct and none is an input.
* C50: Refuted: a file that differs from its formatted text only by \r\n newlines is left alone. Proved that this is the only way a named file keeps a carriage return.
* C52: Refuted when an exception leaves a nested pass or the second pass, and for the logger's own level; proved for the effective level and logging.INFO whenever both passes succeed.
* C54: C54_renders_in_run covers in-place runs and checks over any number of files; the other two are stated for runs over one file, with any outputs.
* C55: Refuted for a directory without Markdown files; proved when at least one file is named or found.
* C57: Refuted for later lines: once a line without marker has been taken, lines are taken without looking at what is quoted, such as `d` after `> a`, `b`, `> # c`. Proved for the first line without marker of a block quote, and the second half in full.
* C60: Refuted: a backslash at the end of a line is wrapped away, wrapping after a backslash makes one, and tabs in the text become two spaces at the end of a line. Proved for breaks made by two spaces in texts whose only blanks are spaces and newlines: every line but the last of a formatted paragraph ends in ink, and the two spaces at its end are kept in the document.
* C62: Refuted because formatting is not idempotent (C03). C62_second_run_exactly: it holds exactly when the formatted text of every file is formatted to itself; C62_second_run_partial: in particular if the final trimming removes nothing from any of them.
* C64: C64_separate: runs whose outputs are different files, none of them an input, which can be written. C64_renders is about every invocation, also of standard input.
* C65: Every line of the wrapped text begins in something else than whitespace, for all texts and widths; a formatted paragraph is such lines and at most the two spaces of a line break.
* C66: The documents are described by the grammar of SpecNested: text of ordinary words, inline code and links (SpecProse), closed fences, quotes with one marker throughout, and lists whose numbers stay equally long or, if they grow by at most three digits, whose entries begin with text or a heading and hold no quotes directly. What a document says is a tree of its lists, quotes and sections.
* C68: False in general: tabs between spaces, and an HTML line break with two spaces inside, make the second wrapping differ (and the document is then refused). With reference links the second wrapping can repeat words (C68_references_refuted). Proved for text whose whitespace is spaces and line separators and which has no HTML line break: with inline code and no bracket outside it (C68_partial), or with inline code, inline links and single pairs of brackets such as '[1]' (C68_links_partial, for which the first line must not be blank; C68_links_refuted shows why. A paragraph never begins with a blank line). Missing: texts with reference links that do not change, nested and unpaired brackets outside inline code.
* C69: The pieces are those of SpecProse: links are separated by other text, inline code has one or two backticks and is followed by a space or one full stop, and no word that could begin a line looks like another kind of section.
* C70: Documents as in C66. The layout is defined in SpecRender from the tree alone.
* C71: Documents as in C66 whose last section that is not blank is no link definition.
* C72: C72_any_version_refuted shows that the restriction to digits and dots matters: a release candidate cannot be run at all. The moment at which argparse acts on --version is not modelled.
* C73: False as stated: C73_refuted shows links that are repeated and a fence, a row and a definition that lose text. C73_sections_partial excludes such sections, wherever they are nested; C73_lines_partial is about texts without fences, bars and definitions whose links each are on one line and apart; C73_inline_partial in particular about inline links, which may touch.
* C74: C74_layout holds for all texts and widths: every line is what stands before the text within it, and a line that fits into the width that this text has, or has an excuse. C74_width_partial counts both; missing are texts with an indented block quote, where a pass can exceed the width (C74_indented_refuted; the function then reports an inconsistency). C74_words_partial: with modest lines the only excuse is a single word. C74_result_partial: in terms of the formatted text, which only needs to have no indented quote itself.
* C75: About the records of the loggers of reformat_markdown.py and formatters/atx_heading.py; the records of the detectors and of parser.py are the subject of C77, which also shows that they change nothing here. Python's repr of a string is arbitrary. C75_lost: after a failure within nested text (C52) no later document is listed.
* C76: False: the line of a heading within a list or quote is counted from the start of the nested text, and a heading without text is announced, twice, although nothing changes. C76_partial says exactly which warnings there are (with lines counted in the nested text, and the headings of the formatted text announced again if they are still not well spaced); C76_headings and C76_setext: headings of the document itself are announced with their right line. Missing: that the second pass announces only headings without text.
* C77: False: the splitters are not told at which line of the document they are, and look ahead, so a fence is reported with the wrong line and several times (C77_refuted, C77_twice), and a definition as that on line 0 or 1 (C77_line_zero). Proved: every warning has a reason at its line or further down in a text the parser reads (C77_partial, C77_pass_partial for the texts within lists and quotes as well); fences and definitions that need a warning get one, with the line counted from the section (C77_fences, C77_definitions); every section is listed with its lines (C77_listed); reporting changes neither sections nor output (C77_result). Missing: the right line.
* C78: C78_run is about both passes of a run and therefore needs the condition of the result as well.
* C79: About the records that are shown at the level selected by -v and -q, of all loggers of the package. The error does not name the file.
* C80: For runs that format different files in place or with --check. C80_stopped is about runs without --write-renders.
* C81: False in two ways: the path of the directory is itself read as a pattern, so that the files in v[1] are not found and those in v1 are (C81_refuted), and a directory whose name ends in .md is found as if it were a file (C81_files_refuted), which makes an in-place run refuse to do anything (C81_directory). Proved for directories whose paths have no star, question mark or opening bracket.

## Findings

Behaviour of the code that the proofs brought up (theorems or examples, except
the last two, which were observed while proving):

* A paragraph that begins with a word like `.gitignore`, or has one directly after inline
  code, makes the tool crash with `IndexError` (C06).
* A table of one line, or a fence in the last line of the file, crashes with
  `IndexError` (C06).
* A hard line break (two spaces) in the last line of a document's last paragraph, or a
  label whose link is alone on the last line, crashes with `StopIteration` (C06, C37).
* A tab or no-break space before a quote marker makes the parser recurse until the
  interpreter's limit (C09).
* `[aaaa]: /bbbb` followed by blank lines is formatted differently once they have been
  trimmed, and so is `1. ` at the end of a document directly after a quote (C03).
* A title whose first word does not fit replaces label and link (C36); a title that is
  never closed swallows the rest of the document (C37).
* The last line of a fenced block that is never closed is deleted (C15).
* The target of a link around an image is deleted (C22).
* Rows without closing bar lose their last cell, a divider with fewer columns deletes
  cells, a second row that is no divider is overwritten (C33).
* Indented quotes are wrapped too wide, and so are quotes at widths of one and two (C31).
* Once a quote has a line without marker, a later line is taken into it even after a quoted
  heading (C57).
* A backslash that makes a hard line break is wrapped away, or wrapping makes one; tabs
  between words can make a break by two spaces (C60).
* A space before what is followed directly by a reference link is lost after another link, and
  the next wrapping then repeats the words: `see [a](b) x[c][d]` becomes `see [a](b)x[c][d]` and
  then `see [a](b)xx[c][d]`, so the document is refused (C68).
* After a run, running again can fail or rewrite a file (C62).
* `--check` with `--output-dir` or `--output-file` writes files (C41).
* Two inputs of the same name with `--output-dir` overwrite each other (C46).
* Files that differ from their formatted text only in `\r\n` are never rewritten (C50).
* A directory without Markdown files makes the command read standard input (C55).
* After an exception in nested text `logging.INFO` stays `DEBUG` (C52), and then `-vv` lists
  no sections (C75).
* Warnings about headings in lists and quotes give lines of the nested text, and a heading
  without text is reported as corrected twice (C76).
* The parser does not tell the detectors at which line they are: warnings about fences and
  definitions count lines from the start of the section, a fence after a paragraph is
  reported twice with different lines, and a label on the last line as that on line 0 (C77).
* The error about a table that is not a rectangle does not say in which file it is (C79).
* A directory given on the command line is read as a pattern: `markflow 'v[1]'` formats the
  files in `v1`. A directory named `x.md` somewhere below makes the whole run fail (C81).
* A thematic break such as `-- -` directly after a paragraph becomes a setext underline
  in the second pass; the tool reports an inconsistency.
* The last line of several lines of indented code is a section of its own
  (`indented_code_block.py:43-49` is off by one); the output is the same.

## Wrong programs

`seeded/LOG.jsonl`: each line is one edit of the model, made in a scratch copy, that a
realistic bug would make. Every proof of the edited copy is checked again; a proof that
breaks is admitted there, so that the ones after it are checked too. A theorem counts as
failed if its proof, or that of a lemma it uses, breaks. `tightened` names the theorems
changed because they still held although their claim had become false.
`contradicted_by_witness` names the theorems whose negation was proved in the edited copy
from a concrete input. The last entries are the survivors of an automatic sweep, which
changes one token of the model at a time (operators, numbers, characters, branches).
