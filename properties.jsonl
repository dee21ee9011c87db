{"id":"C01","title":"Returned text is a self-consistent first pass, and inconsistency is always reported","statement":"reformat_markdown_text(t, w) returns a value exactly when one formatting pass over t succeeds, a second pass over that text succeeds and both passes give the same text; the value is that text with its trailing whitespace replaced by one newline. When both passes succeed but differ the call raises ReformatInconsistentException, and when a pass raises, that same exception is raised; nothing is returned in those cases.","quantifier":"every text, every width (int, infinity, finite float), every recursion limit","why_tests_cant":"the check compares two runs on every possible document; tests only see documents where both runs agree","anchors":["markflow/reformat_markdown.py:reformat_markdown_text","markflow/reformat_markdown.py:_reformat_markdown_text"]}
{"id":"C02","title":"Result ends with exactly one newline and no other trailing whitespace","statement":"Every text returned by reformat_markdown_text ends in a newline, and what precedes that final newline has no trailing whitespace (it may be empty).","quantifier":"every text and width for which the call returns","why_tests_cant":"holds for every input including blank, whitespace-only and exotic-whitespace documents","anchors":["markflow/reformat_markdown.py:reformat_markdown_text"]}
{"id":"C03","title":"Idempotence: reformatting a reformatted document changes nothing","statement":"If reformat_markdown_text(t, w) returns r then reformat_markdown_text(r, w) returns r.","quantifier":"every text and width for which the first call returns","why_tests_cant":"quantifies over all documents; the built-in check runs before the final strip, so it does not cover the text that is actually returned","anchors":["markflow/reformat_markdown.py:reformat_markdown_text","README.md"]}
{"id":"C04","title":"Only newline characters separate lines of the output","statement":"No text returned by reformat_markdown_text contains a line separator other than \\n (no \\r, vertical tab, form feed, FS, GS, RS, NEL, LS, PS), whatever separators the input used.","quantifier":"every text and width for which the call returns","why_tests_cant":"all Unicode line separators, at every position, in every section type","anchors":["markflow/reformat_markdown.py:_reformat_markdown_text","README.md:Enforced Rules"]}
{"id":"C05","title":"No invented characters","statement":"Every character of the output already occurs in the input or is one of a fixed set of markup characters the tool writes itself (space, newline, decimal digits, and # . - | : > [ ] ` ).","quantifier":"every text and width for which the call returns","why_tests_cant":"must hold for every nesting of every section type","anchors":["markflow/reformat_markdown.py:_reformat_markdown_text","markflow/formatters"]}
{"id":"C06","title":"Formatting succeeds on every document","statement":"reformat_markdown_text never fails with an internal error (IndexError, StopIteration, RecursionError, unexpected RuntimeError) on any text.","quantifier":"every text, every width","why_tests_cant":"a crash only shows on the particular document that triggers it","anchors":["markflow/reformat_markdown.py:reformat_markdown_text","markflow/_utils/textwrap.py:code_split","markflow/detectors/paragraph.py:split_paragraph_ignoring_setext","markflow/detectors/link_reference_definition.py","markflow/formatters/table.py"]}
{"id":"C07","title":"Parsing is lossless","statement":"The sections returned by parse_markdown, concatenated in order, are exactly the input lines, and no section is empty.","quantifier":"every list of lines for which parsing returns","why_tests_cant":"twelve mutually recursive splitters with index arithmetic; any off-by-one on any shape of document loses or duplicates lines","anchors":["markflow/parser.py:parse_markdown","markflow/detectors"]}
{"id":"C08","title":"Every line belongs to some section type","statement":"parse_markdown never raises 'Could not determine section type', whatever the lines are.","quantifier":"every list of lines","why_tests_cant":"the line classification must be exhaustive over all strings","anchors":["markflow/parser.py:parse_markdown","markflow/detectors/_lines.py"]}
{"id":"C09","title":"Parsing and formatting terminate","statement":"On every document in which no > has a whitespace character other than a plain space in the whitespace in front of it, nesting recursion is bounded: there is a recursion limit above which the result no longer depends on the limit and is not a recursion error. (A tab or no-break space before > makes the parser recurse forever, also where the > begins a line only after wrapping.)","quantifier":"every list of lines","why_tests_cant":"termination of mutual recursion cannot be tested","anchors":["markflow/detectors/block_quote.py","markflow/formatters/block_quote.py","markflow/formatters/lists.py"]}
{"id":"C10","title":"Section types mean what they say","statement":"Each section returned by parse_markdown has the shape its type promises: blank lines are single whitespace-only lines; ATX headings are single lines, indented less than four, starting with #; thematic breaks are single lines of three or more equal *, _ or - and whitespace; tables are lines starting with |; lists start with a list marker and contain no blank line after their first line; setext headings end with an = or - underline; block quotes start with a > line; indented code starts with a line indented four or more; fenced code starts with a fence.","quantifier":"every list of lines for which parsing returns, every section","why_tests_cant":"ranges over all documents and all positions in them","anchors":["markflow/parser.py:SPLITTERS","markflow/detectors"]}
{"id":"C11","title":"Splitters are mutually exclusive","statement":"For any lines, at most one of the twelve splitters recognises a section at the start (IMPLEMENTATION.md: 'if one splitter splits the text, no others should. This isn't really tested').","quantifier":"every non-empty list of lines","why_tests_cant":"66 pairs of predicates over all strings","anchors":["IMPLEMENTATION.md:Parsing Markdown","markflow/parser.py:SPLITTERS"]}
{"id":"C12","title":"Fenced code blocks end at the first closing fence","statement":"A fenced code block section extends from its opening fence line to the first later line that, stripped, equals the opening fence run, or to the end of the document when there is none; nothing inside is interpreted as Markdown.","quantifier":"every list of lines starting with a fence line","why_tests_cant":"position of the closing fence and contents are arbitrary","anchors":["markflow/detectors/fenced_code_block.py:split_fenced_code_block"]}
{"id":"C13","title":"Table and list sections are maximal runs","statement":"A table section is the longest leading run of lines that start with |. A list section is the start line plus the longest run of lines that are not blank, not table rows and not thematic breaks.","quantifier":"every list of lines","why_tests_cant":"all lengths and all contents","anchors":["markflow/detectors/table.py:split_table","markflow/detectors/bullet_list.py:split_bullet_list","markflow/detectors/ordered_list.py:split_ordered_list"]}
{"id":"C14","title":"Block quote sections contain only quote lines and lazy continuation lines","statement":"A block quote section begins with a line whose first non-blank character is > indented less than four; every other line in it is either such a line or a line that is not blank, not an ATX heading, list item, fence, table row, thematic break or setext underline.","quantifier":"every list of lines","why_tests_cant":"lazy continuation depends on the parse of everything before it","anchors":["markflow/detectors/block_quote.py:split_block_quote"]}
{"id":"C15","title":"Code blocks keep their content","statement":"Reformatting a fenced code block keeps every content line, in order, with only trailing whitespace removed, keeps the fence character, its length and the trimmed info string.","quantifier":"every fenced code block section, every width","why_tests_cant":"arbitrary code content","anchors":["markflow/formatters/fenced_code_block.py:MarkdownFencedCodeBlock.reformatted","README.md:Code Blocks"]}
{"id":"C16","title":"Indented code keeps its lines and indentation","statement":"Reformatting an indented code block keeps every line, in order, with only trailing whitespace removed.","quantifier":"every indented code block, every width","why_tests_cant":"arbitrary code content","anchors":["markflow/formatters/indented_code_block.py"]}
{"id":"C17","title":"ATX headings keep level and text","statement":"A reformatted ATX heading is one line: the same number of #, one space and the trimmed heading text; parsed again it is an ATX heading with the same level and text, and formatting it again changes nothing.","quantifier":"every ATX heading line, every width","why_tests_cant":"arbitrary heading text and depth","anchors":["markflow/formatters/atx_heading.py"]}
{"id":"C18","title":"Setext headings keep level and are underlined to the heading's length","statement":"A reformatted setext heading is the wrapped heading text followed by one underline of the original underline character whose length is the length of the longest heading line.","quantifier":"every setext heading section, every width","why_tests_cant":"arbitrary heading text wrapped at arbitrary width","anchors":["markflow/formatters/setext_heading.py","README.md:Headings"]}
{"id":"C19","title":"Thematic breaks fill the width and stay thematic breaks","statement":"A reformatted thematic break is the same symbol repeated to the line width (three times for infinite width) and is still recognised as a thematic break.","quantifier":"every thematic break line, every width","why_tests_cant":"all widths, including those left over inside nested lists and quotes","anchors":["markflow/formatters/thematic_break.py","README.md:Thematic Breaks"]}
{"id":"C20","title":"Wrapped lines fit the width","statement":"Every line produced by wrapping is at most width characters long unless it is a single unbreakable token.","quantifier":"every text, every width","why_tests_cant":"all texts and widths","anchors":["markflow/_utils/textwrap.py:wrap","markflow/_utils/textwrap.py:join","README.md:Paragraphs"]}
{"id":"C21","title":"Wrapping is greedy","statement":"Wrapping breaks a line only when the next token would not fit on it (or after an HTML line break): no earlier break, so lines are as full as possible.","quantifier":"every text, every positive width","why_tests_cant":"all texts and widths","anchors":["markflow/_utils/textwrap.py:join"]}
{"id":"C22","title":"Wrapping keeps the text","statement":"Wrapping changes only whitespace: the sequence of non-whitespace characters of the text is unchanged.","quantifier":"every text, every width","why_tests_cant":"token splitting by four regex-driven passes, over all strings","anchors":["markflow/_utils/textwrap.py:wrap","markflow/_utils/textwrap.py:code_split","markflow/_utils/textwrap.py:link_split"]}
{"id":"C23","title":"Wrapping does not separate what was not separated","statement":"Wrapping never puts whitespace between two characters that were adjacent in the text, except where the README says so (after ]( and ][, around HTML line breaks), and never joins two words that were separated.","quantifier":"every text, every width","why_tests_cant":"adjacent code spans, links and text in every combination","anchors":["markflow/_utils/textwrap.py:join","markflow/_utils/textwrap.py:code_split","markflow/_utils/textwrap.py:link_split"]}
{"id":"C24","title":"Inline code stays on one line","statement":"Every closed inline code span of a paragraph appears verbatim, unbroken, on a single output line.","quantifier":"every text, every width","why_tests_cant":"all placements and lengths of code spans","anchors":["markflow/_utils/textwrap.py:code_split","README.md:Paragraphs"]}
{"id":"C25","title":"Plain text paragraphs are filled, stable and lossless end to end","statement":"For a document that is one paragraph of ordinary words, reformat_markdown_text succeeds and returns the same words in the same order, separated by single spaces or newlines, every line within the width unless it is a single word, and reformatting again changes nothing.","quantifier":"every non-empty list of ordinary words, every arrangement of them in lines, every width","why_tests_cant":"unbounded number and length of words","anchors":["markflow/reformat_markdown.py:reformat_markdown_text","markflow/formatters/paragraph.py","markflow/_utils/textwrap.py:wrap"]}
{"id":"C26","title":"List entries partition the list","statement":"Splitting a list into entries loses no line and duplicates none, every entry starts with a line carrying a list marker, and lines inside a fence never start an entry.","quantifier":"every list section","why_tests_cant":"depends on running fence state and indentation over arbitrary lines","anchors":["markflow/formatters/lists.py:_split_list"]}
{"id":"C27","title":"Dedenting removes only the marker and indentation","statement":"Removing the list indentation from an entry drops the marker and its following space from the first line and only leading whitespace from the other lines.","quantifier":"every entry of every list","why_tests_cant":"arbitrary, inconsistent indentation","anchors":["markflow/formatters/lists.py:_dedent_entries"]}
{"id":"C28","title":"Ordered lists are renumbered consecutively","statement":"In a reformatted ordered list the entries are numbered first, first+1, first+2, ... where first is the number written on the first entry, and continuation lines are indented by the width of the largest number plus two.","quantifier":"every ordered list section, every width","why_tests_cant":"any number of entries, any starting number","anchors":["markflow/formatters/lists.py:MarkdownOrderedList.reformatted","README.md:Lists"]}
{"id":"C29","title":"Bullet lists use one bullet","statement":"In a reformatted bullet list every entry starts with the first entry's bullet followed by a space, and every other line of an entry is indented by two spaces.","quantifier":"every bullet list section, every width","why_tests_cant":"any number of entries and any mix of bullets","anchors":["markflow/formatters/lists.py:MarkdownBulletList.reformatted","README.md:Lists"]}
{"id":"C30","title":"Block quote output is quoted line by line","statement":"Every line of a reformatted block quote starts with >, and removing the quote prefix gives the reformatted quoted text up to surrounding whitespace.","quantifier":"every block quote section, every width","why_tests_cant":"arbitrary nested content","anchors":["markflow/formatters/block_quote.py"]}
{"id":"C31","title":"Block quotes respect the width","statement":"Nested content of a block quote is wrapped so that prefix plus content fits the requested width.","quantifier":"every block quote, every width","why_tests_cant":"depends on indentation of the quote marker","anchors":["markflow/formatters/block_quote.py:MarkdownBlockQuote.reformatted"]}
{"id":"C32","title":"Table output is rectangular","statement":"All lines of a reformatted table have the same length and the same number of columns, and every cell is padded to its column's width with at least one space either side.","quantifier":"every table section that is accepted","why_tests_cant":"any number of rows and columns, any cell contents","anchors":["markflow/formatters/table.py:MarkdownTable.reformatted","README.md:Tables"]}
{"id":"C33","title":"Tables keep their cells","statement":"Each trimmed header and body cell of a table appears in the output in the same row and column, and no cell is lost.","quantifier":"every table section","why_tests_cant":"any shape of table, including escaped pipes, missing trailing pipes and short divider rows","anchors":["markflow/formatters/table.py:MarkdownTable.reformatted"]}
{"id":"C34","title":"Table alignment is preserved","statement":"The divider row of a reformatted table encodes, column by column, the alignment of the input divider row, and cells are padded on the side that alignment asks for.","quantifier":"every table section that is accepted","why_tests_cant":"any number of columns, any divider text","anchors":["markflow/formatters/table.py"]}
{"id":"C35","title":"Ragged tables are rejected with the right line number","statement":"A table with a body row whose column count differs from the header raises MarkdownFormatException naming the first such row's line in the document and both counts; a table without such a row does not raise it.","quantifier":"every table at every position of a document","why_tests_cant":"line arithmetic over all preceding sections","anchors":["markflow/formatters/table.py:MarkdownTable.reformatted","markflow/reformat_markdown.py:_reformat_markdown_text"]}
{"id":"C36","title":"Link reference definitions keep label, link and title","statement":"A reformatted link reference definition still contains its label, its link and the words of its title.","quantifier":"every link reference definition section, every width","why_tests_cant":"any label, link and title lengths relative to the width","anchors":["markflow/formatters/link_reference_definition.py","README.md:Footnotes"]}
{"id":"C37","title":"Link reference definitions are recognised wherever they stand","statement":"A line of the form [label]: link is treated as a link reference definition (never wrapped) also when it is the last line of the document, and a definition never swallows lines that do not belong to it.","quantifier":"every document","why_tests_cant":"depends on what follows the definition","anchors":["markflow/detectors/link_reference_definition.py"]}
{"id":"C38","title":"A setext heading directly after a block quote is separated by a blank line","statement":"Whenever a setext heading section directly follows a block quote section the output contains an empty line between them; no other pair of sections gets an extra line, and sections appear in the output in document order.","quantifier":"every document","why_tests_cant":"all sequences of sections","anchors":["markflow/reformat_markdown.py:_reformat_markdown_text"]}
{"id":"C39","title":"Blank lines are emptied and kept","statement":"Every blank-line section becomes exactly one empty line of output.","quantifier":"every blank line, every width","why_tests_cant":"all Unicode whitespace","anchors":["markflow/formatters/blank_line.py"]}
{"id":"C40","title":"Structured documents are fixed points","statement":"For documents made only of blank lines, ATX headings, thematic breaks, closed fenced code blocks and plain paragraphs, reformat_markdown_text succeeds and its output parses into the same sections, so the consistency check never fires.","quantifier":"every such document, every width of at least three","why_tests_cant":"unbounded sequences of sections interacting with each other","anchors":["markflow/reformat_markdown.py:reformat_markdown_text","markflow/parser.py:parse_markdown"]}
{"id":"C41","title":"--check modifies nothing","statement":"With --check, markflow does not create or modify any file.","quantifier":"every file system, every list of paths, every option combination","why_tests_cant":"all combinations of options and file states","anchors":["markflow/__main__.py:_reformat_files"]}
{"id":"C42","title":"--check exit status","statement":"With --check and file arguments, markflow exits with 1 if some file would change and 0 if none would; without --check a completed run exits 0.","quantifier":"every list of files and contents","why_tests_cant":"any number of files","anchors":["markflow/__main__.py:_reformat_files"]}
{"id":"C43","title":"In-place runs write exactly the reformatted text to exactly the named files","statement":"After a completed in-place run, every named file holds its reformatted text, files that were already formatted are not written, and no other file changes.","quantifier":"every list of distinct paths, every file system","why_tests_cant":"any number of files, any contents","anchors":["markflow/__main__.py:_reformat_files"]}
{"id":"C44","title":"A failing file stops the run, earlier files stay reformatted, later files are untouched","statement":"If formatting a file raises, files before it in the list have been written, the failing file and all later ones are unchanged, and the error names the failing file.","quantifier":"every list of files, every position of the failing file","why_tests_cant":"failure position arbitrary","anchors":["markflow/__main__.py:_reformat_files"]}
{"id":"C45","title":"Crash safety of in-place rewriting","statement":"If the process dies at any moment of a run, every file holds either its old contents or its complete new contents.","quantifier":"every crash point of every run","why_tests_cant":"crash points cannot be enumerated by tests","anchors":["markflow/__main__.py:_reformat_files"]}
{"id":"C46","title":"Separate outputs get every input's text","statement":"With --output-dir or --output-file, after a completed run each input's reformatted text is in its output file and inputs are unchanged.","quantifier":"every list of inputs and outputs","why_tests_cant":"name collisions between inputs in different directories","anchors":["markflow/__main__.py:_reformat_files"]}
{"id":"C47","title":"Line length below one means infinite width","statement":"--line-length n with n < 1 behaves exactly as an infinite width; otherwise n is used as is.","quantifier":"every integer","why_tests_cant":"all integers","anchors":["markflow/__main__.py:main"]}
{"id":"C48","title":"Verbosity is clamped","statement":"The log level is ERROR shifted by one level down per -v and up per -q, clamped to DEBUG..CRITICAL.","quantifier":"every count of -v and -q","why_tests_cant":"all counts","anchors":["markflow/__main__.py:parse_args"]}
{"id":"C49","title":"Standard input mode prints the result and touches no file","statement":"Without paths and with piped stdin, markflow prints exactly the reformatted text and exits 0, or with --check prints no document and exits 1 if and only if the text would change; no file is written.","quantifier":"every stdin text, every option combination","why_tests_cant":"all texts","anchors":["markflow/__main__.py:_reformat_stdin","markflow/__main__.py:main"]}
{"id":"C50","title":"Files with CRLF newlines are normalised","statement":"After a completed in-place run no named file contains a carriage return.","quantifier":"every file system","why_tests_cant":"interaction of universal-newline reading with the unchanged test","anchors":["markflow/__main__.py:_reformat_files","README.md:Enforced Rules"]}
{"id":"C51","title":"Bad argument combinations are rejected before any file is touched","statement":"If the number of --output-file options differs from the number of paths, or an in-place target is a directory or not writable, the command exits with an error and no file is read or written.","quantifier":"every argument list and file system","why_tests_cant":"all combinations","anchors":["markflow/__main__.py:parse_args","markflow/_argparse.py"]}
{"id":"C52","title":"Logging configuration is restored","statement":"After reformat_markdown_text, whether it returns or raises, the module logger's level and the logging.INFO constant are what they were before.","quantifier":"every text, every initial logging configuration","why_tests_cant":"exception paths through nested contexts","anchors":["markflow/reformat_markdown.py:reformat_markdown_text","markflow/_utils/_utils.py:redirect_info_logs_to_debug"]}
{"id":"C53","title":"Truncation never exceeds its length","statement":"truncate_str(s, n) is s when it fits, otherwise exactly n characters long, made of a prefix of s followed by dots.","quantifier":"every string and every non-negative length","why_tests_cant":"all strings and lengths","anchors":["markflow/_utils/_utils.py:truncate_str"]}
{"id":"C54","title":"Render files are named after the output file","statement":"--write-renders writes exactly two files next to the output, named by inserting .1 and .2 before a .md suffix or appending them, and only when the formatting was inconsistent.","quantifier":"every path and content","why_tests_cant":"all file names","anchors":["markflow/__main__.py:_write_renders","markflow/__main__.py:_reformat_files"]}
{"id":"C55","title":"Named paths are never ignored","statement":"When at least one path is given on the command line, markflow works on files: it never falls back to reading standard input or to doing nothing.","quantifier":"every non-empty list of paths, every file system and standard input","why_tests_cant":"The fallback depends on what the directories named happen to contain; tests use a few prepared trees.","anchors":["markflow/__main__.py: main, parse_args","markflow/_argparse.py: AddMarkdownFilesInDirOrPathsAction"]}
{"id":"C56","title":"The summary counts are right","statement":"The last message of a completed in-place or --check run states the number of files whose text changes (or would change) and the number of those whose text does not.","quantifier":"every list of files and contents","why_tests_cant":"The counts range over every combination of changed and unchanged files.","anchors":["markflow/__main__.py: _reformat_files"]}
{"id":"C57","title":"Lines without a marker continue only quoted paragraphs","statement":"A line without a quote marker belongs to a block quote only if the quoted text before it ends in a paragraph; and a block quote takes every line that directly follows and has a marker, or continues a paragraph at its end and does not look like an underline.","quantifier":"every document that has a block quote","why_tests_cant":"It depends on everything quoted before the line, to any depth of nesting.","anchors":["markflow/detectors/block_quote.py: split_block_quote, _block_quote_ends_with_paragraph, _is_paragraph_continuation_text"]}
{"id":"C58","title":"Parts separated by a blank line are formatted independently","statement":"If what stands before a blank line leaves nothing open (fences and titles are closed, no definition is unfinished, indented code does not go on after the blank line) and nothing is trimmed at its end when it is formatted alone, then the text is formatted to the two parts, each formatted alone, with one blank line between them; and its sections are the sections of the two parts with the blank line between them.","quantifier":"every pair of texts that are formatted successfully, every width","why_tests_cant":"It ranges over all pairs of texts and every kind of section that may end before the blank line.","anchors":["markflow/parser.py: parse_markdown","markflow/reformat_markdown.py: reformat_markdown_text"]}
{"id":"C59","title":"Where a paragraph ends","statement":"A paragraph goes on until a blank line, a line that starts another kind of section, or a line that ends in two spaces (which is still part of it), and is cut nowhere else; two paragraphs directly follow each other only after such a line. A paragraph line followed by an underline is a heading instead.","quantifier":"every document","why_tests_cant":"It is about every line of every paragraph and what may follow it.","anchors":["markflow/detectors/paragraph.py: split_paragraph","markflow/detectors/setext_heading.py: split_setext_heading","markflow/parser.py: parse_markdown"]}
{"id":"C60","title":"Hard line breaks are kept","statement":"A hard line break in a paragraph (two spaces or a backslash at the end of a line) is still one in the formatted text, and formatting makes no line break a hard one that was not.","quantifier":"every document and width","why_tests_cant":"Where lines are wrapped depends on the width and on all the text before.","anchors":["markflow/detectors/paragraph.py: split_paragraph","markflow/formatters/paragraph.py: format_paragraph","markflow/_utils/textwrap.py: wrap"]}
{"id":"C61","title":"Exactly the valid invocations are carried out","statement":"The command is rejected, with status 2 or 255 and without any effect, if and only if a path does not exist, both kinds of output are given, an output is not writable, the developer help is asked for, the number of output files is not that of the files to work on, or a file to be rewritten in place is not writable. Otherwise it works on exactly the files named or found, with exactly the options given.","quantifier":"every invocation and file system","why_tests_cant":"All combinations of options and states of the file system.","anchors":["markflow/__main__.py: parse_args","markflow/_argparse.py: ExistingPath, Directory, File, AddMarkdownFilesInDirOrPathsAction"]}
{"id":"C62","title":"A second run finds nothing to do","statement":"After a completed in-place run, the same command writes nothing, and the same command with --check exits with 0.","quantifier":"every list of files, file contents and line length","why_tests_cant":"It ranges over all documents and relates two runs.","anchors":["markflow/__main__.py: main, _reformat_files","markflow/reformat_markdown.py: reformat_markdown_text"]}
{"id":"C63","title":"--check tells what the run does","statement":"With --check the command completes exactly if it completes without it; it reports, in order, exactly the files that are rewritten without it, and exits with 1 if there is any and with 0 otherwise.","quantifier":"every list of files, file contents and line length","why_tests_cant":"It relates two runs over arbitrary files.","anchors":["markflow/__main__.py: _reformat_files"]}
{"id":"C64","title":"Exit status of the process","statement":"A valid in-place run or check ends with status 0, 1 or 255. The status is 0 exactly if every file is formatted and --check finds nothing to change; it is 255 exactly if the first file that cannot be formatted has a table whose rows have different lengths. The same holds for runs with separate outputs. --write-renders never changes the status.","quantifier":"every list of files, file contents and line length","why_tests_cant":"It ranges over all files and all errors.","anchors":["markflow/__main__.py: main, __main__, _reformat_files"]}
{"id":"C65","title":"Wrapped lines are not indented","statement":"No line of a formatted paragraph begins with whitespace, so that wrapping cannot turn a line of text into code.","quantifier":"every text and width","why_tests_cant":"Where lines are broken depends on the width and on all the text before.","anchors":["markflow/_utils/textwrap.py: wrap","markflow/formatters/paragraph.py: format_paragraph"]}
{"id":"C66","title":"Nested documents","statement":"A document of headings, breaks, code, tables, link definitions, paragraphs of words, inline code and links, and of block quotes and lists that hold such documents in turn, nested to any depth, is formatted to a document that says the same: the same words, code, cells and links, in the same order, in the same entries of the same lists and in the same quotes. A second pass changes nothing, so that such a text is never rejected as inconsistent.","quantifier":"every such document, every depth of nesting and every width","why_tests_cant":"Quotes and lists are formatted by formatting the text in them to the width that is left, which is known only from the whole path down to it; the documents have no bound in size or depth.","anchors":["markflow/reformat_markdown.py: reformat_markdown_text","markflow/formatters/lists.py: MarkdownBulletList, MarkdownOrderedList, _split_list, _dedent_entries","markflow/formatters/block_quote.py: MarkdownBlockQuote","markflow/parser.py: parse_markdown"]}
{"id":"C67","title":"Line endings of the input do not matter","statement":"A file is read as its lines, whether they end in a newline, a carriage return or both. Standard input is read in the same way. Two runs on files or standard inputs that differ in their line endings only print the same, write the same and end in the same way.","quantifier":"every file system, standard input, list of arguments and mixture of line endings","why_tests_cant":"It compares two runs on arbitrary files, with any mixture of endings in each.","anchors":["markflow/__main__.py: main, _reformat_files, _write_renders"]}
{"id":"C68","title":"Wrapping wrapped text changes nothing","statement":"Text that was wrapped to a width is returned unchanged when it is wrapped to the same width again, and a formatted paragraph is formatted into itself: inline code is found again where it was, and every line break falls where it fell.","quantifier":"every text and width","why_tests_cant":"It needs every way in which code spans, text and line breaks can touch, at every width.","anchors":["markflow/_utils/textwrap.py: wrap, join","markflow/formatters/paragraph.py: MarkdownParagraph.reformatted"]}
{"id":"C69","title":"Words, inline code and links survive wrapping","statement":"Text of words, inline code and links is wrapped into lines of the same words, the same code (with its spaces) and the same links, in the same order. A line is broken between words, around code, inside the text of a link or before its target, and nowhere else; a line is longer than the width only if it is one such piece, and is broken only where the next piece would not fit. Wrapping the result again changes nothing.","quantifier":"every such text, in any arrangement of lines, and every width","why_tests_cant":"The pieces are found by splitting the text in three passes with overlapping regular expressions, and found again in the wrapped text; there are infinitely many ways in which they meet the ends of lines.","anchors":["markflow/_utils/textwrap.py: wrap, code_split, link_split, newline_split, space_split, join"]}
{"id":"C70","title":"The output is determined by what the document says","statement":"The formatted text of a document is a simple function of what the document says: headings, rules, code, tables, link definitions, wrapped text, lists and quotes are laid out section by section, at the width that their nesting leaves. Hence two documents that say the same, however they were laid out and whatever blank lines end them, are formatted to the same text.","quantifier":"every document with lists and quotes nested to any depth, and every width","why_tests_cant":"Every layout of every document has to lead to the same text; the formatter itself works on lines, in two passes with nested calls.","anchors":["markflow/reformat_markdown.py: reformat_markdown_text","markflow/formatters: MarkdownSection.reformatted of every section","markflow/formatters/table.py: Cell, MarkdownTable.reformatted","markflow/formatters/lists.py: MarkdownBulletList, MarkdownOrderedList","markflow/formatters/block_quote.py: MarkdownBlockQuote.reformatted"]}
{"id":"C71","title":"The width of earlier formatting is forgotten","statement":"Formatting a document to one width and the result to another gives the same text as formatting the document to the second width at once. In particular, formatting to another width and back restores the text.","quantifier":"every document with lists and quotes nested to any depth that fits both widths (thematic breaks need three columns), and every pair of widths","why_tests_cant":"It relates the outputs at all pairs of widths for all documents; every line break put in at one width must be undone at the other.","anchors":["markflow/reformat_markdown.py: reformat_markdown_text","markflow/_utils/textwrap.py: wrap"]}
{"id":"C72","title":"The version, and starting without one","statement":"The version shown is the one on the first line of pyproject.toml beside the package that reads version = \"...\" with digits and dots, marked as a development version; without that file it is the one in the name of the first folder name-version.dist-info. If there is none, every invocation, whatever its arguments, fails with status 1 before reading or writing anything; if there is one, it has no influence on the run.","quantifier":"every content of pyproject.toml, every list of installed folders, and every invocation","why_tests_cant":"The tests run in one installation; the regular expressions must be right for every file and every order of folders.","anchors":["markflow/__main__.py: get_version, parse_args, PYPROJECT_VERSION_REGEX_STR, SITE_PACKAGES_VERSION_REGEX_FORMAT_STR"]}
{"id":"C73","title":"Letters survive","statement":"Formatting changes nothing but whitespace and the characters that markers, underlines, thematic breaks and table dividers are drawn with (digits and .>-=_*+): all other characters of the text are in the output, as often and in the same order.","quantifier":"every text with lists, quotes, headings, code, tables and links in any nesting, and every width","why_tests_cant":"A character that is dropped or repeated in some combination of sections, nesting and width is found only by an argument about all texts.","anchors":["markflow/reformat_markdown.py: reformat_markdown_text","markflow/formatters: all formatters","markflow/_utils/textwrap.py: wrap"]}
{"id":"C74","title":"Lines keep to the width","statement":"In a formatted document no line has more characters than the line length (whitespace at its end aside), wherever it stands in lists and quotes, except a piece of text that is never broken (a word, inline code, the second half of a link, an HTML line break) after the markers in front of it, the underline of a heading made of such a piece, lines of headings that begin with #, code, tables and link reference definitions, and text so deeply nested that the markers leave no room.","quantifier":"every text in any nesting of lists and quotes, and every line length","why_tests_cant":"Widths and nestings are unbounded; a line that is one character too long appears only for particular combinations of both.","anchors":["markflow/reformat_markdown.py: reformat_markdown_text","markflow/formatters/lists.py: MarkdownBulletList, MarkdownOrderedList","markflow/formatters/block_quote.py: MarkdownBlockQuote.reformatted","markflow/_utils/textwrap.py: wrap"]}
{"id":"C75","title":"Verbose output lists every section once","statement":"With INFO messages shown and DEBUG messages not (-vv on the command line), the INFO messages about a document list its sections in order, each exactly once, with its first and last line and a description of what it holds. A run that fails lists the first sections or none. With DEBUG messages shown the sections of the result are listed after them; without -v nothing is shown at all. Logging never changes the result.","quantifier":"every document, line length, logging configuration and way to show a string","why_tests_cant":"the messages depend on nested and repeated passes whose records must be hidden for every document","anchors":["markflow/reformat_markdown.py:_reformat_markdown_text","markflow/reformat_markdown.py:reformat_markdown_text","markflow/_utils/_utils.py:redirect_info_logs_to_debug","markflow/formatters/*.py:__repr__"]}
{"id":"C76","title":"Corrections are announced","statement":"With warnings shown, each empty line put in front of an underlined heading and each space put after the number signs of a heading is announced once, with the line of the heading in the document, and nothing else is announced.","quantifier":"every document, line length and logging configuration that shows warnings","why_tests_cant":"headings may be nested to any depth in lists and quotes and every document is formatted twice","anchors":["markflow/reformat_markdown.py:_reformat_markdown_text","markflow/formatters/atx_heading.py:MarkdownATXHeading.reformatted"]}
{"id":"C77","title":"The parser's messages are right","statement":"Each warning about a closing fence that is indented too much, or about a label without a link, names a line of the document where that is so, each such line is warned of, and at debug level each section is listed with its type and lines; reporting does not change the sections or the output.","quantifier":"every document, line length and logging configuration","why_tests_cant":"detectors look ahead from every line of a paragraph or quote, and quotes are parsed again at every depth, so a line can be read any number of times with different offsets","anchors":["markflow/parser.py:parse_markdown","markflow/detectors/fenced_code_block.py:split_fenced_code_block","markflow/detectors/link_reference_definition.py:split_link_reference_definition","markflow/detectors/block_quote.py:split_block_quote"]}
{"id":"C78","title":"No false alarms","statement":"If no line of a document has a fence after four whitespace characters, and none ends in a bracket and a colon, parsing it warns of nothing, and formatting it only of corrected headings.","quantifier":"every document, line length and logging configuration","why_tests_cant":"the text within lists and quotes, to any depth, is parsed as well","anchors":["markflow/parser.py:parse_markdown","markflow/detectors/fenced_code_block.py:split_fenced_code_block","markflow/detectors/link_reference_definition.py:split_link_reference_definition","markflow/reformat_markdown.py:_reformat_markdown_text"]}
{"id":"C79","title":"Runs are quiet by default","statement":"Unless there are more -v than -q, a run of the command logs nothing, whatever the files contain, except one last error if a table with a wrong number of columns ends the run; with more -q than -v not even that. The error gives the line and the numbers of columns, and no other run logs an error. The warning that output options are not used is logged exactly when standard input is formatted although an output directory was named and there are more -v than -q.","quantifier":"every file system, standard input, list of options and recursion limit","why_tests_cant":"the levels are changed and restored between and during passes, over any number of files, and depend on where an exception is raised","anchors":["markflow/__main__.py:parse_args","markflow/__main__.py:_reformat_files","markflow/__main__.py:_reformat_stdin","markflow/__main__.py:__main__","markflow/reformat_markdown.py:reformat_markdown_text"]}
{"id":"C80","title":"A run reports on each file as if it were alone","statement":"A run over several files logs, in the order of the files, what formatting the text of each of them logs by itself; so with two more -v than -q it lists the sections of every file. If an exception ends the run, nothing is missing about the files before, and nothing is logged about those after.","quantifier":"every file system, number of files, verbosity and recursion limit","why_tests_cant":"formatting one file changes the logging configuration that the next one starts with, for any number of files","anchors":["markflow/__main__.py:_reformat_files","markflow/reformat_markdown.py:reformat_markdown_text","markflow/_utils/_utils.py:redirect_info_logs_to_debug"]}
{"id":"C81","title":"A directory stands for the Markdown files below it","statement":"A directory given on the command line stands for the files below it, at any depth, whose names end in .md, each once, leaving out names and directories that begin with a dot; an in-place run on it that completes formats exactly these and changes nothing else.","quantifier":"every finite directory tree and every order in which the system lists directories","why_tests_cant":"trees have any depth and width, and names any characters","anchors":["markflow/_argparse.py:AddMarkdownFilesInDirOrPathsAction.__call__","markflow/__main__.py:parse_args","markflow/__main__.py:_reformat_files"]}
