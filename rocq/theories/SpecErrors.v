(** Why formatting a document can fail. *)
From Coq Require Import String.
From Verif Require Import Py Lines Detectors Formatters SpecLines SpecParser SpecWrap SpecList SpecQuote
  SpecDefinition SpecTable.

(** [content] is a section of the lines. *)
Definition section_of (lines : list str) (ty : section_type) (content : list str) : Prop :=
  exists lim secs, parse_markdown lim lines = Ok secs /\ In (ty, content) secs.

(** The texts within a text: the text itself and those within the block quotes and the
    entries of the lists in it. *)
Inductive within : list str -> list str -> Prop :=
| within_self lines : within lines lines
| within_quote lines content inner prefix lines' :
    section_of lines BLOCK_QUOTE content -> quotes content inner prefix ->
    within inner lines' -> within lines lines'
| within_entry lines ty content a entry b inner lines' :
    section_of lines ty content -> (ty = BULLET_LIST \/ ty = ORDERED_LIST) ->
    content = a ++ entry ++ b -> dedented entry inner ->
    within inner lines' -> within lines lines'.

(** The line ends with two spaces (a hard line break), or in a label and a colon. *)
Definition stops_short (l : str) : Prop :=
  (exists p, l = p ++ lit "  ") \/ (exists p ws, l = p ++ lit "]:" ++ ws /\ spaces ws).

(** Reasons within one text, and the exceptions they lead to. *)
Inductive reason (w : width) (lines : list str) : exn -> Prop :=
| reason_dot ty content :               (* a word that begins with a single dot *)
    section_of lines ty content -> (ty = PARAGRAPH \/ ty = SETEXT_HEADING) ->
    dot_word (str_join [c_sp] content) -> reason w lines IndexError
| reason_definition_dot content label parts :
    section_of lines LINK_REFERENCE_DEFINITION content -> defines content label parts ->
    dot_word (written label parts) -> reason w lines IndexError
| reason_one_line_table l :
    section_of lines TABLE [l] -> reason w lines IndexError
| reason_one_line_fence l :
    section_of lines FENCED_CODE_BLOCK [l] -> reason w lines IndexError
| reason_ragged header divider body n a b :
    section_of lines TABLE (header :: divider :: body) ->
    Exists (fun row => length (table_cells row) <> length (table_cells header)) body ->
    reason w lines (MarkdownFormatException n a b)
| reason_width content q :              (* a width that is neither an integer nor infinite *)
    section_of lines THEMATIC_BREAK content -> w = WFloat q ->
    reason w lines (RuntimeError InvalidWidth)
| reason_stop e :                       (* Python 3.7 replaces it in nested texts *)
    Exists stops_short lines -> e = StopIteration \/ e = RuntimeError GeneratorStop ->
    reason w lines e
| reason_recursion : reason w lines RecursionError.

(** * Documents that do not fail *)

(** Every dot comes after something that is neither whitespace nor [>]. *)
Definition dots_inside (l : str) : Prop :=
  forall a b, l = a ++ c_dot :: b -> exists a' c, a = a' ++ [c] /\ is_space c = false /\ c <> c_gt.

(** No tables, no fences, no link reference definitions, no hard line breaks, no words
    that begin with a dot. *)
Definition calm (l : str) : Prop :=
  dots_inside l /\ ~ In c_bar l
  /\ (forall a b, l <> a ++ lit "]:" ++ b)
  /\ (forall a b, l <> a ++ lit "```" ++ b) /\ (forall a b, l <> a ++ lit "~~~" ++ b)
  /\ (forall p, l <> p ++ lit "  ").
