(** Documents whose formatting is described section by section. *)
From Coq Require Import String.
From Verif Require Import Py Detectors SpecLines SpecParser SpecFormat SpecTable SpecWrap
  SpecProse SpecDefinition.

(** * Ordinary text *)

(** A line of a paragraph: it begins like one, and does not end in two spaces, which would be
    a line break. *)
Definition text_line (l : str) : Prop :=
  Forall (fun c => is_space c = true -> c = c_sp) l
  /\ (exists word more, words l = word :: more /\ harmless word)
  /\ (forall l', l <> l' ++ [c_sp; c_sp]).

(** The pieces of the text of these lines: words, inline code and links. *)
Definition text_pieces (ls : list str) (ps : list piece) : Prop :=
  prose true ps (str_join [c_sp] (map strip ls)).

(** Lines of words, inline code and links that are not indented code. *)
Definition plain_lines (ls : list str) : Prop :=
  exists l rest, ls = l :: rest /\ ~ indented_line l /\ Forall text_line ls
    /\ exists ps, text_pieces ls ps.

(** * Sections *)

(** The sections of such a document. *)
Definition block (ty : section_type) (ls : list str) : Prop :=
  match ty with
  | BLANK_LINE => exists l, ls = [l] /\ blank_line l
  | ATX_HEADING => exists l, ls = [l] /\ atx_line l
  | THEMATIC_BREAK => exists l, ls = [l] /\ thematic_line l /\ ~ bullet_line l
  | FENCED_CODE_BLOCK =>
      exists ws c n info body close,
        ls = (ws ++ repeat c n ++ info) :: body ++ [close]
        /\ spaces ws /\ In c [c_bt; c_tilde] /\ 3 <= n
        /\ (forall ws' info', info = ws' ++ c :: info' -> ~ spaces ws')
        /\ Forall (fun x => ~ closes (repeat c n) x) body
        /\ closes (repeat c n) close /\ ~ indented_line (ws ++ repeat c n ++ info)
  | INDENTED_CODE_BLOCK =>
      exists l more, ls = l :: more /\ indented_line l /\ ~ fence_line l
        /\ Forall (fun x => blank_line x \/ indented_line x) more
  | TABLE =>
      exists header divider body hs ds bss, ls = header :: divider :: body
        /\ ~ indented_line header
        /\ header_of hs header /\ row_of ds divider /\ Forall2 row_of bss body
        /\ length ds = length hs /\ Forall (fun bs => length bs = length hs) bss
  | LINK_REFERENCE_DEFINITION =>
      exists l body link, ls = [l] /\ labelled l body /\ words body = [link]
  | PARAGRAPH => plain_lines ls
  | SETEXT_HEADING => exists text u, ls = text ++ [u] /\ plain_lines text /\ underline_line u
  | BULLET_LIST | ORDERED_LIST | BLOCK_QUOTE => False
  end.

(** The first line begins with [c], after any whitespace. *)
Definition begins (c : char) (ls : list str) : Prop :=
  exists ws t rest, ls = (ws ++ c :: t) :: rest /\ spaces ws /\ is_space c = false.

(** No indented code, possibly after blank lines. *)
Definition no_code (next : list section) : Prop :=
  forall blanks ls after, next = blanks ++ (INDENTED_CODE_BLOCK, ls) :: after ->
  ~ Forall (fun s => fst s = BLANK_LINE) blanks.

(** The section ends where the sections [next] follow it. (The last line of indented code
    of several lines is a section of its own.) *)
Definition ends_before (ty : section_type) (ls : list str) (next : list section) : Prop :=
  match ty with
  | PARAGRAPH =>
      forall ty' ls' next', next = (ty', ls') :: next' ->
      ~ In ty' [PARAGRAPH; SETEXT_HEADING; INDENTED_CODE_BLOCK; LINK_REFERENCE_DEFINITION]
      /\ (ty' = THEMATIC_BREAK -> ~ begins c_dash ls')
  | INDENTED_CODE_BLOCK =>
      (length ls = 1 /\ no_code next)
      \/ exists final next', next = (INDENTED_CODE_BLOCK, [final]) :: next' /\ no_code next'
  | TABLE => forall ty' ls' next', next = (ty', ls') :: next' -> ~ begins c_bar ls'
  | LINK_REFERENCE_DEFINITION =>
      exists ty' ls' next', next = (ty', ls') :: next'
      /\ forall q, quotation q -> ~ begins q ls'
  | _ => True
  end.

Inductive structured : list section -> Prop :=
| structured_end : structured []
| structured_next ty ls next :
    block ty ls -> Forall one_line ls -> ends_before ty ls next -> structured next ->
    structured ((ty, ls) :: next).

(** The text of the document. *)
Definition document (secs : list section) : str := newline_terminated (concat (map snd secs)).

(** Widths at which thematic breaks stay thematic breaks. *)
Definition wide (w : width) : Prop := w = WInf \/ exists z, w = WInt z /\ (3 <= z)%Z.
