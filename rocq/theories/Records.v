(** The log records of reformat_markdown.py and formatters/atx_heading.py.

    The records of the detectors and of parser.py are in Notices.v. Not modelled: handlers
    and formatters of [logging]. *)
From Coq Require Import String.
From Verif Require Import Py Regex Utils TextWrap Lines Detectors Formatters Logging.
Local Open Scope nat_scope.

(** The loggers [markflow.reformat_markdown], [markflow.formatters.atx_heading],
    [markflow.detectors.fenced_code_block], [markflow.detectors.link_reference_definition],
    [markflow.parser] and [markflow.__main__]. *)
Inductive log_name := LReformat | LAtx | LFence | LDefinition | LParser | LMain.

(** A call of [logger.info] or [logger.warning]: the numeric level and the message. *)
Record record := Rec { r_logger : log_name; r_level : Z; r_text : str }.

(** A computation with the records it makes, also those before an exception. *)
Definition logged (A : Type) : Type := list record * res A.

Definition quietly {A} (x : res A) : logged A := ([], x).
Definition emit (r : record) : logged unit := ([r], Ok tt).
Definition lbind {A B} (x : logged A) (f : A -> logged B) : logged B :=
  match x with
  | (rs, Ok a) => let '(rs', y) := f a in (rs ++ rs', y)
  | (rs, Err e) => (rs, Err e)
  end.

Notation "x <~ e ;; f" := (lbind e (fun x => f))
  (at level 61, e at next level, right associativity).

Fixpoint mapL {A B} (f : A -> logged B) (l : list A) : logged (list B) :=
  match l with
  | [] => quietly (Ok [])
  | a :: l' => b <~ f a ;; bs <~ mapL f l' ;; quietly (Ok (b :: bs))
  end.

(** [str(n)] *)
Definition decn (n : nat) : str := dec (N.of_nat n).

(** reformat_markdown.py:52-56 [log_text] *)
Definition log_span (line_index content_length : nat) : str :=
  if 1 <? content_length
  then lit "Lines " ++ decn (line_index + 1) ++ [c_dash] ++ decn (line_index + content_length)
  else lit "Line " ++ decn (line_index + 1).

Section Records.
  (** Python's [repr] of a string. *)
  Variable py_repr : str -> str.

  (** [repr(truncate_str(s, REPR_CONTENT_LEN))] *)
  Definition short_repr (s : str) : str := py_repr (truncate_str s 20).

  (** [__repr__]: atx_heading.py:69-76, blank_line.py:37-38, block_quote.py:86-90,
      lists.py:139-147 and 185-193, fenced_code_block.py:76-88,
      indented_code_block.py:43-49, link_reference_definition.py:114-122,
      paragraph.py:26-32, setext_heading.py:62-69, table.py:129-130,
      thematic_break.py:48-49. *)
  Definition describe (ty : section_type) (lines : list str) : res str :=
    match ty with
    | ATX_HEADING =>
        l <- nth_line lines 0 ;;
        Ok (lit "<MarkdownATXHeading: depth=" ++ decn (atx_depth l)
            ++ lit "; content=" ++ short_repr (atx_content l) ++ lit ">")
    | BLANK_LINE => Ok (lit "<MarkdownBlankLine>")
    | BLOCK_QUOTE =>
        l <- nth_line lines 0 ;;
        Ok (lit "MarkdownBlockQuote: first_line=" ++ short_repr l ++ lit ">")
    | BULLET_LIST =>
        l <- nth_line lines 0 ;;
        marker <- first_char (lstrip l) ;;
        Ok (lit "MarkdownBulletList: marker=" ++ py_repr [marker]
            ++ lit "; first_line=" ++ short_repr l ++ lit ">")
    | FENCED_CODE_BLOCK =>
        first_line <- (if length lines =? 2 then Ok (lit "None")
                       else l <- nth_line lines 1 ;; Ok (short_repr (strip l))) ;;
        l <- nth_line lines 0 ;;
        c <- first_char (strip l) ;;
        Ok (lit "<MarkdownFencedCodeBlock: fence_char=" ++ py_repr [c]
            ++ lit "; fence_count=" ++ decn (fence_count c l)
            ++ lit "; language=" ++ py_repr (fence_language c l)
            ++ lit "; first_line=" ++ first_line ++ lit ">")
    | INDENTED_CODE_BLOCK =>
        l <- nth_line lines 0 ;;
        Ok (lit "<MarkdownIndentedCodeBlock: first_line=" ++ short_repr (strip l) ++ lit ">")
    | LINK_REFERENCE_DEFINITION =>
        '(name, link, title) <- lrd_parts lines ;;
        Ok (lit "<MarkdownLinkReferenceDefinition: name=" ++ short_repr name
            ++ lit " link=" ++ short_repr link ++ lit " title=" ++ short_repr title ++ lit ">")
    | ORDERED_LIST =>
        l <- nth_line lines 0 ;;
        n <- first_number l ;;
        Ok (lit "MarkdownOrderedList: first_number=" ++ dec n
            ++ lit "; first_line=" ++ short_repr l ++ lit ">")
    | PARAGRAPH =>
        Ok (lit "<MarkdownParagraph: content="
            ++ short_repr (str_join [c_sp] (map strip lines)) ++ lit ">")
    | SETEXT_HEADING =>
        if length lines <? 2 then Err (RuntimeError Uninitialized)
        else
          c <- first_char (strip (last lines [])) ;;
          Ok (lit "<MarkdownSetextHeading: char=" ++ py_repr [c] ++ lit "; content="
              ++ short_repr (str_join [c_sp] (map strip (removelast lines))) ++ lit ">")
    | TABLE => Ok (lit "<MarkdownTable: ToDo>")
    | THEMATIC_BREAK =>
        l <- nth_line lines 0 ;;
        c <- first_char (strip l) ;;
        Ok (lit "<MarkdownThematicBreak: char=" ++ py_repr [c] ++ lit ">")
    end.

  (** reformat_markdown.py:58-67: the empty line before a setext heading after a quote. *)
  Definition setext_blank (line_index : nat) (last : option section_type) (ty : section_type)
    : logged (list formatter) :=
    match ty, last with
    | SETEXT_HEADING, Some BLOCK_QUOTE =>
        _ <~ emit (Rec LReformat WARNING
               (lit "Adding a new line before setext heading on line "
                ++ decn (line_index + 1))) ;;
        quietly (Ok [(BLANK_LINE, line_index, [[]])])
    | _, _ => quietly (Ok [])
    end.

  (** reformat_markdown.py:50-71, the loop with its records. [info] is the value of
      [logging.INFO], which [Logger.info] looks up when it is called. *)
  Fixpoint build_formatters_log (info : Z) (line_index : nat) (last : option section_type)
      (sections : list section) : logged (list formatter) :=
    match sections with
    | [] => quietly (Ok [])
    | (ty, content) :: rest =>
        d <~ quietly (describe ty content) ;;
        _ <~ emit (Rec LReformat info
                       (log_span line_index (length content) ++ lit ": " ++ d)) ;;
        extra <~ setext_blank line_index last ty ;;
        fs <~ build_formatters_log info (line_index + length content) (Some ty) rest ;;
        quietly (Ok (extra ++ (ty, line_index, content) :: fs))
    end.

  (** [with redirect_info_logs_to_debug()]: see Py.v; that [info] is DEBUG inside is up to
      the callers. *)
  Definition redirect_log {A} (x : logged A) : logged A := (fst x, with_redirect (snd x)).

  (** atx_heading.py:57-67 *)
  Definition fmt_atx_heading_log (line_index : nat) (lines : list str) : logged str :=
    match lines with
    | [] => quietly (Err IndexError)
    | l :: _ =>
        _ <~ (if startswith [c_sp] (lstrip_by (N.eqb c_hash) (strip l)) then quietly (Ok tt)
              else emit (Rec LAtx WARNING
                     (lit "Line " ++ decn (line_index + 1)
                      ++ lit " is an ATX Header without a space after #'s. This has been corrected."))) ;;
        quietly (fmt_atx_heading lines)
    end.

  Section WithNestedLog.
    (** [_reformat_markdown_text("\n".join(lines) + "\n", width)] one level down. *)
    Variable nested : list str -> width -> logged str.

    (** lists.py:126-134 and 172-180 *)
    Definition format_entry_log (prefix : str) (indent : nat) (w : width) (entry : list str)
      : logged str :=
      text <~ redirect_log (redirect_log (nested entry (width_sub w (Z.of_nat indent)))) ;;
      let text := rstrip_by (N.eqb c_nl) text in
      quietly (Ok (prefix ++ [c_sp]
                   ++ str_join ([c_nl] ++ rep c_sp indent) (split_on c_nl text))).

    (** lists.py:106-137 *)
    Definition fmt_bullet_list_log (lines : list str) (w : width) : logged str :=
      entries <~ quietly (split_list lines) ;;
      dedented <~ quietly (dedent_entries entries) ;;
      l0 <~ quietly (nth_line lines 0) ;;
      marker <~ quietly (first_char (lstrip l0)) ;;
      texts <~ mapL (format_entry_log [marker] 2 w) dedented ;;
      quietly (Ok (str_join [c_nl] texts)).

    (** lists.py:164-183 *)
    Definition fmt_ordered_list_log (lines : list str) (w : width) : logged str :=
      entries <~ quietly (split_list lines) ;;
      l0 <~ quietly (nth_line lines 0) ;;
      first <~ quietly (first_number l0) ;;
      let indent := length (dec (first + N.of_nat (length entries) - 1)%N) + 2 in
      dedented <~ quietly (dedent_entries entries) ;;
      texts <~ mapL (fun '(n, entry) => format_entry_log (dec n ++ [c_dot]) indent w entry)
                    (enumerate first dedented) ;;
      quietly (Ok (str_join [c_nl] texts)).

    (** formatters/block_quote.py:38-84 *)
    Definition fmt_block_quote_log (lines : list str) (w : width) : logged str :=
      l0 <~ quietly (nth_line lines 0) ;;
      let indent := (Z.of_nat (length (lstrip l0)) - Z.of_nat (length l0))%Z in
      let stripped := map strip_quote_marker (fully_quote 0 lines) in
      let has_space := quote_has_space stripped in
      let stripped :=
        if has_space
        then map (fun line => match line with
                              | c :: line' => if N.eqb c c_sp then line' else line
                              | [] => line
                              end) stripped
        else stripped in
      let sub_width := width_sub (width_sub w indent) 1 in
      let prefix := rep c_sp (Z.to_nat indent) ++ [c_gt] in
      let sub_width := if has_space then width_sub sub_width 1 else sub_width in
      let prefix := if has_space then prefix ++ [c_sp] else prefix in
      text <~ redirect_log (nested stripped sub_width) ;;
      quietly (Ok (str_join [c_nl] (map (fun line => strip (prefix ++ line)) (splitlines text)))).

    (** [reformatted(width)]; the other formatters make no records. *)
    Definition reformatted_log (ty : section_type) (line_index : nat) (lines : list str)
        (w : width) : logged str :=
      match ty with
      | ATX_HEADING => fmt_atx_heading_log line_index lines
      | BLOCK_QUOTE => fmt_block_quote_log lines w
      | BULLET_LIST => fmt_bullet_list_log lines w
      | ORDERED_LIST => fmt_ordered_list_log lines w
      | _ => quietly (reformatted (fun _ _ => Ok []) ty line_index lines w)
      end.
  End WithNestedLog.

  (** reformat_markdown.py:44-73 [_reformat_markdown_text]; within a quote or a list entry
      [logging.INFO] is DEBUG. *)
  Fixpoint reformat_pass_log (lim : nat) (info : Z) (text : str) (w : width) : logged str :=
    match lim with
    | O => quietly (Err RecursionError)
    | S lim' =>
        sections <~ quietly (parse_markdown lim' (splitlines text)) ;;
        fs <~ build_formatters_log info 0 None sections ;;
        let nested lines w' :=
          reformat_pass_log lim' DEBUG (str_join [c_nl] lines ++ [c_nl]) w' in
        outs <~ (let '(rs, x) := mapL (fun '(ty, line_index, lines) =>
                                   reformatted_log nested ty line_index lines w) fs in
                 (rs, pep479 x)) ;;
        quietly (Ok (str_join [c_nl] outs ++ [c_nl]))
    end.

  (** [Logger.isEnabledFor]: the other loggers keep the inherited level. *)
  Definition shown (st : log_state) (r : record) : bool :=
    match r_logger r with
    | LReformat => Z.leb (effective_level st) (r_level r)
    | _ => Z.leb (inherited_level st) (r_level r)
    end.

  (** reformat_markdown.py:76-102 [reformat_markdown_text]: the records that are shown. *)
  Definition reformat_markdown_text_shown (lim : nat) (text : str) (w : width)
      (st : log_state) : list record :=
    let '(rs, first) := reformat_pass_log lim (info_const st) text w in
    let shown_first := filter (shown st) rs in
    match first with
    | Err _ => shown_first
    | Ok new_text =>
        let level := effective_level st in
        let st := if Z.ltb DEBUG level then set_level st ERROR else st in
        shown_first
        ++ filter (shown st) (fst (reformat_pass_log lim (info_const st) new_text w))
    end.
End Records.
