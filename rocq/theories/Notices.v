(** The log records of the detectors and of parser.py.

    The definitions follow those of Detectors.v and Formatters.v call by call; that they
    compute the same results is proved in ProofsNotices.v. [line_offset] is the optional
    argument of the splitters that is only used in messages. *)
From Coq Require Import String.
From Verif Require Import Py Regex Utils TextWrap Lines Detectors Formatters Logging Records.
Local Open Scope nat_scope.

Notation "' p <~ e ;; f" := (lbind e (fun p => f))
  (at level 61, p pattern, e at next level, right associativity).

Definition splitter_log : Type := nat -> list str -> logged split_result.

(** A splitter that makes no records: atx_heading.py, blank_line.py, bullet_list.py,
    indented_code_block.py, ordered_list.py, table.py and thematic_break.py. *)
Definition silent (f : splitter) : splitter_log := fun _ lines => quietly (f lines).

Fixpoint any_splits_log (fs : list splitter_log) (line_offset : nat) (lines : list str)
  : logged bool :=
  match fs with
  | [] => quietly (Ok false)
  | f :: fs' =>
      '(section, _) <~ f line_offset lines ;;
      if nilb section then any_splits_log fs' line_offset lines else quietly (Ok true)
  end.

(** fenced_code_block.py:133-137 *)
Definition over_indented_record (line : nat) : record :=
  Rec LFence WARNING
    (lit "Detected that the fence on line " ++ decn line
     ++ lit " is over indented per the standard. If this is intentional, please file a bug report.").

(** fenced_code_block.py:129-140; [index] is that of the first of the lines. *)
Fixpoint take_fenced_log (fence : str) (fence_indent index line_offset : nat)
    (lines : list str) : logged split_result :=
  match lines with
  | [] => quietly (Ok ([], []))
  | l :: rest =>
      if str_eqb (strip l) fence then
        _ <~ (if 3 + fence_indent <? get_indent l
              then emit (over_indented_record (index + line_offset + 1))
              else quietly (Ok tt)) ;;
        quietly (Ok ([l], rest))
      else
        '(x, y) <~ take_fenced_log fence fence_indent (S index) line_offset rest ;;
        quietly (Ok (l :: x, y))
  end.

(** fenced_code_block.py:97-141 *)
Definition split_fenced_code_block_log : splitter_log := fun line_offset lines =>
  match lines with
  | [] => quietly (Err StopIteration)
  | l :: rest =>
      match full_fence l with
      | Some fence =>
          '(more, remaining) <~ take_fenced_log fence (get_indent l) 1 line_offset rest ;;
          quietly (Ok (l :: more, remaining))
      | None => quietly (Ok ([], lines))
      end
  end.

(** link_reference_definition.py:103-107 *)
Definition no_link_record (line : nat) : record :=
  Rec LDefinition WARNING
    (lit "The text on line " ++ decn line
     ++ lit " seems to be a link reference definition, but it does not contain a link. We will be treating it as if it were.").

(** link_reference_definition.py:42-141; [line_offset] is not used. *)
Definition split_link_reference_definition_log : splitter_log := fun _ lines =>
  match lines with
  | [] => quietly (Err StopIteration)
  | line :: gen =>
      if 4 <=? get_indent line then quietly (Ok ([], lines))
      else
        let rest_of_line := lstrip line in
        match rmatch LINK_REFERENCE_DEFINITION_FIRST_ELEMENT_REGEX rest_of_line with
        | None => quietly (Ok ([], lines))
        | Some e =>
            match split_max1 (skipn e rest_of_line) with
            | [_; title_text] => quietly (Ok (lrd_finish lines 0 title_text gen false))
            | [_] =>
                match gen with
                | l1 :: gen1 => quietly (Ok (lrd_finish lines 1 l1 gen1 true))
                | [] => quietly (Ok (lrd_finish lines 0 [] [] true))
                end
            | _ =>
                match gen with
                | [] => _ <~ emit (no_link_record 0) ;; quietly (Ok ([line], gen))
                | l1 :: gen1 =>
                    if startswith [c_lbr] l1 || blank l1 then
                      _ <~ emit (no_link_record 1) ;; quietly (Ok ([line], gen))
                    else
                      match split_max1 l1 with
                      | [_] =>
                          match gen1 with
                          | [] => quietly (Err StopIteration)
                          | l2 :: gen2 => quietly (Ok (lrd_finish lines 2 l2 gen2 true))
                          end
                      | _ :: title_text :: _ =>
                          quietly (Ok (lrd_finish lines 1 title_text gen1 false))
                      | [] => quietly (Err IndexError)
                      end
                end
            end
        end
  end.

(** parser.py:24-37, the values of the enumeration *)
Definition type_name (ty : section_type) : str :=
  match ty with
  | ATX_HEADING => lit "ATX Heading"
  | BLANK_LINE => lit "Blank Line"
  | BLOCK_QUOTE => lit "Block Quote"
  | BULLET_LIST => lit "Bullet List"
  | FENCED_CODE_BLOCK => lit "Fenced Code Block"
  | INDENTED_CODE_BLOCK => lit "Indented Code Block"
  | LINK_REFERENCE_DEFINITION => lit "Link Reference Definition"
  | ORDERED_LIST => lit "Ordered List"
  | PARAGRAPH => lit "Paragraph"
  | SETEXT_HEADING => lit "Setext Heading"
  | TABLE => lit "Table"
  | THEMATIC_BREAK => lit "Thematic Break"
  end.

(** parser.py:66-74 *)
Definition section_record (current_line : nat) (ty : section_type) (content_length : nat)
  : record :=
  Rec LParser DEBUG
    ((if 1 <? content_length
      then lit "Lines " ++ decn current_line ++ [c_dash]
           ++ decn (current_line + content_length - 1)
      else lit "Line " ++ decn current_line)
     ++ lit ": " ++ type_name ty).

Section WithBlockQuoteLog.
  (** [split_block_quote] one nesting level further down. *)
  Variable sbq : splitter_log.

  (** paragraph.py:14-46 [_is_paragraph_continuation_text] *)
  Definition par_continuation_log (line_offset : nat) (lines : list str) : logged bool :=
    found <~ any_splits_log
      [silent split_atx_heading; silent split_blank_line; sbq; silent split_bullet_list;
       split_fenced_code_block_log; silent split_ordered_list; silent split_table;
       silent split_thematic_break]
      line_offset lines ;;
    if found then quietly (Ok false)
    else match lines with
         | [] => quietly (Err IndexError)
         | l :: _ => quietly (Ok (negb (is_setext_underline l)))
         end.

  (** paragraph.py:101-115; [line_offset] includes [len(paragraph_lines)]. *)
  Fixpoint par_tail_log (line_offset : nat) (tail : list str) : logged split_result :=
    match tail with
    | [] => quietly (Ok ([], []))
    | t :: rest =>
        cont <~ par_continuation_log line_offset tail ;;
        if cont then
          if endswith [c_sp; c_sp] t then
            match rest with
            | [] => quietly (Err StopIteration)
            | _ => quietly (Ok ([t], rest))
            end
          else
            '(more, remaining) <~ par_tail_log (S line_offset) rest ;;
            quietly (Ok (t :: more, remaining))
        else quietly (Ok ([], tail))
    end.

  (** paragraph.py:73-117 *)
  Definition split_paragraph_ignoring_setext_log : splitter_log := fun line_offset lines =>
    match lines with
    | [] => quietly (Err IndexError)
    | l :: rest =>
        if is_paragraph_start_line l then
          if endswith [c_sp; c_sp] l then quietly (Ok ([l], rest))
          else '(more, remaining) <~ par_tail_log (line_offset + 1) rest ;;
               quietly (Ok (l :: more, remaining))
        else quietly (Ok ([], lines))
    end.

  (** paragraph.py:120-141 *)
  Definition split_paragraph_log : splitter_log := fun line_offset lines =>
    '(potential_paragraph, remaining) <~ split_paragraph_ignoring_setext_log line_offset lines ;;
    match remaining with
    | [] => quietly (Ok (potential_paragraph, remaining))
    | r :: _ =>
        if negb (is_setext_underline r) then quietly (Ok (potential_paragraph, remaining))
        else quietly (Ok ([], lines))
    end.

  (** setext_heading.py:26-44 *)
  Definition split_setext_heading_log : splitter_log := fun line_offset lines =>
    '(paragraph, remaining) <~ split_paragraph_ignoring_setext_log line_offset lines ;;
    match remaining with
    | [] => quietly (Ok ([], lines))
    | r :: rest =>
        if negb (nilb paragraph) && is_setext_underline r
        then quietly (Ok (paragraph ++ [r], rest))
        else quietly (Ok ([], lines))
    end.

  (** block_quote.py:21-81 [_is_paragraph_continuation_text] *)
  Definition bq_continuation_log (line_offset : nat) (lines : list str) : logged bool :=
    found <~ any_splits_log
      (map (fun (f : splitter_log) o l => redirect_log (f o l))
        [silent split_atx_heading; silent split_blank_line; silent split_bullet_list;
         split_fenced_code_block_log; silent split_ordered_list; split_setext_heading_log;
         silent split_table; silent split_thematic_break])
      line_offset lines ;;
    if found then quietly (Ok false)
    else match lines with
         | [] => quietly (Err IndexError)
         | l :: _ => quietly (Ok (negb (is_setext_underline l)))
         end.

  (** block_quote.py:141-153; [line_offset] has grown by the number of lines taken. *)
  Fixpoint bq_take_continuation_log (first_line : bool) (line_offset : nat)
      (lines : list str) : logged split_result :=
    match lines with
    | [] => quietly (Ok ([], []))
    | l :: rest =>
        cont <~ bq_continuation_log line_offset lines ;;
        if cont then
          if first_line && is_setext_underline l && negb (is_thematic_break_line l)
          then quietly (Ok ([], lines))
          else
            '(more, remaining) <~ bq_take_continuation_log false (line_offset + 1) rest ;;
            quietly (Ok (l :: more, remaining))
        else quietly (Ok ([], lines))
    end.

  (** block_quote.py:130-157 *)
  Fixpoint bq_loop_log (ends_with_paragraph : list str -> logged bool) (n line_offset : nat)
      (block_quote lines : list str) : logged split_result :=
    match lines with
    | [] => quietly (Ok (block_quote, []))
    | l :: _ =>
        if negb (is_explicit_block_quote_line l) then quietly (Ok (block_quote, lines))
        else
          match n with
          | O => quietly (Err OutOfFuel)
          | S n' =>
              let '(run, remaining) := span is_explicit_block_quote_line lines in
              let block_quote := block_quote ++ run in
              check <~ ends_with_paragraph block_quote ;;
              if check then
                '(cont, remaining) <~ bq_take_continuation_log true line_offset remaining ;;
                bq_loop_log ends_with_paragraph n' (line_offset + length cont)
                            (block_quote ++ cont) remaining
              else quietly (Ok (block_quote, remaining))
          end
    end.

  (** parser.py:40-53 [SPLITTERS] *)
  Definition SPLITTERS_log : list (section_type * splitter_log) :=
    [(ATX_HEADING, silent split_atx_heading);
     (BLANK_LINE, silent split_blank_line);
     (BLOCK_QUOTE, sbq);
     (BULLET_LIST, silent split_bullet_list);
     (FENCED_CODE_BLOCK, split_fenced_code_block_log);
     (INDENTED_CODE_BLOCK, silent split_indented_code_block);
     (LINK_REFERENCE_DEFINITION, split_link_reference_definition_log);
     (ORDERED_LIST, silent split_ordered_list);
     (PARAGRAPH, split_paragraph_log);
     (SETEXT_HEADING, split_setext_heading_log);
     (TABLE, silent split_table);
     (THEMATIC_BREAK, silent split_thematic_break)].

  (** parser.py:62-81; the splitters are called without [line_offset]. *)
  Fixpoint first_split_log (fs : list (section_type * splitter_log)) (lines : list str)
    : logged (section * list str) :=
    match fs with
    | [] => quietly (Err (RuntimeError UnknownSection))
    | (ty, f) :: fs' =>
        '(content, remaining) <~ f 0 lines ;;
        if nilb content then first_split_log fs' remaining
        else quietly (Ok ((ty, content), remaining))
    end.

  (** parser.py:61-83 *)
  Fixpoint parse_loop_log (n current_line : nat) (lines : list str) : logged (list section) :=
    match lines with
    | [] => quietly (Ok [])
    | _ =>
        match n with
        | O => quietly (Err OutOfFuel)
        | S n' =>
            '((ty, content), remaining) <~ first_split_log SPLITTERS_log lines ;;
            _ <~ emit (section_record current_line ty (length content)) ;;
            rest <~ parse_loop_log n' (current_line + length content) remaining ;;
            quietly (Ok ((ty, content) :: rest))
        end
    end.

  Definition parse_with_log (lines : list str) : logged (list section) :=
    parse_loop_log (length lines) 1 lines.
End WithBlockQuoteLog.

(** block_quote.py:103-157 [split_block_quote] and block_quote.py:84-100
    [_block_quote_ends_with_paragraph] *)
Fixpoint split_block_quote_log (lim : nat) (line_offset : nat) (lines : list str)
  : logged split_result :=
  match lim with
  | O => quietly (Err RecursionError)
  | S lim' =>
      bq_loop_log (split_block_quote_log lim') (bq_ends_with_paragraph_log lim')
                  (length lines) line_offset [] lines
  end
with bq_ends_with_paragraph_log (lim : nat) (block_quote_lines : list str) : logged bool :=
  match lim with
  | O => quietly (Err RecursionError)
  | S lim' =>
      let parsing_lines := map strip_quote_marker block_quote_lines in
      sections <~ redirect_log (parse_with_log (split_block_quote_log lim') parsing_lines) ;;
      match rev sections with
      | [] => quietly (Err (Redirected IndexError))
      | (ty, content) :: _ =>
          match ty with
          | BLOCK_QUOTE => bq_ends_with_paragraph_log lim' content
          | PARAGRAPH => quietly (Ok true)
          | _ => quietly (Ok false)
          end
      end
  end.

(** parser.py:56-83 [parse_markdown] *)
Definition parse_markdown_log (lim : nat) (lines : list str) : logged (list section) :=
  parse_with_log (split_block_quote_log lim) lines.

Section AllRecords.
  (** Python's [repr] of a string. *)
  Variable py_repr : str -> str.

  (** reformat_markdown.py:44-73 [_reformat_markdown_text] with the records of all loggers *)
  Fixpoint reformat_pass_all (lim : nat) (info : Z) (text : str) (w : width) : logged str :=
    match lim with
    | O => quietly (Err RecursionError)
    | S lim' =>
        sections <~ parse_markdown_log lim' (splitlines text) ;;
        fs <~ build_formatters_log py_repr info 0 None sections ;;
        let nested lines w' :=
          reformat_pass_all lim' DEBUG (str_join [c_nl] lines ++ [c_nl]) w' in
        outs <~ (let '(rs, x) := mapL (fun '(ty, line_index, lines) =>
                                   reformatted_log nested ty line_index lines w) fs in
                 (rs, pep479 x)) ;;
        quietly (Ok (str_join [c_nl] outs ++ [c_nl]))
    end.

  (** reformat_markdown.py:76-102 [reformat_markdown_text]: the records of all loggers that
      are shown. *)
  Definition reformat_markdown_text_all (lim : nat) (text : str) (w : width)
      (st : log_state) : list record :=
    let '(rs, first) := reformat_pass_all lim (info_const st) text w in
    let shown_first := filter (shown st) rs in
    match first with
    | Err _ => shown_first
    | Ok new_text =>
        let level := effective_level st in
        let st := if Z.ltb DEBUG level then set_level st ERROR else st in
        shown_first
        ++ filter (shown st) (fst (reformat_pass_all lim (info_const st) new_text w))
    end.
End AllRecords.
