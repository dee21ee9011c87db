(** markflow/detectors/*.py and markflow/parser.py

    A splitter takes lines and returns (section, remaining lines); an empty section means
    "not recognised". Logging and [line_offset] (only used in log messages) are not
    modelled. The mutual recursion of the Python code goes through [split_block_quote],
    which every other recursive function receives as the argument [sbq]. *)
From Verif Require Import Py Regex Utils Lines.

Definition split_result : Type := list str * list str.
Definition splitter : Type := list str -> res split_result.

(** [if splitter(lines)\[0\]: return False] in a loop, as one boolean: does some splitter
    of the list recognise a section? *)
Fixpoint any_splits (fs : list splitter) (lines : list str) : res bool :=
  match fs with
  | [] => Ok false
  | f :: fs' =>
      '(section, _) <- f lines ;;
      if nilb section then any_splits fs' lines else Ok true
  end.

(** atx_heading.py:25-47; [lines\[0\]] on an empty list is an [IndexError]. *)
Definition split_one_line (p : str -> bool) : splitter := fun lines =>
  match lines with
  | [] => Err IndexError
  | l :: rest => if p l then Ok ([l], rest) else Ok ([], lines)
  end.
Definition split_atx_heading : splitter := split_one_line is_atx_heading_line.

(** blank_line.py:18-37 *)
Definition split_blank_line : splitter := split_one_line is_blank_line_line.

(** thematic_break.py:25-43 *)
Definition split_thematic_break : splitter := split_one_line is_thematic_break_line.

(** Longest prefix of [lines] satisfying [p], and the rest. *)
Fixpoint span {A} (p : A -> bool) (l : list A) : list A * list A :=
  match l with
  | [] => ([], [])
  | a :: l' =>
      if p a then let '(x, y) := span p l' in (a :: x, y) else ([], l)
  end.

(** bullet_list.py:24-28, ordered_list.py:24-28: the loop condition to stay in the list. *)
Definition continues_list (line : str) : bool :=
  negb (is_blank_line_line line || is_table_start_line line
        || is_thematic_break_line line).

(** bullet_list.py:11-37 and ordered_list.py:11-37, which only differ in the start
    predicate; [next()] on an empty iterator is a [StopIteration]. *)
Definition split_list_section (start : str -> bool) : splitter := fun lines =>
  match lines with
  | [] => Err StopIteration
  | l :: rest =>
      if start l then
        let '(more, remaining) := span continues_list rest in Ok (l :: more, remaining)
      else Ok ([], lines)
  end.
Definition split_bullet_list : splitter := split_list_section is_bullet_list_start_line.
Definition split_ordered_list : splitter := split_list_section is_ordered_list_start_line.

(** table.py:4-6 *)
Definition table_started (line : str) : bool := startswith [c_bar] (lstrip line).

(** table.py:14-29 *)
Definition split_table : splitter := fun lines =>
  match lines with
  | [] => Err IndexError
  | l :: rest =>
      if table_started l then
        let '(more, remaining) := span table_started rest in Ok (l :: more, remaining)
      else Ok ([], lines)
  end.

(** fenced_code_block.py:118-125: the fence that opens a block on this line. *)
Definition full_fence (line : str) : option str :=
  if startswith (rep c_bt 3) (strip line) then
    Some (rep c_bt (length (lstrip line) - length (lstrip_by (N.eqb c_bt) (lstrip line))))
  else if startswith (rep c_tilde 3) (strip line) then
    Some (rep c_tilde
      (length (lstrip line) - length (lstrip_by (N.eqb c_tilde) (lstrip line))))
  else None.

(** fenced_code_block.py:129-140: lines up to and including the closing fence. *)
Fixpoint take_fenced (fence : str) (lines : list str) : split_result :=
  match lines with
  | [] => ([], [])
  | l :: rest =>
      if str_eqb (strip l) fence then ([l], rest)
      else let '(x, y) := take_fenced fence rest in (l :: x, y)
  end.

(** fenced_code_block.py:97-141 *)
Definition split_fenced_code_block : splitter := fun lines =>
  match lines with
  | [] => Err StopIteration
  | l :: rest =>
      match full_fence l with
      | Some fence => let '(more, remaining) := take_fenced fence rest in
                      Ok (l :: more, remaining)
      | None => Ok ([], lines)
      end
  end.

(** indented_code_block.py:43-49: [close_index] after the loop, given its current value
    and the index of the next line. *)
Fixpoint indented_close (lines : list str) (index close_index : nat) : nat :=
  match lines with
  | [] => close_index
  | l :: rest =>
      if blank l then indented_close rest (S index) close_index
      else if 4 <=? get_indent l then indented_close rest (S index) index
      else close_index
  end.

(** indented_code_block.py:18-54 *)
Definition split_indented_code_block : splitter := fun lines =>
  match lines with
  | [] => Err StopIteration
  | l :: rest =>
      if negb (blank l) && (4 <=? get_indent l) then
        let close_index := indented_close rest 1 1 in
        Ok (firstn close_index lines, skipn close_index lines)
      else Ok ([], lines)
  end.

(** link_reference_definition.py:34-38 [\[[^\]]{1,999}\]:] *)
Definition LINK_REFERENCE_DEFINITION_FIRST_ELEMENT_REGEX : list ritem :=
  let not_rbr := fun c => negb (N.eqb c c_rbr) in
  [Is c_lbr; One not_rbr; Upto not_rbr 998; Is c_rbr; Is c_colon].

(** link_reference_definition.py:126 [(\\\\)*q] at one position: length of the match. *)
Fixpoint closing_match (q : char) (s : str) : option nat :=
  match s with
  | c :: s' =>
      if N.eqb c c_bslash then
        match s' with
        | d :: s'' =>
            if N.eqb d c_bslash then option_map (fun n => S (S n)) (closing_match q s'')
            else None
        | [] => None
        end
      else if N.eqb c q then Some 1 else None
  | [] => None
  end.

(** [closing_regex.search(line)], as the end of the match; [prev_bslash] tells whether
    the look-behind [(?<!\\)] fails at the current position. *)
Fixpoint closing_search (q : char) (prev_bslash : bool) (pos : nat) (s : str)
  : option nat :=
  match (if prev_bslash then None else closing_match q s) with
  | Some n => Some (pos + n)
  | None =>
      match s with
      | [] => None
      | c :: s' => closing_search q (N.eqb c c_bslash) (S pos) s'
      end
  end.

(** link_reference_definition.py:127-135: the loop looking for the closing quote;
    returns ([index], [is_complete]) after the loop. [line] is the current line and
    [gen] what the line generator still holds. *)
Fixpoint lrd_close (q : char) (index : nat) (line : str) (gen : list str)
    (is_complete : bool) : nat * bool :=
  match closing_search q false 0 (rstrip line) with
  | Some e =>
      if e =? length (rstrip line) then (S index, true) else (index, is_complete)
  | None =>
      match gen with
      | [] => (index, is_complete)
      | l :: gen' => lrd_close q (S index) l gen' is_complete
      end
  end.

(** link_reference_definition.py:120-141: from the title to the result. *)
Definition lrd_finish (lines : list str) (index : nat) (title_text : str)
    (gen : list str) (is_complete : bool) : split_result :=
  let '(index, is_complete) :=
    match title_text with
    | q :: title_rest =>
        if negb (blank title_text) && (N.eqb q c_squote || N.eqb q c_dquote)
        then lrd_close q index title_rest gen is_complete
        else (index, is_complete)
    | [] => (index, is_complete)
    end in
  if is_complete then (firstn index lines, skipn index lines) else ([], lines).

(** link_reference_definition.py:42-141 *)
Definition split_link_reference_definition : splitter := fun lines =>
  match lines with
  | [] => Err StopIteration
  | line :: gen =>
      if 4 <=? get_indent line then Ok ([], lines)
      else
        let rest_of_line := lstrip line in
        match rmatch LINK_REFERENCE_DEFINITION_FIRST_ELEMENT_REGEX rest_of_line with
        | None => Ok ([], lines)
        | Some e =>
            match split_max1 (skipn e rest_of_line) with
            | [_; title_text] => Ok (lrd_finish lines 0 title_text gen false)
            | [_] =>
                match gen with
                | l1 :: gen1 => Ok (lrd_finish lines 1 l1 gen1 true)
                | [] => Ok (lrd_finish lines 0 [] [] true)
                end
            | _ =>
                match gen with
                | [] => Ok ([line], gen)
                | l1 :: gen1 =>
                    if startswith [c_lbr] l1 || blank l1 then Ok ([line], gen)
                    else
                      match split_max1 l1 with
                      | [_] =>
                          match gen1 with
                          | [] => Err StopIteration   (* line 113: bare next() *)
                          | l2 :: gen2 => Ok (lrd_finish lines 2 l2 gen2 true)
                          end
                      | _ :: title_text :: _ =>
                          Ok (lrd_finish lines 1 title_text gen1 false)
                      | [] => Err IndexError
                      end
                end
            end
        end
  end.

(** parser.py:24-37 (INVALID is only used as the initial "last section") *)
Inductive section_type :=
| ATX_HEADING | BLANK_LINE | BLOCK_QUOTE | BULLET_LIST | FENCED_CODE_BLOCK
| INDENTED_CODE_BLOCK | LINK_REFERENCE_DEFINITION | ORDERED_LIST | PARAGRAPH
| SETEXT_HEADING | TABLE | THEMATIC_BREAK.

Definition section_type_eqb (a b : section_type) : bool :=
  match a, b with
  | ATX_HEADING, ATX_HEADING | BLANK_LINE, BLANK_LINE | BLOCK_QUOTE, BLOCK_QUOTE
  | BULLET_LIST, BULLET_LIST | FENCED_CODE_BLOCK, FENCED_CODE_BLOCK
  | INDENTED_CODE_BLOCK, INDENTED_CODE_BLOCK
  | LINK_REFERENCE_DEFINITION, LINK_REFERENCE_DEFINITION
  | ORDERED_LIST, ORDERED_LIST | PARAGRAPH, PARAGRAPH
  | SETEXT_HEADING, SETEXT_HEADING | TABLE, TABLE | THEMATIC_BREAK, THEMATIC_BREAK =>
      true
  | _, _ => false
  end.

Definition section : Type := section_type * list str.

Section WithBlockQuote.
  (** [split_block_quote] one nesting level further down. *)
  Variable sbq : splitter.

  (** paragraph.py:14-46 [_is_paragraph_continuation_text] *)
  Definition par_continuation (lines : list str) : res bool :=
    found <- any_splits
      [split_atx_heading; split_blank_line; sbq; split_bullet_list;
       split_fenced_code_block; split_ordered_list; split_table; split_thematic_break]
      lines ;;
    if found then Ok false
    else match lines with
         | [] => Err IndexError
         | l :: _ => Ok (negb (is_setext_underline l))
         end.

  (** paragraph.py:101-115: the loop over the tails of [lines\[1:\]]; returns the lines
      added to the paragraph and the remaining lines. *)
  Fixpoint par_tail (tail : list str) : res split_result :=
    match tail with
    | [] => Ok ([], [])
    | t :: rest =>
        cont <- par_continuation tail ;;
        if cont then
          if endswith [c_sp; c_sp] t then
            match rest with
            | [] => Err StopIteration             (* line 109: bare next() *)
            | _ => Ok ([t], rest)
            end
          else
            '(more, remaining) <- par_tail rest ;; Ok (t :: more, remaining)
        else Ok ([], tail)
    end.

  (** paragraph.py:73-117 *)
  Definition split_paragraph_ignoring_setext : splitter := fun lines =>
    match lines with
    | [] => Err IndexError
    | l :: rest =>
        if is_paragraph_start_line l then
          if endswith [c_sp; c_sp] l then Ok ([l], rest)
          else '(more, remaining) <- par_tail rest ;; Ok (l :: more, remaining)
        else Ok ([], lines)
    end.

  (** paragraph.py:120-141 *)
  Definition split_paragraph : splitter := fun lines =>
    '(potential_paragraph, remaining) <- split_paragraph_ignoring_setext lines ;;
    match remaining with
    | [] => Ok (potential_paragraph, remaining)
    | r :: _ =>
        if negb (is_setext_underline r) then Ok (potential_paragraph, remaining)
        else Ok ([], lines)
    end.

  (** setext_heading.py:26-44 *)
  Definition split_setext_heading : splitter := fun lines =>
    '(paragraph, remaining) <- split_paragraph_ignoring_setext lines ;;
    match remaining with
    | [] => Ok ([], lines)
    | r :: rest =>
        if negb (nilb paragraph) && is_setext_underline r
        then Ok (paragraph ++ [r], rest)
        else Ok ([], lines)
    end.

  (** block_quote.py:21-81 [_is_paragraph_continuation_text] *)
  Definition bq_continuation (lines : list str) : res bool :=
    found <- any_splits
      (map (fun (f : splitter) l => with_redirect (f l))
        [split_atx_heading; split_blank_line; split_bullet_list;
         split_fenced_code_block; split_ordered_list; split_setext_heading; split_table;
         split_thematic_break])
      lines ;;
    if found then Ok false
    else match lines with
         | [] => Err IndexError
         | l :: _ => Ok (negb (is_setext_underline l))
         end.

  (** block_quote.py:141-153: the loop collecting continuation lines. *)
  Fixpoint bq_take_continuation (first_line : bool) (lines : list str)
    : res split_result :=
    match lines with
    | [] => Ok ([], [])
    | l :: rest =>
        cont <- bq_continuation lines ;;
        if cont then
          if first_line && is_setext_underline l && negb (is_thematic_break_line l)
          then Ok ([], lines)
          else
            '(more, remaining) <- bq_take_continuation false rest ;;
            Ok (l :: more, remaining)
        else Ok ([], lines)
    end.

  (** block_quote.py:130-157: the outer loop. [ends_with_paragraph] is
      [_block_quote_ends_with_paragraph]; [n] bounds the iterations (each consumes a
      line, so [n = length lines] is never exhausted). *)
  Fixpoint bq_loop (ends_with_paragraph : list str -> res bool) (n : nat)
      (block_quote lines : list str) : res split_result :=
    match lines with
    | [] => Ok (block_quote, [])
    | l :: _ =>
        if negb (is_explicit_block_quote_line l) then Ok (block_quote, lines)
        else
          match n with
          | O => Err OutOfFuel
          | S n' =>
              let '(run, remaining) := span is_explicit_block_quote_line lines in
              let block_quote := block_quote ++ run in
              check <- ends_with_paragraph block_quote ;;
              if check then
                '(cont, remaining) <- bq_take_continuation true remaining ;;
                bq_loop ends_with_paragraph n' (block_quote ++ cont) remaining
              else Ok (block_quote, remaining)
          end
    end.

  (** parser.py:40-53 [SPLITTERS] *)
  Definition SPLITTERS : list (section_type * splitter) :=
    [(ATX_HEADING, split_atx_heading);
     (BLANK_LINE, split_blank_line);
     (BLOCK_QUOTE, sbq);
     (BULLET_LIST, split_bullet_list);
     (FENCED_CODE_BLOCK, split_fenced_code_block);
     (INDENTED_CODE_BLOCK, split_indented_code_block);
     (LINK_REFERENCE_DEFINITION, split_link_reference_definition);
     (ORDERED_LIST, split_ordered_list);
     (PARAGRAPH, split_paragraph);
     (SETEXT_HEADING, split_setext_heading);
     (TABLE, split_table);
     (THEMATIC_BREAK, split_thematic_break)].

  (** parser.py:62-81: the [for]/[else] loop over the splitters. The lines are threaded
      from splitter to splitter as in the code. *)
  Fixpoint first_split (fs : list (section_type * splitter)) (lines : list str)
    : res (section * list str) :=
    match fs with
    | [] => Err (RuntimeError UnknownSection)
    | (ty, f) :: fs' =>
        '(content, remaining) <- f lines ;;
        if nilb content then first_split fs' remaining
        else Ok ((ty, content), remaining)
    end.

  (** parser.py:61-83: the [while] loop; [n] bounds the iterations (each consumes a line,
      so [n = length lines] is never exhausted). *)
  Fixpoint parse_loop (n : nat) (lines : list str) : res (list section) :=
    match lines with
    | [] => Ok []
    | _ =>
        match n with
        | O => Err OutOfFuel
        | S n' =>
            '(sec, remaining) <- first_split SPLITTERS lines ;;
            rest <- parse_loop n' remaining ;;
            Ok (sec :: rest)
        end
    end.

  Definition parse_with (lines : list str) : res (list section) :=
    parse_loop (length lines) lines.
End WithBlockQuote.

(** block_quote.py:18 and formatters/block_quote.py:14:
    [LEADING_QUOTE_MARKER.sub("", line)] with [^ {0,3}>]. *)
Definition strip_quote_marker (line : str) : str :=
  match rmatch [Upto (N.eqb c_sp) 3; Is c_gt] line with
  | Some n => skipn n line
  | None => line
  end.

(** block_quote.py:103-157 [split_block_quote] and block_quote.py:84-100
    [_block_quote_ends_with_paragraph]. [lim] is the interpreter's recursion limit,
    counted in calls of these two functions. *)
Fixpoint split_block_quote (lim : nat) (lines : list str) : res split_result :=
  match lim with
  | O => Err RecursionError
  | S lim' =>
      bq_loop (split_block_quote lim') (bq_ends_with_paragraph lim')
              (length lines) [] lines
  end
with bq_ends_with_paragraph (lim : nat) (block_quote_lines : list str) : res bool :=
  match lim with
  | O => Err RecursionError
  | S lim' =>
      let parsing_lines := map strip_quote_marker block_quote_lines in
      sections <- with_redirect (parse_with (split_block_quote lim') parsing_lines) ;;
      match rev sections with
      | [] => Err (Redirected IndexError)         (* parse_markdown(...)[-1] *)
      | (ty, content) :: _ =>
          match ty with
          | BLOCK_QUOTE => bq_ends_with_paragraph lim' content
          | PARAGRAPH => Ok true
          | _ => Ok false
          end
      end
  end.

(** parser.py:56-83 [parse_markdown] *)
Definition parse_markdown (lim : nat) (lines : list str) : res (list section) :=
  parse_with (split_block_quote lim) lines.
