(** markflow/formatters/*.py and [_reformat_markdown_text] of
    markflow/reformat_markdown.py *)
From Verif Require Import Py Regex Utils TextWrap Lines Detectors.

(** * Leaf sections *)

(** atx_heading.py:41-47 [depth], atx_heading.py:33-39 [content] *)
Definition atx_depth (line : str) : nat :=
  length (strip line) - length (lstrip_by (N.eqb c_hash) (strip line)).
Definition atx_content (line : str) : str :=
  strip (lstrip_by (N.eqb c_hash) (strip line)).

(** atx_heading.py:57-67 (the warning is not modelled) *)
Definition fmt_atx_heading (lines : list str) : res str :=
  match lines with
  | [] => Err IndexError
  | l :: _ => Ok (rep c_hash (atx_depth l) ++ [c_sp] ++ atx_content l)
  end.

(** blank_line.py:33-35 *)
Definition fmt_blank_line (lines : list str) : res str := Ok [].

(** indented_code_block.py:40-41 *)
Definition fmt_indented_code_block (lines : list str) : res str :=
  Ok (str_join [c_nl] (map rstrip lines)).

(** fenced_code_block.py:47-49 [fence_char]; [strip()\[0\]] *)
Definition first_char (s : str) : res char :=
  match s with [] => Err IndexError | c :: _ => Ok c end.

(** fenced_code_block.py:51-55 [fence_count] *)
Definition fence_count (fence_char : char) (line : str) : nat :=
  length (strip line) - length (lstrip_by (N.eqb fence_char) (strip line)).

(** fenced_code_block.py:64-66 [language] *)
Definition fence_language (fence_char : char) (line : str) : str :=
  strip (lstrip_by (N.eqb fence_char) (strip line)).

(** fenced_code_block.py:71-74 *)
Definition fmt_fenced_code_block (lines : list str) : res str :=
  match lines with
  | [] => Err IndexError
  | l :: _ =>
      fence_char <- first_char (strip l) ;;
      let fence := rep fence_char (fence_count fence_char l) in
      let new_lines := [fence ++ fence_language fence_char l] ++ inner lines ++ [fence] in
      Ok (str_join [c_nl] (map rstrip new_lines))
  end.

(** thematic_break.py:37-46 *)
Definition fmt_thematic_break (lines : list str) (w : width) : res str :=
  match lines with
  | [] => Err IndexError
  | l :: _ =>
      match w with
      | WInf => c <- first_char (strip l) ;; Ok (rep c 3)
      | WFloat _ => Err (RuntimeError InvalidWidth)
      | WInt z => c <- first_char (strip l) ;; Ok (rep c (Z.to_nat z))
      end
  end.

(** paragraph.py:12-15 [content], paragraph.py:20-24 *)
Definition fmt_paragraph (lines : list str) (w : width) : res str :=
  text <- wrap (str_join [c_sp] (map strip lines)) w ;;
  match rev lines with
  | [] => Err IndexError
  | l :: _ => Ok (if endswith [c_sp; c_sp] l then text ++ [c_sp; c_sp] else text)
  end.

(** [max(...)] of a possibly empty sequence *)
Definition max_list (l : list nat) : res nat :=
  match l with
  | [] => Err ValueError
  | n :: l' => Ok (fold_left Nat.max l' n)
  end.

(** setext_heading.py:37-60 *)
Definition fmt_setext_heading (lines : list str) (w : width) : res str :=
  if length lines <? 2 then Err (RuntimeError Uninitialized)
  else
    heading_str <- wrap (str_join [c_sp] (map strip (removelast lines))) w ;;
    heading_len <- max_list (map (@length char) (splitlines heading_str)) ;;
    c <- first_char (strip (last lines [])) ;;
    Ok (heading_str ++ [c_nl] ++ rep c heading_len).

(** * Link reference definitions *)

(** link_reference_definition.py:37-45 [LINK_REFERENCE_DEFINITION_REGEX]: after the
    colon every component is greedy over a class disjoint from the next one (or can
    match the empty string), so there is no backtracking. *)
Definition lrd_groups_at (s : str) : option (str * str * str) :=
  match rmatch LINK_REFERENCE_DEFINITION_FIRST_ELEMENT_REGEX s with
  | None => None
  | Some e =>
      let name := slice s 1 (e - 2) in
      let rest := lstrip (skipn e s) in
      let link := take_while not_space rest in
      let title := take_while (fun c => negb (N.eqb c c_nl))
                              (lstrip (lstrip_by not_space rest)) in
      Some (name, link, title)
  end.

(** [LINK_REFERENCE_DEFINITION_REGEX.search] *)
Fixpoint lrd_groups (s : str) : option (str * str * str) :=
  match lrd_groups_at s with
  | Some g => Some g
  | None => match s with [] => None | _ :: s' => lrd_groups s' end
  end.

(** link_reference_definition.py:49-78 [name], [link], [title] *)
Definition lrd_parts (lines : list str) : res (str * str * str) :=
  match lrd_groups (str_join [c_sp] lines) with
  | None => Err (RuntimeError InvalidLinkRef)
  | Some (name, link, title) => Ok (name, link, str_join [c_sp] (words title))
  end.

Definition nth_line (lines : list str) (i : nat) : res str :=
  match nth_error lines i with Some l => Ok l | None => Err IndexError end.

(** link_reference_definition.py:83-112 *)
Definition fmt_link_reference_definition (lines : list str) (w : width) : res str :=
  '(name, link, title) <- lrd_parts lines ;;
  let str_ := [c_lbr] ++ name ++ [c_rbr; c_colon] in
  if nilb link then Ok str_
  else
    l0 <- nth_line lines 0 ;;
    let '(last_index, str_) :=
      if contains link l0 then (0, str_ ++ [c_sp] ++ link)
      else (1, str_ ++ [c_nl] ++ link) in
    match words title with
    | [] => Ok str_                                (* if not title *)
    | first_word :: _ =>
        line <- nth_line lines last_index ;;
        if contains first_word line then
          let str_lines := splitlines str_ in
          let last_line := last str_lines [] in
          if len_le (length first_word + length last_line) w then
            wrapped <- wrap (last_line ++ [c_sp] ++ title) w ;;
            Ok (str_join [c_nl] (removelast str_lines ++ [wrapped]))
          else
            wrapped <- wrap title w ;;
            Ok ([c_nl] ++ wrapped)                 (* line 108: str_ is overwritten *)
        else
          wrapped <- wrap title w ;;
          Ok (str_ ++ [c_nl] ++ wrapped)
    end.

(** * Tables *)

(** table.py:14-18 *)
Inductive alignment := ANone | ACenter | ALeft | ARight.

(** table.py:21-35; a negative padding gives no spaces. *)
Definition center_align (text : str) (w : nat) : str :=
  let padding := w - length text in
  rep c_sp (padding / 2) ++ text ++ rep c_sp (padding - padding / 2).
Definition left_align (text : str) (w : nat) : str :=
  text ++ rep c_sp (w - length text).
Definition right_align (text : str) (w : nat) : str :=
  rep c_sp (w - length text) ++ text.

(** table.py:11 [COLUMN_DIVIDER_REGEX.split(line)]: split at the bars that do not follow
    a backslash. *)
Fixpoint split_unescaped (prev_bslash : bool) (s : str) : list str :=
  match s with
  | [] => [[]]
  | c :: s' =>
      if N.eqb c c_bar && negb prev_bslash then [] :: split_unescaped false s'
      else match split_unescaped (N.eqb c c_bslash) s' with
           | [] => [[c]]
           | w :: ws => (c :: w) :: ws
           end
  end.

(** [COLUMN_DIVIDER_REGEX.split(line)\[1:-1\]] *)
Definition table_cells (line : str) : list str := inner (split_unescaped false line).

(** table.py:53-62 *)
Definition divider_alignment (divider : str) : alignment :=
  let d := strip divider in
  if startswith [c_colon] d && endswith [c_colon] d then ACenter
  else if startswith [c_colon] d then ALeft
  else if endswith [c_colon] d then ARight
  else ANone.
Definition table_alignments (divider_line : str) : list alignment :=
  map divider_alignment (split_on c_bar (inner (strip divider_line))).

(** table.py:64-70; [i] is the enumeration index, starting at 2. *)
Fixpoint check_columns (line_index header_count i : nat) (widths : list (list nat))
  : res unit :=
  match widths with
  | [] => Ok tt
  | ws :: rest =>
      if length ws =? header_count then check_columns line_index header_count (S i) rest
      else Err (MarkdownFormatException (line_index + i + 1) header_count (length ws))
  end.

(** table.py:72-76, the update of [new_column_widths] by one row. *)
Fixpoint widen (new_widths widths : list nat) : list nat :=
  match new_widths, widths with
  | n :: ns, w :: ws => (if n <? w then w else n) :: widen ns ws
  | ns, _ => ns
  end.

(** [zip] of two and three lists *)
Fixpoint zip2 {A B} (a : list A) (b : list B) : list (A * B) :=
  match a, b with x :: a', y :: b' => (x, y) :: zip2 a' b' | _, _ => [] end.

(** table.py:82-93 *)
Definition header_cell (hwa : str * (nat * alignment)) : str :=
  let '(header, (w, a)) := hwa in
  let header := strip header in
  [c_sp] ++ match a with
            | ACenter => center_align header w
            | ALeft => left_align header w
            | ARight => right_align header w
            | ANone => center_align header w
            end ++ [c_sp].

(** table.py:98-107 *)
Definition divider_cell (wa : nat * alignment) : str :=
  let '(w, a) := wa in
  match a with
  | ACenter => [c_colon] ++ rep c_dash w ++ [c_colon]
  | ALeft => [c_colon] ++ rep c_dash w ++ [c_dash]
  | ARight => [c_dash] ++ rep c_dash w ++ [c_colon]
  | ANone => [c_dash] ++ rep c_dash w ++ [c_dash]
  end.

(** table.py:113-124 *)
Definition body_cell (cwa : str * (nat * alignment)) : str :=
  let '(column, (w, a)) := cwa in
  let column := strip column in
  [c_sp] ++ match a with
            | ACenter => center_align column w
            | ALeft => left_align column w
            | ARight => right_align column w
            | ANone => left_align column w
            end ++ [c_sp].

(** ["|" + "|".join(cells) + "|"] *)
Definition table_row (cells : list str) : str :=
  [c_bar] ++ str_join [c_bar] cells ++ [c_bar].

(** Lengths of the trimmed cells of one line (table.py:48-50). *)
Definition cell_widths (line : str) : list nat :=
  map (fun col => length (strip col)) (table_cells line).

(** table.py:42-127 *)
Definition fmt_table (line_index : nat) (lines : list str) : res str :=
  match lines with
  | header :: divider :: body =>
      let header_widths := cell_widths header in
      let body_widths := map cell_widths body in
      let alignments := table_alignments divider in
      _ <- check_columns line_index (length header_widths) 2 body_widths ;;
      let column_widths :=
        fold_left widen (header_widths :: body_widths) (map (fun _ => 0) header_widths) in
      let wa := zip2 column_widths alignments in
      let header_line := table_row (map header_cell (zip2 (table_cells header) wa)) in
      let divider_line := table_row (map divider_cell wa) in
      let body_lines :=
        map (fun line => table_row (map body_cell (zip2 (inner (split_on c_bar line)) wa)))
            body in
      Ok (str_join [c_nl] (header_line :: divider_line :: body_lines))
  | _ => Err IndexError                            (* self.lines[1] *)
  end.

(** * Lists *)

(** lists.py:14-23 [MARKER_REGEX.match(line)], as the end of group 1:
    [^\s*(\*|-|\+|[0-9]+\.)($| )]. *)
Definition marker_end (line : str) : option nat :=
  let s := lstrip line in
  let ind := length line - length s in
  let len :=
    match s with
    | [] => None
    | c :: _ =>
        if N.eqb c c_star || N.eqb c c_dash || N.eqb c c_plus then Some 1
        else if is_digit c then
          let r := lstrip_by is_digit s in
          match r with
          | d :: _ => if N.eqb d c_dot then Some (S (length s - length r)) else None
          | [] => None
          end
        else None
    end in
  match len with
  | None => None
  | Some n =>
      let ok := match skipn n s with
                | [] => true                       (* $ *)
                | [c] => N.eqb c c_nl || N.eqb c c_sp   (* $ before a final newline *)
                | c :: _ => N.eqb c c_sp
                end in
      if ok then Some (ind + n) else None
  end.

(** lists.py:39-57 *)
Definition list_marker_end_pos (line : str) : res nat :=
  match marker_end line with
  | Some n => Ok n
  | None => Err (RuntimeError NoListMarker)
  end.

(** lists.py:24, 67 *)
Definition is_list_fence (line : str) : bool :=
  existsb (fun f => startswith (rep f 3) (lstrip line)) [c_bt; c_tilde].

(** lists.py:68-72 (note: [len(line.lstrip()) - len(line.lstrip(symbol))], negative for
    an indented fence, and a negative repetition is the empty string) *)
Definition code_block_marker (line : str) : str :=
  match lstrip line with
  | [] => []
  | symbol :: _ =>
      rep symbol (length (lstrip line) - length (lstrip_by (N.eqb symbol) line))
  end.

(** lists.py:61-66: state of the loop of [_split_list]. *)
Record sl_state := SL {
  sl_in_code : bool;
  sl_code_end : str;
  sl_max_indent : nat;
  sl_entries : list (list str)
}.

(** [list_entries\[-1\].append(line)] *)
Fixpoint append_to_last (entries : list (list str)) (line : str)
  : res (list (list str)) :=
  match entries with
  | [] => Err IndexError
  | [e] => Ok [e ++ [line]]
  | e :: es => es' <- append_to_last es line ;; Ok (e :: es')
  end.

(** lists.py:66-89, one iteration. *)
Definition split_list_step (st : sl_state) (line : str) : res sl_state :=
  let '(in_code, code_end) :=
    if is_list_fence line then
      let marker := code_block_marker line in
      if sl_in_code st then
        if str_eqb (sl_code_end st) marker then (false, sl_code_end st)
        else (true, sl_code_end st)
      else (true, marker)
    else (sl_in_code st, sl_code_end st) in
  match marker_end line with
  | Some list_indent =>
      if negb in_code && (get_indent line <=? sl_max_indent st) then
        Ok (SL in_code code_end list_indent (sl_entries st ++ [[line]]))
      else
        entries <- append_to_last (sl_entries st) line ;;
        Ok (SL in_code code_end (sl_max_indent st) entries)
  | None =>
      entries <- append_to_last (sl_entries st) line ;;
      Ok (SL in_code code_end (sl_max_indent st) entries)
  end.

(** lists.py:60-90 [_split_list] *)
Definition split_list (lines : list str) : res (list (list str)) :=
  match lines with
  | [] => Err IndexError
  | l :: _ =>
      max_indent <- list_marker_end_pos l ;;
      st <- foldM split_list_step lines (SL false [] max_indent []) ;;
      Ok (sl_entries st)
  end.

(** lists.py:97-102, one entry. *)
Definition dedent_entry (entry : list str) : res (list str) :=
  match entry with
  | [] => Err IndexError
  | l :: rest =>
      pos <- list_marker_end_pos l ;;
      let indent := pos + 1 in
      Ok (skipn indent l
          :: map (fun line => lstrip (firstn indent line) ++ skipn indent line) rest)
  end.

(** lists.py:93-103 [_dedent_entries] *)
Definition dedent_entries (entries : list (list str)) : res (list (list str)) :=
  mapM dedent_entry entries.

Section WithNested.
  (** [_reformat_markdown] of lists.py:28-36 and block_quote.py:19-27, i.e.
      [_reformat_markdown_text("\n".join(lines) + "\n", width)] one level down. *)
  Variable nested : list str -> width -> res str.

  (** lists.py:126-134 and 172-180: one reformatted entry after its prefix. *)
  Definition format_entry (prefix : str) (indent : nat) (w : width) (entry : list str)
    : res str :=
    text <- with_redirect (with_redirect (nested entry (width_sub w (Z.of_nat indent)))) ;;
    let text := rstrip_by (N.eqb c_nl) text in
    Ok (prefix ++ [c_sp]
        ++ str_join ([c_nl] ++ rep c_sp indent) (split_on c_nl text)).

  (** lists.py:106-137 *)
  Definition fmt_bullet_list (lines : list str) (w : width) : res str :=
    entries <- split_list lines ;;
    dedented <- dedent_entries entries ;;
    l0 <- nth_line lines 0 ;;
    marker <- first_char (lstrip l0) ;;
    texts <- mapM (format_entry [marker] 2 w) dedented ;;
    Ok (str_join [c_nl] texts).

  (** lists.py:151-158 [first_number]; [int("")] is a [ValueError]. *)
  Definition first_number (line : str) : res N :=
    match take_while is_digit (lstrip line) with
    | [] => Err ValueError
    | ds => Ok (digits_val ds)
    end.

  (** [enumerate(l, start)] *)
  Fixpoint enumerate {A} (start : N) (l : list A) : list (N * A) :=
    match l with [] => [] | a :: l' => (start, a) :: enumerate (start + 1)%N l' end.

  (** lists.py:164-183 *)
  Definition fmt_ordered_list (lines : list str) (w : width) : res str :=
    entries <- split_list lines ;;
    l0 <- nth_line lines 0 ;;
    first <- first_number l0 ;;
    let indent := length (dec (first + N.of_nat (length entries) - 1)%N) + 2 in
    dedented <- dedent_entries entries ;;
    texts <- mapM (fun '(n, entry) => format_entry (dec n ++ [c_dot]) indent w entry)
                  (enumerate first dedented) ;;
    Ok (str_join [c_nl] texts).

  (** * Block quotes *)

  (** formatters/block_quote.py:41-49: give every lazy line the depth of the last
      explicit line before it. *)
  Fixpoint fully_quote (depth : nat) (lines : list str) : list str :=
    match lines with
    | [] => []
    | l :: rest =>
        if is_explicit_block_quote_line l then
          let spaceless := concat (words l) in
          let depth := length spaceless - length (lstrip_by (N.eqb c_gt) spaceless) in
          l :: fully_quote depth rest
        else (rep c_gt depth ++ l) :: fully_quote depth rest
    end.

  (** formatters/block_quote.py:55-65 *)
  Fixpoint quote_has_space (lines : list str) : bool :=
    match lines with
    | [] => false
    | l :: rest =>
        if blank l then quote_has_space rest
        else if get_indent l =? 1 then true
        else if get_indent l =? 0 then false
        else quote_has_space rest
    end.

  (** formatters/block_quote.py:38-84. [indent] is [len(lstrip) - len], hence never
      positive, and [" " * indent] is empty. *)
  Definition fmt_block_quote (lines : list str) (w : width) : res str :=
    l0 <- nth_line lines 0 ;;
    let indent := (Z.of_nat (length (lstrip l0)) - Z.of_nat (length l0))%Z in
    let stripped := map strip_quote_marker (fully_quote 0 lines) in
    let has_space := quote_has_space stripped in
    let stripped :=
      if has_space
      then map (fun line => match line with
                            | c :: line' => if N.eqb c c_sp then line' else line
                            | [] => line
                            end) stripped
      else stripped in
    let sub_width := width_sub (width_sub w indent) 1 in
    let prefix := rep c_sp (Z.to_nat indent) ++ [c_gt] in
    let sub_width := if has_space then width_sub sub_width 1 else sub_width in
    let prefix := if has_space then prefix ++ [c_sp] else prefix in
    text <- with_redirect (nested stripped sub_width) ;;
    Ok (str_join [c_nl] (map (fun line => strip (prefix ++ line)) (splitlines text))).

  (** reformat_markdown.py:28-41 [FORMATTERS] and [reformatted(width)] *)
  Definition reformatted (ty : section_type) (line_index : nat) (lines : list str)
      (w : width) : res str :=
    match ty with
    | ATX_HEADING => fmt_atx_heading lines
    | BLANK_LINE => fmt_blank_line lines
    | BLOCK_QUOTE => fmt_block_quote lines w
    | BULLET_LIST => fmt_bullet_list lines w
    | FENCED_CODE_BLOCK => fmt_fenced_code_block lines
    | INDENTED_CODE_BLOCK => fmt_indented_code_block lines
    | LINK_REFERENCE_DEFINITION => fmt_link_reference_definition lines w
    | ORDERED_LIST => fmt_ordered_list lines w
    | PARAGRAPH => fmt_paragraph lines w
    | SETEXT_HEADING => fmt_setext_heading lines w
    | TABLE => fmt_table line_index lines
    | THEMATIC_BREAK => fmt_thematic_break lines w
    end.
End WithNested.

(** reformat_markdown.py:57 evaluates [repr(formatter)] whatever the log level; this is
    what a [__repr__] can raise: atx_heading.py:69-76, block_quote.py:86-90,
    fenced_code_block.py:57-62,76-88, indented_code_block.py:43-49,
    link_reference_definition.py:114-122, lists.py:139-147,185-193, paragraph.py:26-32,
    setext_heading.py:62-69, thematic_break.py:48-49. [truncate_str] never raises. *)
Definition repr_check (ty : section_type) (lines : list str) : res unit :=
  match ty with
  | BLANK_LINE | TABLE | PARAGRAPH => Ok tt
  | ATX_HEADING | BLOCK_QUOTE | INDENTED_CODE_BLOCK => _ <- nth_line lines 0 ;; Ok tt
  | FENCED_CODE_BLOCK =>
      _ <- (if length lines =? 2 then Ok [] else nth_line lines 1) ;;
      l0 <- nth_line lines 0 ;;
      _ <- first_char (strip l0) ;; Ok tt
  | LINK_REFERENCE_DEFINITION => _ <- lrd_parts lines ;; Ok tt
  | BULLET_LIST => l0 <- nth_line lines 0 ;; _ <- first_char (lstrip l0) ;; Ok tt
  | ORDERED_LIST => l0 <- nth_line lines 0 ;; _ <- first_number l0 ;; Ok tt
  | SETEXT_HEADING =>
      if length lines <? 2 then Err (RuntimeError Uninitialized)
      else _ <- first_char (strip (last lines [])) ;; Ok tt
  | THEMATIC_BREAK => l0 <- nth_line lines 0 ;; _ <- first_char (strip l0) ;; Ok tt
  end.

(** The formatters run inside a generator expression (reformat_markdown.py:73), where
    PEP 479 turns a [StopIteration] into a [RuntimeError] (Python 3.7 and later). *)
Definition pep479 {A} (x : res A) : res A :=
  match x with
  | Err e =>
      let fix conv e :=
        match e with
        | StopIteration => RuntimeError GeneratorStop
        | Redirected e' => Redirected (conv e')
        | _ => e
        end in
      Err (conv e)
  | _ => x
  end.

(** A formatter object: type, [line_index], lines. *)
Definition formatter : Type := section_type * nat * list str.

(** reformat_markdown.py:50-71: the loop building the formatters. [last] is
    [last_section_type], [None] for INVALID. *)
Fixpoint build_formatters (line_index : nat) (last : option section_type)
    (sections : list section) : res (list formatter) :=
  match sections with
  | [] => Ok []
  | (ty, content) :: rest =>
      _ <- repr_check ty content ;;
      fs <- build_formatters (line_index + length content) (Some ty) rest ;;
      let extra :=
        match ty, last with
        | SETEXT_HEADING, Some BLOCK_QUOTE => [(BLANK_LINE, line_index, [[]])]
        | _, _ => []
        end in
      Ok (extra ++ (ty, line_index, content) :: fs)
  end.

(** reformat_markdown.py:44-73 [_reformat_markdown_text]. [lim] is the recursion limit,
    counted in nested calls of this function. *)
Fixpoint reformat_pass (lim : nat) (text : str) (w : width) : res str :=
  match lim with
  | O => Err RecursionError
  | S lim' =>
      sections <- parse_markdown lim' (splitlines text) ;;
      fs <- build_formatters 0 None sections ;;
      let nested lines w' := reformat_pass lim' (str_join [c_nl] lines ++ [c_nl]) w' in
      outs <- pep479 (mapM (fun '(ty, line_index, lines) =>
                      reformatted nested ty line_index lines w) fs) ;;
      Ok (str_join [c_nl] outs ++ [c_nl])
  end.

(** reformat_markdown.py:76-102 [reformat_markdown_text], without its effect on the
    logging configuration (see Logging.v). *)
Definition reformat_markdown_text (lim : nat) (text : str) (w : width) : res str :=
  new_text <- reformat_pass lim text w ;;
  new_new_text <- reformat_pass lim new_text w ;;
  if str_eqb new_new_text new_text
  then Ok (rstrip new_text ++ [c_nl])
  else Err ReformatInconsistentException.
