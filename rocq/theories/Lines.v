(** markflow/detectors/_lines.py *)
From Verif Require Import Py Regex Utils.

(** [all(c == x for c in s)] *)
Definition all_are (x : char) (s : str) : bool := forallb (N.eqb x) s.

(** _lines.py:109-123 *)
Definition is_indented_code_block_start_line (line : str) : bool :=
  negb (blank line) && (4 <=? get_indent line).

(** _lines.py:30-48 *)
Definition is_atx_heading_line (line : str) : bool :=
  negb (is_indented_code_block_start_line line) && startswith [c_hash] (lstrip line).

(** _lines.py:51-65 *)
Definition is_blank_line_line (line : str) : bool := blank line.

(** _lines.py:68-85 *)
Definition is_explicit_block_quote_line (line : str) : bool :=
  negb (is_indented_code_block_start_line line) && startswith [c_gt] (lstrip line).

(** _lines.py:12 *)
Definition FENCED_CODE_BLOCK_FENCE_CHARACTERS : list char := [c_bt; c_tilde].

(** _lines.py:88-106 *)
Definition is_fenced_code_block_start_line (line : str) : bool :=
  existsb (fun fence => startswith (rep fence 3) (strip line))
          FENCED_CODE_BLOCK_FENCE_CHARACTERS.

(** _lines.py:13-20 [^\s*[*+-] ] *)
Definition BULLET_LIST_START_REGEX : list ritem :=
  [Star is_space; One (fun c => existsb (N.eqb c) [c_star; c_plus; c_dash]); Is c_sp].

(** _lines.py:21-26 [^\s*([0-9]+\.) ] *)
Definition ORDERED_LIST_START_REGEX : list ritem :=
  [Star is_space] ++ Plus is_digit ++ [Is c_dot; Is c_sp].

(** [bool(REGEX.search(line))] for a pattern anchored with [^]. *)
Definition matches (r : list ritem) (line : str) : bool :=
  match rmatch r line with Some _ => true | None => false end.

(** _lines.py:126-142 *)
Definition is_ordered_list_start_line (line : str) : bool :=
  negb (is_indented_code_block_start_line line) && matches ORDERED_LIST_START_REGEX line.

(** _lines.py:145-163 *)
Definition is_bullet_list_start_line (line : str) : bool :=
  negb (is_indented_code_block_start_line line) && matches BULLET_LIST_START_REGEX line.

(** _lines.py:223-239 *)
Definition is_table_start_line (line : str) : bool := startswith [c_bar] (lstrip line).

(** _lines.py:27 *)
Definition THEMATIC_BREAK_CHARACTERS : list char := [c_star; c_us; c_dash].

(** _lines.py:242-255; [spaceless_line.strip()] is [spaceless_line]. *)
Definition is_thematic_break_line (line : str) : bool :=
  if is_indented_code_block_start_line line then false
  else
    let spaceless_line := concat (words line) in
    if length spaceless_line <? 3 then false
    else existsb (fun symbol => all_are symbol (strip spaceless_line))
                 THEMATIC_BREAK_CHARACTERS.

(** _lines.py:198-220 *)
Definition is_setext_underline (line : str) : bool :=
  negb (is_indented_code_block_start_line line) && negb (blank line)
  && (all_are c_eq (strip line) || all_are c_dash (strip line)).

(** _lines.py:166-195 *)
Definition is_paragraph_start_line (line : str) : bool :=
  negb (existsb (fun line_checker : str -> bool => line_checker line)
    [is_indented_code_block_start_line;
     is_atx_heading_line;
     is_blank_line_line;
     is_bullet_list_start_line;
     is_explicit_block_quote_line;
     is_fenced_code_block_start_line;
     is_ordered_list_start_line;
     is_table_start_line;
     is_thematic_break_line]).
