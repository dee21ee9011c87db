(** markflow/_utils/textwrap.py

    The three parallel lists [split_text], [leading_spaces], [evaluates] are modelled as
    one list of triples: every path of the four split functions appends to the three
    lists in step (two tests of "[not leading_spaces]" become "no token yet"). *)
From Verif Require Import Py Regex.

Record tok := Tok { t_text : str; t_lead : bool; t_eval : bool }.

(** textwrap.py:6 [INLINE_CODE_MARKER_REGEX]. The look-ahead [(?!<\\)] before a
    backtick always succeeds, so the pattern is one or more backticks. *)
Definition INLINE_CODE_MARKER_REGEX : list ritem := Plus (N.eqb c_bt).

Definition not_in (cs : list char) (c : char) : bool := negb (existsb (N.eqb c) cs).
(* [^\s cs] *)
Definition not_in_s (cs : list char) (c : char) : bool := negb (is_space c) && not_in cs c.

(** textwrap.py:7 [[^\s\]\)]*\[[^\[]+\]\[[^\]]+\][^\s\[\(]*] *)
Definition FOOTNOTE_REGEX : list ritem :=
  [Star (not_in_s [c_rbr; c_rpar]); Is c_lbr] ++ Plus (not_in [c_lbr])
  ++ [Is c_rbr; Is c_lbr] ++ Plus (not_in [c_rbr])
  ++ [Is c_rbr; Star (not_in_s [c_lbr; c_lpar])].

(** textwrap.py:9 [[^\s\]\)]*\[[^\[]+\]\([^\)]+\)[^\s\[\(]*] *)
Definition URL_REGEX : list ritem :=
  [Star (not_in_s [c_rbr; c_rpar]); Is c_lbr] ++ Plus (not_in [c_lbr])
  ++ [Is c_rbr; Is c_lpar] ++ Plus (not_in [c_rpar])
  ++ [Is c_rpar; Star (not_in_s [c_lbr; c_lpar])].

(** textwrap.py:8 [<br ?/?>] *)
Definition HTML_NEWLINE_REGEX : list ritem :=
  [Is c_lt; Is c_b; Is c_r; Opt (N.eqb c_sp); Opt (N.eqb c_slash); Is c_gt].

Definition is_html_newline (word : str) : bool :=
  match rmatch HTML_NEWLINE_REGEX word with Some _ => true | None => false end.

(** textwrap.py:12-30 [join]. The list [new_split_text] is [done ++ [cur]]. *)
Definition join_step (w : width) (st : list str * str) (t : tok) : list str * str :=
  let '(done, cur) := st in
  let word := t_text t in
  let potential :=
    if t_lead t && negb (nilb cur) then cur ++ [c_sp] ++ word else cur ++ word in
  let '(done, cur) :=
    if len_le (length potential) w || nilb cur || width_nonpos w
    then (done, potential) else (done ++ [cur], word) in
  if is_html_newline word then (done ++ [cur], []) else (done, cur).

Definition join (toks : list tok) (w : width) : str :=
  let '(done, cur) := fold_left (join_step w) toks ([], []) in
  let lines := if nilb cur then done else done ++ [cur] in
  str_join [c_nl] lines.

(** [split_text\[-1\] += x]; callers make sure the list is not empty. *)
Fixpoint app_last (ts : list tok) (x : str) : list tok :=
  match ts with
  | [] => []
  | [t] => [Tok (t_text t ++ x) (t_lead t) (t_eval t)]
  | t :: ts' => t :: app_last ts' x
  end.

(** [evaluates\[-1\] = True] *)
Fixpoint eval_last (ts : list tok) : list tok :=
  match ts with
  | [] => []
  | [t] => [Tok (t_text t) (t_lead t) true]
  | t :: ts' => t :: eval_last ts'
  end.

(** [s.startswith(".") and not s.startswith("..")] *)
Definition one_dot (s : str) : bool :=
  startswith [c_dot] s && negb (startswith [c_dot; c_dot] s).

(** textwrap.py:46-81, one iteration of the loop of [code_split]; the state is
    (tokens, [open_marker_len], [last_end]). *)
Definition code_step (text : str) (leading_space : bool)
    (st : list tok * nat * nat) (m : nat * nat) : list tok * nat * nat :=
  let '(ts, open_marker_len, last_end) := st in
  let '(m_start, m_end) := m in
  if open_marker_len =? 0 then
    let plaintext := slice text last_end m_start in
    let dot := one_dot plaintext && negb (nilb ts) in
    let ts := if dot then app_last ts [c_dot] else ts in
    let plaintext := if dot then tl plaintext else plaintext in
    let ts :=
      if negb (blank plaintext)
      then ts ++ [Tok (strip plaintext)
                      (if nilb ts then leading_space else startswith [c_sp] plaintext)
                      true]
      else ts in
    let open_marker_len := m_end - m_start in
    let ts := ts ++ [Tok (rep c_bt open_marker_len)
                         (if nilb ts then leading_space else endswith [c_sp] plaintext)
                         false] in
    (ts, open_marker_len, m_end)
  else if m_end - m_start =? open_marker_len then
    let code := slice text last_end m_start in
    (app_last ts (code ++ rep c_bt open_marker_len), 0, m_end)
  else
    (app_last ts (slice text last_end m_end), open_marker_len, m_end).

Definition last_text (ts : list tok) : str :=
  match rev ts with [] => [] | t :: _ => t_text t end.

(** Common tail of [code_split] (textwrap.py:90-104) and [link_split]
    (textwrap.py:177-191): the code is identical in both functions. *)
Definition split_tail (ts : list tok) (remaining_text : str) (last_end : nat)
    (leading_space : bool) : res (list tok) :=
  '(ts, remaining_text) <-
    (if one_dot remaining_text then
       match ts with
       | [] => Err IndexError                     (* split_text[-1] += "." *)
       | _ => Ok (app_last ts [c_dot], tl remaining_text)
       end
     else Ok (ts, remaining_text)) ;;
  if negb (blank remaining_text) then
    Ok (ts ++ [Tok (strip remaining_text)
                   (if last_end =? 0 then leading_space
                    else startswith [c_sp] remaining_text) true])
  else Ok ts.

(** textwrap.py:33-106 [code_split] *)
Definition code_split (text : str) (leading_space : bool) : res (list tok) :=
  let '(ts, _, last_end) :=
    fold_left (code_step text leading_space)
              (finditer INLINE_CODE_MARKER_REGEX text) ([], 0, 0) in
  if negb (nilb ts)
     && (length (finditer INLINE_CODE_MARKER_REGEX (last_text ts)) =? 1)
  then
    let ts := eval_last ts in
    let rest := skipn last_end text in
    if negb (blank rest) then Ok (app_last ts (rstrip rest)) else Ok ts
  else split_tail ts (skipn last_end text) last_end leading_space.

(** [matches.sort(key=lambda m: m.start())], stable. *)
Fixpoint insert_match (m : nat * nat) (l : list (nat * nat)) : list (nat * nat) :=
  match l with
  | [] => [m]
  | x :: l' => if fst m <=? fst x then m :: l else x :: insert_match m l'
  end.
Definition sort_matches (l : list (nat * nat)) : list (nat * nat) :=
  fold_right insert_match [] l.

(** textwrap.py:164-171: the two pieces a link is cut into. *)
Definition split_link (group : str) : res (str * str) :=
  if contains [c_rbr; c_lpar] group then
    match split_on2 c_rbr c_lpar group with
    | a :: b :: _ => Ok (strip a ++ [c_rbr; c_lpar], strip b)
    | _ => Err IndexError
    end
  else
    match split_on2 c_rbr c_lbr group with
    | a :: b :: _ => Ok (strip a ++ [c_rbr; c_lbr], strip b)
    | _ => Err IndexError
    end.

(** textwrap.py:139-175, one iteration of the loop of [link_split]; the state is
    (tokens, [last_end]). *)
Definition link_step (text : str) (leading_space : bool)
    (st : list tok * nat) (m : nat * nat) : res (list tok * nat) :=
  let '(ts, last_end) := st in
  let '(m_start, m_end) := m in
  let non_link_text := slice text last_end m_start in
  let '(ts, lead_link) :=
    if negb (blank non_link_text) then
      let dot := negb (nilb ts) && one_dot non_link_text in
      let ts := if dot then app_last ts [c_dot] else ts in
      let non_link_text := if dot then tl non_link_text else non_link_text in
      (ts ++ [Tok (strip non_link_text)
                  (if nilb ts then leading_space
                   else startswith [c_sp] non_link_text) true],
       match nth_error text (m_start - 1) with
       | Some c => N.eqb c c_sp
       | None => false
       end)
    else (ts, if nilb ts then leading_space else false) in
  '(text_part, link_part) <- split_link (slice text m_start m_end) ;;
  Ok (ts ++ [Tok text_part lead_link true; Tok link_part false false], m_end).

Fixpoint foldM {A S} (f : S -> A -> res S) (l : list A) (s : S) : res S :=
  match l with
  | [] => Ok s
  | a :: l' => s' <- f s a ;; foldM f l' s'
  end.

(** textwrap.py:129-131 *)
Definition link_matches (text : str) : list (nat * nat) :=
  sort_matches (finditer FOOTNOTE_REGEX text ++ finditer URL_REGEX text).

(** textwrap.py:109-193 [link_split] *)
Definition link_split (text : str) (leading_space : bool) : res (list tok) :=
  '(ts, last_end) <- foldM (link_step text leading_space) (link_matches text) ([], 0) ;;
  split_tail ts (skipn last_end text) last_end leading_space.

(** textwrap.py:205-219, one iteration of the loop of [newline_split]. *)
Definition newline_step (text : str) (leading_space : bool)
    (st : list tok * nat) (m : nat * nat) : list tok * nat :=
  let '(ts, last_end) := st in
  let '(m_start, m_end) := m in
  let non_newline_text := slice text last_end m_start in
  let lead :=
    if nilb ts then leading_space
    else match nth_error text last_end with
         | Some c => N.eqb c c_sp
         | None => false
         end in
  if negb (blank non_newline_text) then
    (ts ++ [Tok (strip non_newline_text) lead true;
            Tok (slice text m_start m_end) (endswith [c_sp] non_newline_text) false],
     m_end)
  else (ts ++ [Tok (slice text m_start m_end) lead false], m_end).

(** textwrap.py:196-229 [newline_split] *)
Definition newline_split (text : str) (leading_space : bool) : res (list tok) :=
  let '(ts, last_end) :=
    fold_left (newline_step text leading_space)
              (finditer HTML_NEWLINE_REGEX text) ([], 0) in
  let rest := skipn last_end text in
  if negb (blank rest) then
    Ok (ts ++ [Tok (strip rest)
                   (if last_end =? 0 then leading_space else startswith [c_sp] rest)
                   true])
  else Ok ts.

(** textwrap.py:232-248 [space_split] *)
Definition space_step (leading_space : bool) (ts : list tok) (word : str) : list tok :=
  if nilb word then ts
  else ts ++ [Tok (strip word) (if nilb ts then leading_space else true) true].

Definition space_split (text : str) (leading_space : bool) : res (list tok) :=
  Ok (fold_left (space_step leading_space) (split_on c_sp text) []).

(** textwrap.py:260-275, one pass of [wrap]'s outer loop. *)
Definition split_pass (f : str -> bool -> res (list tok)) (ts : list tok)
  : res (list tok) :=
  tss <- mapM (fun t => if t_eval t then f (t_text t) (t_lead t) else Ok [t]) ts ;;
  Ok (concat tss).

(** textwrap.py:251-277 [wrap] *)
Definition wrap (text : str) (w : width) : res str :=
  let text := str_join [c_sp] (map strip (splitlines text)) in
  ts <- split_pass code_split [Tok text false true] ;;
  ts <- split_pass link_split ts ;;
  ts <- split_pass newline_split ts ;;
  ts <- split_pass space_split ts ;;
  Ok (join ts w).
