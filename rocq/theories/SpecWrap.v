(** Vocabulary of the wrapping properties. *)
From Coq Require Import String.
From Verif Require Import Py SpecLines.

(** [n] characters fit into the width; a width below one means no limit. *)
Definition fits (w : width) (n : nat) : Prop :=
  match w with
  | WInt z => (z <= 0 \/ Z.of_nat n <= z)%Z
  | WInf => True
  | WFloat q => (q <= 0)%Q \/ (inject_Z (Z.of_nat n) <= q)%Q
  end.

(** A piece of text, and whether a space separates it from the piece before it. *)
Definition piece : Type := str * bool.

(** Words as pieces. *)
Definition words_as_pieces (ws : list str) : list piece := map (fun word => (word, true)) ws.

(** A piece put at the end of a line. *)
Definition put (line : str) (p : piece) : str :=
  match line, p with
  | [], (text, _) => text
  | _, (text, true) => line ++ [c_sp] ++ text
  | _, (text, false) => line ++ text
  end.

Definition line_of (ps : list piece) : str := fold_left put ps [].

(** An HTML line break, possibly with more text after it. *)
Definition br_tags : list str := [lit "<br>"; lit "<br/>"; lit "<br >"; lit "<br />"].
Definition html_break (p : piece) : Prop :=
  exists tag t, fst p = tag ++ t /\ In tag br_tags.

Definition ends_in_break (ps : list piece) : Prop := exists ps' p, ps = ps' ++ [p] /\ html_break p.

(** [lines] are the pieces filled into lines of the given width:
    - the lines are made of consecutive pieces, all pieces are used ([rest] is empty
      text) and no line is empty;
    - a line that does not fit is a single piece;
    - a new line is begun only after an HTML line break or where the next piece would
      not have fit;
    - there is a new line after every HTML line break. *)
Definition filled (w : width) (ps : list piece) (lines : list str) : Prop :=
  exists groups rest,
    ps = concat groups ++ rest /\ line_of rest = []
    /\ lines = map line_of groups
    /\ Forall (fun line => line <> []) lines
    /\ Forall (fun g => fits w (length (line_of g))
                        \/ exists p, In p g /\ line_of g = fst p) groups
    /\ (forall before g g' after, groups = before ++ g :: g' :: after ->
          ends_in_break g
          \/ exists p g1, g' = p :: g1 /\ ~ fits w (length (put (line_of g) p)))
    /\ Forall (fun g => forall g1 p g2, g = g1 ++ p :: g2 -> html_break p -> g2 = []) groups.

(** The text without its whitespace. *)
Definition ink (s : str) : str := filter not_space s.

(** The lines of a text on one line. *)
Definition joined (text : str) : str := str_join [c_sp] (map strip (splitlines text)).

(** Links (or what looks like their middle, "](" or "][") are apart: between two of them the
    first is closed, and then a bracket is opened. Links of the same kind can touch, as in
    "[a](b)[c](d)"; between an inline link and a reference there is whitespace. *)
Definition joints : list (str * str) := [(lit "](", lit ")"); (lit "][", lit "]")].
Definition links_apart (text : str) : Prop :=
  forall a z close b z' close' c,
    text = a ++ z ++ b ++ z' ++ c -> In (z, close) joints -> In (z', close') joints ->
    exists b1 b2 b3, b = b1 ++ close ++ b2 ++ lit "[" ++ b3
      /\ (z = z' \/ exists x, In x b2 /\ is_space x = true).

(** A word beginning with exactly one dot. *)
Definition dot_word (text : str) : Prop :=
  exists w, In w (words text) /\ (w = lit "." \/ exists c w', w = [c_dot; c] ++ w' /\ c <> c_dot).

(** What can stand between two runs of [n] backticks: something that does not contain
    a run of exactly [n] backticks, and neither begins nor ends with a backtick. *)
Definition code_body (n : nat) (code : str) : Prop :=
  code <> []
  /\ (forall x, code <> c_bt :: x) /\ (forall x, code <> x ++ [c_bt])
  /\ forall a b, code = a ++ repeat c_bt n ++ b ->
       (exists a', a = a' ++ [c_bt]) \/ (exists b', b = c_bt :: b').

(** Reading from the left, the text begins with these closed inline code spans (and any
    plain text before and between them). *)
Inductive code_spans : str -> list str -> Prop :=
| spans_end s : code_spans s []
| spans_span plain n code rest spans :
    ~ In c_bt plain -> 0 < n -> code_body n code -> (forall r, rest <> c_bt :: r) ->
    code_spans rest spans ->
    code_spans (plain ++ (repeat c_bt n ++ code ++ repeat c_bt n) ++ rest)
      ((repeat c_bt n ++ code ++ repeat c_bt n) :: spans).

(** Reading from the left, the text is plain text and closed inline code spans. *)
Inductive spans_read : str -> Prop :=
| read_plain s : ~ In c_bt s -> spans_read s
| read_span plain n code rest :
    ~ In c_bt plain -> 0 < n -> code_body n code -> (forall r, rest <> c_bt :: r) ->
    spans_read rest ->
    spans_read (plain ++ (repeat c_bt n ++ code ++ repeat c_bt n) ++ rest).

(** Inline code as it stands in a text: from a run of [n] backticks outside of other
    inline code to the next run of [n] backticks or, if there is none, to the last
    backtick of the text; possibly with the full stop after it. *)
Definition code_in (text t : str) : Prop :=
  exists before n code m dot after,
    text = before ++ t ++ after /\ t = repeat c_bt n ++ code ++ repeat c_bt m ++ dot
    /\ spans_read before /\ (forall b, before <> b ++ [c_bt])
    /\ 0 < n /\ code_body n code /\ 0 < m /\ (m = n \/ ~ In c_bt after)
    /\ In dot [[]; lit "."] /\ (forall r, dot ++ after <> c_bt :: r).

(** The second half of a link as it stands in a text: what comes after the joint (and
    whitespace), possibly with a full stop after it. If links are apart, it ends with
    the word in which the link is closed. *)
Definition link_half_in (text t : str) : Prop :=
  exists before z close ws half after,
    In (z, close) joints /\ text = before ++ z ++ ws ++ half ++ after /\ spaces ws
    /\ (links_apart text ->
        exists u r, half = u ++ close ++ r /\ (forall a b, u <> a ++ close ++ b)
          /\ Forall (fun c => is_space c = false) r)
    /\ (t = half \/ t = half ++ lit ".").

(** A piece of the text inside which no line is ever broken: one without spaces, inline
    code, an HTML line break, or the second half of a link. *)
Definition solid (text t : str) : Prop :=
  ~ In c_sp t \/ code_in text t \/ In t br_tags \/ link_half_in text t.

(** Text without inline code, links and HTML line breaks. *)
Definition markup : list str := [lit "`"; lit "]("; lit "]["; lit "<br"].
Definition plain (text : str) : Prop :=
  forall word z a b, In word (words text) -> In z markup -> word <> a ++ z ++ b.

(** After its first [i] characters that are not whitespace, the text has the whitespace
    [ws] and then more characters. *)
Definition gap_at (s : str) (i : nat) (ws : str) : Prop :=
  exists a x y b, s = a ++ [x] ++ ws ++ [y] ++ b
    /\ is_space x = false /\ is_space y = false
    /\ spaces ws /\ ws <> [] /\ length (ink (a ++ [x])) = i.

(** Text without links (and without anything that looks like the middle of a link). *)
Definition linkless (text : str) : Prop :=
  forall word z a b, In word (words text) -> In z [lit "]("; lit "]["] -> word <> a ++ z ++ b.

(** Text whose whitespace is spaces and line separators. *)
Definition plain_space (text : str) : Prop :=
  Forall (fun c => is_space c = true -> c = c_sp \/ is_linebreak c = true) text.

(** After its first [i] characters that are not whitespace the text has whitespace in or
    beside a link: in front of the "](" or "][" in its middle, after it, or between a word
    with a closing and a word with an opening bracket. *)
Definition link_gap (text : str) (i : nat) : Prop :=
  exists u a b v, words text = u ++ [a; b] ++ v /\ length (concat (u ++ [a])) = i
    /\ ((exists z r, In z [lit "]("; lit "]["] /\ b = z ++ r)
        \/ (exists z r, In z [lit "]("; lit "]["] /\ a = r ++ z)
        \/ ((In c_rpar a \/ In c_rbr a) /\ In c_lbr b)).
