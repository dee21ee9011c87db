(** Vocabulary of property C74: where the lines of a formatted text come from, and how
    wide they may be. *)
From Coq Require Import String.
From Verif Require Import Py Detectors SpecLines SpecParser SpecFormat SpecWrap SpecList SpecQuote SpecErrors.
Local Open Scope nat_scope.

(** The entries of the list [content]. *)
Definition entries_of (content : list str) (entries : list (list str)) : Prop :=
  partition_of content entries /\ (fences_unindented content -> entries_start_right entries).

(** [placed w lines before w' lines']: if the text [lines] is formatted to the width [w],
    the text [lines'] within it is formatted to the width [w'], and [before] stands in
    front of one of its lines: the markers of the block quotes, and the markers of the list
    entries or spaces instead of them. *)
Inductive placed : width -> list str -> str -> width -> list str -> Prop :=
| placed_here w lines : placed w lines [] w lines
| placed_quote w lines content ws l rest inner prefix w1 before w' lines' :
    section_of lines BLOCK_QUOTE content ->
    content = (ws ++ c_gt :: l) :: rest -> spaces ws ->
    quotes content inner prefix ->
    narrower w (Z.of_nat (length prefix) - Z.of_nat (length ws)) w1 ->
    placed w1 inner before w' lines' ->
    placed w lines (prefix ++ before) w' lines'
| placed_bullet w lines content ws b body rest entries entry inner lead w1 before w' lines' :
    section_of lines BULLET_LIST content ->
    content = (ws ++ b :: body) :: rest -> spaces ws -> In b [c_star; c_plus; c_dash] ->
    entries_of content entries -> In entry entries -> dedented entry inner ->
    In lead [[b; c_sp]; [c_sp; c_sp]] ->
    narrower w 2 w1 ->
    placed w1 inner before w' lines' ->
    placed w lines (lead ++ before) w' lines'
| placed_number w lines content ws ds body rest entries k entry num largest inner lead w1
    before w' lines' :
    section_of lines ORDERED_LIST content ->
    content = (ws ++ ds ++ c_dot :: body) :: rest -> spaces ws -> digits ds ->
    entries_of content entries -> nth_error entries k = Some entry -> dedented entry inner ->
    decimal (digits_val ds + N.of_nat k) num ->
    decimal (digits_val ds + N.of_nat (length entries) - 1) largest ->
    In lead [num ++ [c_dot; c_sp]; repeat c_sp (length largest + 2)] ->
    narrower w (Z.of_nat (length largest) + 2) w1 ->
    placed w1 inner before w' lines' ->
    placed w lines (lead ++ before) w' lines'.

(** Lines of a formatted text that may be wider than [w]: a piece of a paragraph or of the
    text of a heading that is not broken, the line under such a heading, and the lines of
    the sections that are not wrapped. *)
Definition excused (w : width) (lines : list str) (t : str) : Prop :=
  exists ty c, section_of lines ty c /\
  match ty with
  | PARAGRAPH => solid (joined (str_join [c_sp] (map strip c))) t
  | SETEXT_HEADING =>
      exists heading u p, c = heading ++ [u]
        /\ solid (joined (str_join [c_sp] (map strip heading))) p
        /\ (t = p \/ exists ch, In ch [c_eq; c_dash] /\ t = repeat ch (length p))
  | ATX_HEADING | FENCED_CODE_BLOCK | INDENTED_CODE_BLOCK | LINK_REFERENCE_DEFINITION | TABLE =>
      exists lim i r, section_text lim w i ty c r /\ In t (splitlines (r ++ [c_nl]))
  | _ => False
  end.

(** The same text, whatever whitespace is at the end. *)
Definition alike (a b : str) : Prop := exists r, rtrims a r /\ rtrims b r.

(** A line of the formatted text: something that stands before the lines of a text within,
    and a line of that text. The latter fits into the width that the text within has, or it
    has an excuse. *)
Definition laid (w : width) (lines : list str) (l : str) : Prop :=
  exists before w' lines' t,
    placed w lines before w' lines' /\ alike l (before ++ t)
    /\ (fits w' (length t) \/ excused w' lines' t).

(** No block quote of the text, or within it, is indented. *)
Definition quotes_flush (lines : list str) : Prop :=
  forall lines' content, within lines lines' -> section_of lines' BLOCK_QUOTE content ->
    exists l rest, content = (c_gt :: l) :: rest.

(** A line without code, tables, links, HTML line breaks and headings that begin with [#],
    without four spaces in a row and without a space before [>]. *)
Definition modest (l : str) : Prop :=
  Forall (fun c => ~ In c (lit "`~|#]<")) l
  /\ (forall a ws b, l = a ++ ws ++ b -> spaces ws -> length ws < 4)
  /\ (forall a x b, l = a ++ x :: c_gt :: b -> is_space x = false).
