(** Vocabulary of the link reference definition properties. *)
From Coq Require Import String.
From Verif Require Import Py SpecLines.

(** The lines define [label]; [parts] are the words after the colon: the link, if there is
    one, and the words of the title. *)
Definition defines (content : list str) (label : str) (parts : list str) : Prop :=
  exists ws body rest,
    content = (ws ++ c_lbr :: label ++ c_rbr :: c_colon :: body) :: rest /\ spaces ws
    /\ Forall (fun c => c <> c_rbr) label /\ 1 <= length label <= 999
    /\ parts = words (str_join [c_sp] (body :: rest)).

(** The definition written on one line. *)
Definition label_text (label : str) : str := [c_lbr] ++ label ++ [c_rbr; c_colon].
Definition written (label : str) (parts : list str) : str :=
  str_join [c_sp] (label_text label :: parts).

(** [n] characters are more than the width. *)
Definition longer (n : nat) (w : width) : Prop :=
  match w with
  | WInt z => (z < Z.of_nat n)%Z
  | WInf => False
  | WFloat q => (q < inject_Z (Z.of_nat n))%Q
  end.

(** * Where a definition ends *)

(** A character after [before] is not escaped: an even number of backslashes precedes it. *)
Definition unescaped (before : str) : Prop :=
  exists b n, before = b ++ repeat c_bslash (n + n) /\ (forall b', b <> b' ++ [c_bslash]).

(** There is an unescaped [q] in the line. *)
Definition has_quote (q : char) (line : str) : Prop :=
  exists a b, line = a ++ q :: b /\ unescaped a.

(** The first unescaped [q] ends the line. *)
Definition ends_quote (q : char) (line : str) : Prop :=
  exists a b, line = a ++ q :: b /\ unescaped a /\ spaces b
    /\ (forall a1 b1, a = a1 ++ q :: b1 -> ~ unescaped a1).

(** The lines of a title after its opening quote: the first closing quote ends them. *)
Definition closed (q : char) (ls : list str) : Prop :=
  exists opened line, ls = opened ++ [line] /\ Forall (fun x => ~ has_quote q x) opened
    /\ ends_quote q line.

Definition quotation (q : char) : Prop := q = c_squote \/ q = c_dquote.

Definition title_lines (ls : list str) : Prop :=
  exists q t more, ls = (q :: t) :: more /\ quotation q /\ closed q (t :: more).

(** [ls] starts with a quote that is not closed there; in the lines [rest] after it the
    quote is either closed in the middle of the first line, or the first line is the last. *)
Definition unclosed_title (ls rest : list str) : Prop :=
  exists q t more x rest', ls = (q :: t) :: more /\ rest = x :: rest' /\ quotation q
    /\ Forall (fun y => ~ has_quote q y) (t :: more)
    /\ ((has_quote q x /\ ~ ends_quote q x) \/ (rest' = [] /\ ~ has_quote q x)).

(** [l] is a label with a colon, then [body]. *)
Definition labelled (l body : str) : Prop :=
  exists ws label, l = ws ++ c_lbr :: label ++ c_rbr :: c_colon :: body
    /\ spaces ws /\ length ws < 4
    /\ Forall (fun c => c <> c_rbr) label /\ 1 <= length label <= 999.

(** [text] is a link, then [title]. *)
Definition link_then (text title : str) : Prop :=
  exists ws link ws', text = ws ++ link ++ ws' ++ title /\ spaces ws /\ spaces ws' /\ ws' <> []
    /\ link <> [] /\ Forall (fun c => is_space c = false) link /\ is_space (hd c_sp title) = false.

(** Lines that hold a label and [text]: [text] follows on the same line or on the next. *)
Definition label_then (text : str) (ls : list str) : Prop :=
  (exists l, ls = [l] /\ labelled l text)
  \/ (exists l body, ls = [l; text] /\ labelled l body /\ words body = []
        /\ (forall t, text <> c_lbr :: t)).

(** [content] is a definition, when [rest] are the lines after it. *)
Definition definition_extent (content rest : list str) : Prop :=
  (exists l body, content = [l] /\ labelled l body /\ words body = []
     /\ (rest = [] \/ exists x rest', rest = x :: rest' /\ (spaces x \/ exists t, x = c_lbr :: t)))
  \/ (exists text link head title, label_then text head /\ words text = [link]
        /\ content = head ++ title
        /\ (title = [] \/ title_lines title \/ unclosed_title title rest))
  \/ (exists text q t head more, label_then text head /\ link_then text (q :: t)
        /\ quotation q /\ content = head ++ more /\ closed q (t :: more)).

(** [content] is a definition that ends where it should, when [rest] are the lines after
    it: the link is followed by a line that does not start with a quote, or the title is
    closed. *)
Definition definition_whole (content rest : list str) : Prop :=
  (exists l body, content = [l] /\ labelled l body /\ words body = []
     /\ (rest = [] \/ exists x rest', rest = x :: rest' /\ (spaces x \/ exists t, x = c_lbr :: t)))
  \/ (exists text link head title, label_then text head /\ words text = [link]
        /\ content = head ++ title
        /\ ((title = [] /\ exists x rest', rest = x :: rest' /\ forall q t, x = q :: t -> ~ quotation q)
            \/ title_lines title))
  \/ (exists text q t head more, label_then text head /\ link_then text (q :: t)
        /\ quotation q /\ content = head ++ more /\ closed q (t :: more)).
