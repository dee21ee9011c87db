(** Vocabulary of properties C77 and C78: what the parser reports about a text. *)
From Coq Require Import String.
From Verif Require Import Py Detectors Records Logging SpecLines SpecParser SpecFormat SpecQuote
  SpecDefinition SpecRecords.
Local Open Scope nat_scope.

(** * Warnings *)

(** Line [m] of the text closes the fence that a line before it opens, and is indented by
    four or more beyond that line. *)
Definition over_indented (text : list str) (m : nat) : Prop :=
  exists before open body close after fence i j,
    text = before ++ open :: body ++ close :: after
    /\ m = length before + 1 + length body + 1
    /\ opens open fence /\ closes fence close /\ Forall (fun l => ~ closes fence l) body
    /\ indented_by i open /\ indented_by j close /\ i + 4 <= j.

(** Line [m] of the text is a label and a colon, and nothing else. *)
Definition lone_label (text : list str) (m : nat) : Prop :=
  exists before line after ws, text = before ++ line :: after /\ m = length before + 1
    /\ labelled line ws /\ spaces ws.

(** What the parser warns of: the fence at a line, and the definition at a line. *)
Inductive alarm := OverIndented (line : nat) | NoLink (line : nat).

(** The log record of an alarm. *)
Definition sounds (a : alarm) (r : record) : Prop :=
  match a with
  | OverIndented line =>
      exists num, number line num
        /\ r = Rec LFence WARNING (lit "Detected that the fence on line " ++ num
             ++ lit " is over indented per the standard. If this is intentional, please file a bug report.")
  | NoLink line =>
      exists num, number line num
        /\ r = Rec LDefinition WARNING (lit "The text on line " ++ num
             ++ lit " seems to be a link reference definition, but it does not contain a link. We will be treating it as if it were.")
  end.

(** The texts the parser reads: the text, and successive lines of it without quote marker. *)
Inductive peeks : list str -> list str -> Prop :=
| peeks_self text : peeks text text
| peeks_quote text before quote after inner text' :
    text = before ++ quote ++ after -> Forall2 unmarked quote inner -> peeks inner text' ->
    peeks text text'.

(** There is a reason for the alarm in the text, at its line or further down. *)
Definition grounds (text : list str) (a : alarm) : Prop :=
  match a with
  | OverIndented line => exists m, over_indented text m /\ line <= m
  | NoLink line => exists m, lone_label text m /\ line <= m
  end.

(** The line has three backticks or tildes after four whitespace characters, or it ends in a
    bracket and a colon. *)
Definition suspect (l : str) : Prop :=
  (exists p ws c r, l = p ++ ws ++ repeat c 3 ++ r /\ spaces ws /\ length ws = 4
     /\ In c [c_bt; c_tilde])
  \/ (exists p ws, l = p ++ lit "]:" ++ ws /\ spaces ws).

(** * Listing *)

(** What a section type is called. *)
Definition called (ty : section_type) : str :=
  match ty with
  | ATX_HEADING => lit "ATX Heading"
  | BLANK_LINE => lit "Blank Line"
  | BLOCK_QUOTE => lit "Block Quote"
  | BULLET_LIST => lit "Bullet List"
  | FENCED_CODE_BLOCK => lit "Fenced Code Block"
  | INDENTED_CODE_BLOCK => lit "Indented Code Block"
  | LINK_REFERENCE_DEFINITION => lit "Link Reference Definition"
  | ORDERED_LIST => lit "Ordered List"
  | PARAGRAPH => lit "Paragraph"
  | SETEXT_HEADING => lit "Setext Heading"
  | TABLE => lit "Table"
  | THEMATIC_BREAK => lit "Thematic Break"
  end.

(** One record for every section, with its lines; the first line has the number [n]. *)
Inductive lists : nat -> list section -> list record -> Prop :=
| lists_nil n : lists n [] []
| lists_cons n ty content rest s rs :
    span_text n (length content) s -> lists (n + length content) rest rs ->
    lists n ((ty, content) :: rest) (Rec LParser DEBUG (s ++ lit ": " ++ called ty) :: rs).

(** [l] is what remains of [l'] when elements are left out. *)
Inductive amid {A} : list A -> list A -> Prop :=
| amid_nil : amid [] []
| amid_keep x l l' : amid l l' -> amid (x :: l) (x :: l')
| amid_skip x l l' : amid l l' -> amid l (x :: l').
