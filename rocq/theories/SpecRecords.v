(** Vocabulary of properties C75 and C76: the messages about a document. *)
From Coq Require Import String.
From Verif Require Import Py Detectors Records Logging SpecLines SpecParser SpecFormat SpecList SpecQuote
  SpecDefinition SpecErrors SpecWidth.
Local Open Scope nat_scope.

(** A number as it is written. *)
Definition number (n : nat) (s : str) : Prop := decimal (N.of_nat n) s.

(** A text of more than 20 characters is cut to 17 and three dots. *)
Definition shortened (t s : str) : Prop :=
  (length t <= 20 /\ s = t)
  \/ exists p q, t = p ++ q /\ length p = 17 /\ 3 < length q /\ s = p ++ lit "...".

(** The lines from [n] on, [len] of them. *)
Definition span_text (n len : nat) (s : str) : Prop :=
  (len = 1 /\ exists a, number n a /\ s = lit "Line " ++ a)
  \/ (1 < len /\ exists a b, number n a /\ number (n + len - 1) b
        /\ s = lit "Lines " ++ a ++ lit "-" ++ b).

Section Messages.
  (** How Python shows a string. *)
  Variable py_repr : str -> str.

  (** How a section is described. *)
  Definition described (ty : section_type) (content : list str) (d : str) : Prop :=
    match ty with
    | BLANK_LINE => d = lit "<MarkdownBlankLine>"
    | TABLE => d = lit "<MarkdownTable: ToDo>"
    | THEMATIC_BREAK =>
        exists ws c body, content = [ws ++ c :: body] /\ spaces ws /\ is_space c = false
          /\ d = lit "<MarkdownThematicBreak: char=" ++ py_repr [c] ++ lit ">"
    | ATX_HEADING =>
        exists ws k body t s num, content = [ws ++ repeat c_hash k ++ body] /\ spaces ws
          /\ (forall b, body <> c_hash :: b) /\ trims body t /\ shortened t s /\ number k num
          /\ d = lit "<MarkdownATXHeading: depth=" ++ num ++ lit "; content=" ++ py_repr s ++ lit ">"
    | SETEXT_HEADING =>
        exists heading ws c body ts s, content = heading ++ [ws ++ c :: body] /\ spaces ws
          /\ is_space c = false /\ Forall2 trims heading ts /\ shortened (str_join [c_sp] ts) s
          /\ d = lit "<MarkdownSetextHeading: char=" ++ py_repr [c]
                 ++ lit "; content=" ++ py_repr s ++ lit ">"
    | PARAGRAPH =>
        exists ts s, Forall2 trims content ts /\ shortened (str_join [c_sp] ts) s
          /\ d = lit "<MarkdownParagraph: content=" ++ py_repr s ++ lit ">"
    | BLOCK_QUOTE =>
        exists l rest s, content = l :: rest /\ shortened l s
          /\ d = lit "MarkdownBlockQuote: first_line=" ++ py_repr s ++ lit ">"
    | BULLET_LIST =>
        exists ws b body rest s, content = (ws ++ b :: body) :: rest /\ spaces ws
          /\ is_space b = false /\ shortened (ws ++ b :: body) s
          /\ d = lit "MarkdownBulletList: marker=" ++ py_repr [b]
                 ++ lit "; first_line=" ++ py_repr s ++ lit ">"
    | ORDERED_LIST =>
        exists ws ds body rest num s, content = (ws ++ ds ++ c_dot :: body) :: rest /\ spaces ws
          /\ digits ds /\ decimal (digits_val ds) num /\ shortened (ws ++ ds ++ c_dot :: body) s
          /\ d = lit "MarkdownOrderedList: first_number=" ++ num
                 ++ lit "; first_line=" ++ py_repr s ++ lit ">"
    | INDENTED_CODE_BLOCK =>
        exists l rest t s, content = l :: rest /\ trims l t /\ shortened t s
          /\ d = lit "<MarkdownIndentedCodeBlock: first_line=" ++ py_repr s ++ lit ">"
    | FENCED_CODE_BLOCK =>
        exists ws c k info lang rest num first, content = (ws ++ repeat c k ++ info) :: rest
          /\ spaces ws /\ In c [c_bt; c_tilde] /\ (forall b, info <> c :: b) /\ trims info lang
          /\ number k num
          /\ ((length rest = 1 /\ first = lit "None")
              \/ exists l rest' t s, rest = l :: rest' /\ rest' <> [] /\ trims l t
                   /\ shortened t s /\ first = py_repr s)
          /\ d = lit "<MarkdownFencedCodeBlock: fence_char=" ++ py_repr [c]
                 ++ lit "; fence_count=" ++ num ++ lit "; language=" ++ py_repr lang
                 ++ lit "; first_line=" ++ first ++ lit ">"
    | LINK_REFERENCE_DEFINITION =>
        exists label parts s1 s2 s3, defines content label parts /\ shortened label s1
          /\ shortened (hd [] parts) s2 /\ shortened (str_join [c_sp] (tl parts)) s3
          /\ d = lit "<MarkdownLinkReferenceDefinition: name=" ++ py_repr s1
                 ++ lit " link=" ++ py_repr s2 ++ lit " title=" ++ py_repr s3 ++ lit ">"
    end.

  (** One message for every section, with its lines; the first line has the number [n]. *)
  Inductive reports : nat -> list section -> list str -> Prop :=
  | reports_nil n : reports n [] []
  | reports_cons n ty content rest s d ms :
      span_text n (length content) s -> described ty content d ->
      reports (n + length content) rest ms ->
      reports n ((ty, content) :: rest) ((s ++ lit ": " ++ d) :: ms).
End Messages.

(** * Warnings *)

(** What a user is warned of: an empty line before the heading at a line, and a space after
    the number signs of the heading at a line. *)
Inductive notice := Inserted (line : nat) | Corrected (line : nat).

(** The log record of a notice. *)
Definition announces (n : notice) (r : record) : Prop :=
  match n with
  | Inserted line =>
      exists num, number line num
        /\ r = Rec LReformat WARNING (lit "Adding a new line before setext heading on line " ++ num)
  | Corrected line =>
      exists num, number line num
        /\ r = Rec LAtx WARNING (lit "Line " ++ num
             ++ lit " is an ATX Header without a space after #'s. This has been corrected.")
  end.

(** A heading with a space after the number signs, and text after that. *)
Definition spaced_heading (l : str) : Prop :=
  exists ws k body, l = ws ++ repeat c_hash k ++ c_sp :: body /\ spaces ws /\ 1 <= k /\ ~ spaces body.

(** The underlined headings directly after a block quote. *)
Inductive inserted : nat -> option section_type -> list section -> list notice -> Prop :=
| inserted_nil n last : inserted n last [] []
| inserted_here n content rest ns :
    inserted (n + length content) (Some SETEXT_HEADING) rest ns ->
    inserted n (Some BLOCK_QUOTE) ((SETEXT_HEADING, content) :: rest) (Inserted n :: ns)
| inserted_not n last ty content rest ns :
    ~ (ty = SETEXT_HEADING /\ last = Some BLOCK_QUOTE) ->
    inserted (n + length content) (Some ty) rest ns ->
    inserted n last ((ty, content) :: rest) ns.

(** The notices about a text, those about the texts within it included. Lines are counted
    in the text that a section is in. *)
Inductive warned : list str -> list notice -> Prop :=
| warned_text lim lines secs ins ns :
    parse_markdown lim lines = Ok secs -> inserted 1 None secs ins ->
    sections_warned 1 secs ns -> warned lines (ins ++ ns)
with sections_warned : nat -> list section -> list notice -> Prop :=
| sections_warned_nil n : sections_warned n [] []
| sections_warned_cons n ty content rest ns ms :
    section_warned n ty content ns -> sections_warned (n + length content) rest ms ->
    sections_warned n ((ty, content) :: rest) (ns ++ ms)
with section_warned : nat -> section_type -> list str -> list notice -> Prop :=
| section_warned_spaced n l :
    spaced_heading l -> section_warned n ATX_HEADING [l] []
| section_warned_heading n l :
    ~ spaced_heading l -> section_warned n ATX_HEADING [l] [Corrected n]
| section_warned_quote n content inner prefix ns :
    quotes content inner prefix -> warned inner ns -> section_warned n BLOCK_QUOTE content ns
| section_warned_list n ty content entries inners ns :
    (ty = BULLET_LIST \/ ty = ORDERED_LIST) -> entries_of content entries ->
    Forall2 dedented entries inners -> texts_warned inners ns -> section_warned n ty content ns
| section_warned_other n ty content :
    ~ In ty [ATX_HEADING; BLOCK_QUOTE; BULLET_LIST; ORDERED_LIST] -> section_warned n ty content []
with texts_warned : list (list str) -> list notice -> Prop :=
| texts_warned_nil : texts_warned [] []
| texts_warned_cons lines rest ns ms :
    warned lines ns -> texts_warned rest ms -> texts_warned (lines :: rest) (ns ++ ms).
