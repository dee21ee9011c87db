(** What is left of a text whatever the formatter draws. *)
From Coq Require Import String.
From Verif Require Import Py Detectors Formatters SpecLines SpecFormat SpecParser SpecWrap SpecTable
  SpecDefinition SpecErrors.

(** The characters of list markers, quote markers, underlines, thematic breaks and the
    dividers of tables. *)
Definition drawn : str := lit "0123456789.>-=_*+".

(** All other characters that are not whitespace. *)
Definition letter (c : char) : bool := negb (is_space c) && negb (existsb (N.eqb c) drawn).
Definition letters (s : str) : str := filter letter s.

(** The cell of a divider: dashes, possibly with a colon on either side. *)
Definition divider (d : str) : Prop :=
  exists ws l n r ws', d = ws ++ l ++ repeat c_dash n ++ r ++ ws' /\ spaces ws /\ spaces ws'
    /\ 0 < n /\ In l [lit ""; lit ":"] /\ In r [lit ""; lit ":"].

(** Sections nothing is lost from:
    - the links of paragraphs and headings are apart;
    - fences are closed;
    - tables have a divider and as many cells in every row as in the header;
    - definitions have no title, or there is no limit to the length of lines. *)
Definition whole (w : width) (ty : section_type) (content : list str) : Prop :=
  match ty with
  | PARAGRAPH => links_apart (str_join [c_sp] (map strip content))
  | SETEXT_HEADING => links_apart (str_join [c_sp] (map strip (removelast content)))
  | FENCED_CODE_BLOCK =>
      exists l body close fence, content = l :: body ++ [close] /\ opens l fence /\ closes fence close
  | TABLE => exists hs ds bss, well_formed content hs ds bss /\ Forall divider ds
  | LINK_REFERENCE_DEFINITION =>
      forall label parts, defines content label parts ->
        links_apart (written label parts) /\ (length parts <= 1 \/ w = WInf)
  | _ => True
  end.

(** The same of all sections of a text, and of those in its block quotes and lists. *)
Definition all_whole (w : width) (lines : list str) : Prop :=
  forall lines' ty content, within lines lines' -> section_of lines' ty content -> whole w ty content.

(** The links of a line begin and end in it and are apart. *)
Definition enclosed (l : str) : Prop :=
  links_apart l
  /\ forall a z close b, l = a ++ z ++ b -> In (z, close) joints ->
       In c_lbr a /\ exists b1 b2, b = b1 ++ close ++ b2.

(** Lines without anything that could be a definition, a fence or a table. *)
Definition quiet (l : str) : Prop :=
  enclosed l /\ forall z a b, In z [lit "]:"; lit "```"; lit "~~~"; lit "|"] -> l <> a ++ z ++ b.
