(** The shapes of sections, without reference to the code that finds them. *)
From Verif Require Import Py Detectors SpecLines.

(** A line that can continue a paragraph. *)
Definition continuation_line (l : str) : Prop :=
  ~ blank_line l /\ ~ atx_line l /\ ~ quote_line l /\ ~ bullet_line l /\ ~ ordered_line l
  /\ ~ table_line l /\ ~ fence_line l /\ ~ thematic_line l /\ ~ underline_line l.

(** A line that can continue the paragraph at the end of a block quote. *)
Definition lazy_line (l : str) : Prop :=
  ~ blank_line l /\ ~ atx_line l /\ ~ bullet_line l /\ ~ ordered_line l
  /\ ~ table_line l /\ ~ fence_line l /\ ~ thematic_line l /\ ~ underline_line l.

(** A line after the first one of a list. *)
Definition list_line (l : str) : Prop :=
  ~ blank_line l /\ ~ table_line l /\ ~ thematic_line l.

(** The line opens a code block fenced by [fence]: the maximal run of backticks or tildes
    it starts with. *)
Definition opens (l fence : str) : Prop :=
  exists ws c n info, l = ws ++ repeat c n ++ info /\ spaces ws /\ In c [c_bt; c_tilde]
    /\ 3 <= n /\ (forall info', info <> c :: info') /\ fence = repeat c n.

(** The line is the fence and nothing else but whitespace. *)
Definition closes (fence l : str) : Prop :=
  exists ws ws', l = ws ++ fence ++ ws' /\ spaces ws /\ spaces ws'.

(** What the lines of a section of each type look like. *)
Definition section_shape (ty : section_type) (ls : list str) : Prop :=
  match ty with
  | BLANK_LINE => exists l, ls = [l] /\ blank_line l
  | ATX_HEADING => exists l, ls = [l] /\ atx_line l
  | THEMATIC_BREAK => exists l, ls = [l] /\ thematic_line l
  | TABLE => Forall table_line ls
  | BULLET_LIST => exists l rest, ls = l :: rest /\ bullet_line l /\ Forall list_line rest
  | ORDERED_LIST => exists l rest, ls = l :: rest /\ ordered_line l /\ Forall list_line rest
  | PARAGRAPH =>
      exists l rest, ls = l :: rest /\ paragraph_line l /\ Forall continuation_line rest
  | SETEXT_HEADING =>
      exists l rest u, ls = l :: rest ++ [u] /\ paragraph_line l
        /\ Forall continuation_line rest /\ underline_line u
  | BLOCK_QUOTE =>
      exists l rest, ls = l :: rest /\ quote_line l
        /\ Forall (fun x => quote_line x \/ lazy_line x) rest
  | INDENTED_CODE_BLOCK =>
      exists l rest, ls = l :: rest /\ indented_line l
        /\ Forall (fun x => blank_line x \/ indented_line x) rest
  | FENCED_CODE_BLOCK =>
      exists l rest fence, ls = l :: rest /\ opens l fence
        /\ (Forall (fun x => ~ closes fence x) rest
            \/ exists body close, rest = body ++ [close] /\ closes fence close
                 /\ Forall (fun x => ~ closes fence x) body)
  | LINK_REFERENCE_DEFINITION => exists l rest, ls = l :: rest /\ definition_line l
  end.

(** The splitter for [ty] recognises a section at the start of [lines]. *)
Definition recognises (lim : nat) (ty : section_type) (lines : list str) : Prop :=
  exists f section rest, In (ty, f) (SPLITTERS (split_block_quote lim))
    /\ f lines = Ok (section, rest) /\ section <> [].

(** The pairs of section types whose splitters can recognise the same lines. *)
Definition overlapping : list (section_type * section_type) :=
  [(BULLET_LIST, THEMATIC_BREAK);
   (FENCED_CODE_BLOCK, INDENTED_CODE_BLOCK);
   (INDENTED_CODE_BLOCK, TABLE);
   (LINK_REFERENCE_DEFINITION, PARAGRAPH);
   (LINK_REFERENCE_DEFINITION, SETEXT_HEADING)].
