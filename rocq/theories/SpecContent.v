(** What the sections of a document say, apart from their layout. *)
From Coq Require Import String.
From Verif Require Import Py Detectors SpecLines SpecParser SpecFormat SpecTable SpecWrap
  SpecDefinition SpecDocument.

(** A section that is no list and no quote. *)
Inductive saying : Type :=
| Blank
| Heading (level : nat) (text : str)
| Rule (c : char)
| Fenced (fence info : str) (lines : list str)
| Indented (lines : list str)
| Table (header : list str) (sides : list (bool * bool)) (rows : list (list str))
| Link (label target : str)
| Text (ps : list piece)
| Title (c : char) (ps : list piece).

(** The colons of a divider cell, left and right. *)
Definition divides (d : str) (side : bool * bool) : Prop :=
  exists t, trims d t /\ (fst side = true <-> colon_left t) /\ (snd side = true <-> colon_right t).

(** The section of type [ty] with the lines [ls] says [p]. *)
Definition content (ty : section_type) (ls : list str) (p : saying) : Prop :=
  match p with
  | Blank => ty = BLANK_LINE
  | Heading level text =>
      ty = ATX_HEADING /\ exists ws body, ls = [ws ++ repeat c_hash level ++ body]
        /\ spaces ws /\ 1 <= level /\ (forall b, body <> c_hash :: b) /\ trims body text
  | Rule c => ty = THEMATIC_BREAK /\ begins c ls
  | Fenced fence info lines =>
      ty = FENCED_CODE_BLOCK /\ exists ws c n info0 body close,
        ls = (ws ++ fence ++ info0) :: body ++ [close] /\ fence = repeat c (S n)
        /\ spaces ws /\ is_space c = false /\ (forall t, info0 <> c :: t)
        /\ trims info0 info /\ Forall2 rtrims body lines
  | Indented lines => ty = INDENTED_CODE_BLOCK /\ Forall2 rtrims ls lines
  | Table header sides rows =>
      ty = TABLE /\ exists l divider body hs ds bss, ls = l :: divider :: body
        /\ header_of hs l /\ row_of ds divider /\ Forall2 row_of bss body
        /\ Forall2 trims hs header /\ Forall2 divides ds sides /\ Forall2 (Forall2 trims) bss rows
  | Link label target =>
      ty = LINK_REFERENCE_DEFINITION /\ exists ws body,
        ls = [ws ++ c_lbr :: label ++ c_rbr :: c_colon :: body] /\ spaces ws
        /\ Forall (fun c => c <> c_rbr) label /\ words body = [target]
  | Text ps => ty = PARAGRAPH /\ text_pieces ls ps
  | Title c ps =>
      ty = SETEXT_HEADING /\ exists text u, ls = text ++ [u]
        /\ text_pieces text ps /\ begins c [u]
  end.

(** The sections say the same. *)
Definition same_content (ty : section_type) (ls ls' : list str) : Prop :=
  forall p, content ty ls p <-> content ty ls' p.
