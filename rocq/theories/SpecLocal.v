(** Parts of a document that do not depend on what follows them. *)
From Verif Require Import Py Detectors SpecLines SpecParser SpecDefinition.

(** The first line with text, if there is one, is not indented like code. *)
Definition starts_unindented (ls : list str) : Prop :=
  Forall blank_line ls
  \/ exists blanks x more, ls = blanks ++ x :: more /\ Forall blank_line blanks
       /\ ~ blank_line x /\ ~ indented_line x.

(** All that the sections leave open ends before the lines [next]: fences and titles are
    closed, no paragraph looks like a definition that is not finished, and indented code
    does not go on in [next]. *)
Definition self_contained (next : list str) (secs : list section) : Prop :=
  forall before ty content after, secs = before ++ (ty, content) :: after ->
  let rest := concat (map snd after) in
  match ty with
  | FENCED_CODE_BLOCK =>
      exists l body close fence, content = l :: body ++ [close] /\ opens l fence /\ closes fence close
  | INDENTED_CODE_BLOCK =>
      (exists x, In x rest /\ ~ blank_line x /\ ~ indented_line x) \/ starts_unindented next
  | LINK_REFERENCE_DEFINITION => definition_whole content rest
  | PARAGRAPH | SETEXT_HEADING => forall l more, content = l :: more -> ~ definition_line l
  | _ => True
  end.
