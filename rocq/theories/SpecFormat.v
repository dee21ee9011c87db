(** Vocabulary of the formatting properties. *)
From Verif Require Import Py Detectors Formatters SpecLines.

(** The text [r] a section of type [ty] with lines [content] is formatted to at width [w],
    when it starts [line_index] lines into the text being formatted. [lim] is what is left
    of the recursion limit for nested text. *)
Definition section_text (lim : nat) (w : width) (line_index : nat) (ty : section_type)
    (content : list str) (r : str) : Prop :=
  reformatted (fun lines w' => reformat_pass lim (str_join [c_nl] lines ++ [c_nl]) w')
              ty line_index content w = Ok r.

(** [r] is [s] without trailing whitespace. *)
Definition rtrims (s r : str) : Prop :=
  (exists ws, s = r ++ ws /\ spaces ws) /\ (forall r' c, r = r' ++ [c] -> is_space c = false).

(** [r] is [s] without leading and trailing whitespace. *)
Definition trims (s r : str) : Prop :=
  (exists ws ws', s = ws ++ r ++ ws' /\ spaces ws /\ spaces ws')
  /\ (forall c r', r = c :: r' -> is_space c = false)
  /\ (forall r' c, r = r' ++ [c] -> is_space c = false).

(** No line separator. *)
Definition one_line (s : str) : Prop := Forall (fun c => is_linebreak c = false) s.

(** The lines of a text, as a reader of the output sees them. *)
Definition has_lines (text : str) (lines : list str) : Prop :=
  text = str_join [c_nl] lines /\ lines <> [] /\ Forall (Forall (fun c => c <> c_nl)) lines.

(** Every text followed by a newline. *)
Definition newline_terminated (rs : list str) : str :=
  concat (map (fun r => r ++ [c_nl]) rs).

(** The texts of consecutive sections, with an empty one between a block quote and a
    setext heading that follows it. *)
Fixpoint separated (previous : option section_type) (texts : list (section_type * str))
  : list str :=
  match texts with
  | [] => []
  | (ty, r) :: rest =>
      match previous, ty with
      | Some BLOCK_QUOTE, SETEXT_HEADING => [[]]
      | _, _ => []
      end ++ r :: separated (Some ty) rest
  end.

(** [outs] are the texts of the sections [secs], which start [line_index] lines into the
    document. *)
Inductive section_texts (lim : nat) (w : width)
  : nat -> list section -> list str -> Prop :=
| section_texts_nil line_index : section_texts lim w line_index [] []
| section_texts_cons line_index ty content secs r outs :
    section_text lim w line_index ty content r ->
    section_texts lim w (line_index + length content) secs outs ->
    section_texts lim w line_index ((ty, content) :: secs) (r :: outs).
