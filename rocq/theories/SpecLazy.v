(** Lines without a quote marker in a block quote. *)
From Verif Require Import Py Detectors SpecLines SpecQuote.

(** The quoted text ends in a paragraph, or in a block quote that does. *)
Inductive ends_in_paragraph : list str -> Prop :=
| ends_here lim quoted inner secs content :
    Forall2 unmarked quoted inner ->
    parse_markdown lim inner = Ok (secs ++ [(PARAGRAPH, content)]) ->
    ends_in_paragraph quoted
| ends_nested lim quoted inner secs content :
    Forall2 unmarked quoted inner ->
    parse_markdown lim inner = Ok (secs ++ [(BLOCK_QUOTE, content)]) ->
    ends_in_paragraph content ->
    ends_in_paragraph quoted.
