(** Vocabulary of the paragraph properties. *)
From Verif Require Import Py SpecLines.

(** The line ends in two spaces, which is a line break in the rendered text. *)
Definition hard_break (l : str) : Prop := exists l', l = l' ++ [c_sp; c_sp].

(** The line ends in something other than whitespace. *)
Definition ends_in_ink (l : str) : Prop := exists l' c, l = l' ++ [c] /\ is_space c = false.

(** The line begins with something other than whitespace. *)
Definition begins_in_ink (l : str) : Prop := exists c l', l = c :: l' /\ is_space c = false.
