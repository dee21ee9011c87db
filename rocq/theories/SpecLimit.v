(** Conditions under which the tool does not recurse without end. *)
From Verif Require Import Py SpecLines.

(** If the line begins with quote markers, only plain spaces are before and between
    them. (Whitespace counts as indentation whatever it is, but the tool removes a marker
    only after plain spaces.) *)
Definition quotable (l : str) : Prop :=
  forall a b, l = a ++ c_gt :: b -> Forall (fun c => is_space c = true \/ c = c_gt) a ->
  Forall (fun c => is_space c = true -> c = c_sp) a.

(** Whitespace in front of a [>] is plain spaces, for every [>] of the line. *)
Definition plain_indent (l : str) : Prop :=
  forall a ws b, l = a ++ ws ++ c_gt :: b -> spaces ws -> Forall (fun c => c = c_sp) ws.

(** All whitespace of the text is plain spaces and line separators. *)
Definition plain_whitespace (text : str) : Prop :=
  Forall (fun c => is_space c = true -> c = c_sp \/ is_linebreak c = true) text.

(** The result is not that the recursion limit was exceeded. *)
Definition not_too_deep {A} (r : res A) : Prop :=
  forall e, r = Err e -> exn_base e <> RecursionError.

(** Number of lines and characters. *)
Fixpoint size (lines : list str) : nat :=
  match lines with [] => 0 | l :: rest => S (length l + size rest) end.
