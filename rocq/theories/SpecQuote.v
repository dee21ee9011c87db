(** Vocabulary of the block quote properties. *)
From Coq Require Import String.
From Verif Require Import Py SpecLines SpecWrap.

(** The line without its quote marker and up to three spaces before it; a line that has
    none (or one after other whitespace) stays as it is. *)
Definition unmarked (l l' : str) : Prop :=
  (exists n, n <= 3 /\ l = repeat c_sp n ++ c_gt :: l')
  \/ (l' = l /\ forall n body, n <= 3 -> l <> repeat c_sp n ++ c_gt :: body).

(** How many quote markers the line begins with, if whitespace does not count. *)
Definition quote_depth (l : str) (d : nat) : Prop :=
  exists text, ink l = repeat c_gt d ++ text /\ forall t, text <> c_gt :: t.

(** The lines of a quote without the outermost marker. A line without marker continues the
    paragraph of the line before and gets as many of the other markers. [d] is the depth
    so far. *)
Inductive unquoted : nat -> list str -> list str -> Prop :=
| unquoted_nil d : unquoted d [] []
| unquoted_marked d l l' d' ls ls' :
    quote_line l -> quote_depth l d' -> unmarked l l' -> unquoted d' ls ls' ->
    unquoted d (l :: ls) (l' :: ls')
| unquoted_lazy d l ls ls' :
    ~ quote_line l -> unquoted (S d) ls ls' ->
    unquoted (S d) (l :: ls) ((repeat c_gt d ++ l) :: ls').

(** The line has [n] characters of whitespace and then something else. *)
Definition indented_by (n : nat) (l : str) : Prop :=
  exists ws c r, l = ws ++ c :: r /\ spaces ws /\ length ws = n /\ is_space c = false.

(** Of the lines indented by none or one, the first is indented by one. *)
Definition spaced (ls : list str) : Prop :=
  exists before l after, ls = before ++ l :: after /\ indented_by 1 l
    /\ Forall (fun x => ~ indented_by 0 x) before.

(** The line without one leading space, if it has one. *)
Definition unspaced (l l' : str) : Prop :=
  l = c_sp :: l' \/ (l' = l /\ forall r, l <> c_sp :: r).

(** The width [w'] is [n] less than [w]. *)
Definition narrower (w : width) (n : Z) (w' : width) : Prop :=
  match w, w' with
  | WInt z, WInt z' => z' = (z - n)%Z
  | WInf, WInf => True
  | WFloat q, WFloat q' => (q' == q - inject_Z n)%Q
  | _, _ => False
  end.

(** The text inside the quote [content], and the prefix its lines get. *)
Definition quotes (content inner : list str) (prefix : str) : Prop :=
  exists stripped, unquoted 0 content stripped
    /\ ((spaced stripped /\ prefix = lit "> " /\ Forall2 unspaced stripped inner)
        \/ (~ spaced stripped /\ prefix = lit ">" /\ inner = stripped)).
