(** Prose: words, inline code and links. *)
From Coq Require Import String.
From Verif Require Import Py SpecLines SpecWrap.

(** * Words *)

(** A word that begins nothing but a paragraph when it stands at the start of a line. *)
Definition harmless (word : str) : Prop :=
  (forall c t, In c [c_hash; c_gt; c_bar] -> word <> c :: t)
  /\ (forall t, word <> lit "~~~" ++ t) /\ (forall t, word <> lit "```" ++ t)
  /\ (forall ds, digits ds -> word <> ds ++ [c_dot])
  /\ (forall c n, In c [c_star; c_plus; c_dash; c_us; c_eq] -> word <> repeat c n).

(** A word that does not begin with exactly one dot. *)
Definition undotted (word : str) : Prop :=
  word <> lit "." /\ (forall c t, word = [c_dot; c] ++ t -> c = c_dot).

(** A word that is no markup, neither inside a paragraph nor at the start of a line. *)
Definition ordinary (word : str) : Prop :=
  (forall z a b, In z (markup ++ [lit "]:"]) -> word <> a ++ z ++ b)
  /\ harmless word /\ undotted word.

(** * Inline code *)

(** Inline code between one or two backticks, possibly with a full stop after it. *)
Definition code_piece (x : str) : Prop :=
  exists n code dot, x = (repeat c_bt n ++ code ++ repeat c_bt n) ++ dot
    /\ 0 < n < 3 /\ code_body n code /\ In dot [[]; lit "."]
    /\ Forall (fun c => is_space c = true -> c = c_sp) code
    /\ (forall a b, code <> a ++ lit "]:" ++ b).

(** * Links *)

(** The halves "p[q](" and "u)r" or "p[q][" and "u]r" of a link. *)
Definition link_parts (a b : str) : Prop :=
  exists p q o u cl r, a = p ++ [c_lbr] ++ q ++ [c_rbr; o] /\ b = u ++ [cl] ++ r
    /\ ((o = c_lpar /\ cl = c_rpar) \/ (o = c_lbr /\ cl = c_rbr))
    /\ Forall (fun c => is_space c = false /\ ~ In c (lit "[])")) p
    /\ Forall (fun c => ~ In c (lit "[]")) q
    /\ Forall (fun c => ~ In c (lit "[]()")) u
    /\ Forall (fun c => is_space c = false /\ ~ In c (lit "[](")) r
    /\ (exists q' c, q = q' ++ [c] /\ is_space c = false)
    /\ (exists c u', u = c :: u' /\ is_space c = false).

(** Both halves can stand at the start of a line. *)
Definition link_halves (a b : str) : Prop :=
  link_parts a b
  /\ Forall (fun c => c <> c_bt /\ (is_space c = true -> c = c_sp)) (a ++ b)
  /\ Forall (fun word => harmless word /\ undotted word
                         /\ forall x y, word <> x ++ lit "<br" ++ y) (words a)
  /\ (forall word more, words b = word :: more -> harmless word)
  /\ (forall t, b <> lit "<br" ++ t) /\ (forall x y, b <> x ++ lit "]:" ++ y).

(** * Text *)

Definition blanks (ws : str) : Prop := Forall (fun c => c = c_sp) ws.
Definition parted (rest : str) : Prop := rest = [] \/ exists rest', rest = c_sp :: rest'.

(** [prose b ps s]: the text [s] is made of the pieces [ps]; before the second half of a
    link there may be spaces, and there are before all others. It begins with a link only if [b];
    links do not follow on each other. *)
Inductive prose : bool -> list piece -> str -> Prop :=
| prose_end b ws : blanks ws -> prose b [] ws
| prose_word b ws x ps rest :
    blanks ws -> x <> [] -> Forall (fun c => is_space c = false) x -> ordinary x ->
    parted rest -> prose true ps rest ->
    prose b ((x, true) :: ps) (ws ++ x ++ rest)
| prose_code b ws x ps rest :
    blanks ws -> code_piece x -> parted rest -> prose true ps rest ->
    prose b ((x, true) :: ps) (ws ++ x ++ rest)
| prose_link ws x ws' y ps rest :
    blanks ws -> blanks ws' -> link_halves x y -> parted rest -> prose false ps rest ->
    prose true (words_as_pieces (words x) ++ (y, false) :: ps) (ws ++ x ++ ws' ++ y ++ rest).
