(** Texts with inline links. *)
From Verif Require Import Py.

(** A part of a link: not blank, and without certain characters. *)
Definition link_part (not : str) (s : str) : Prop :=
  (exists c, In c s /\ is_space c = false) /\ Forall (fun c => ~ In c not) s.

Definition no_bracket (s : str) : Prop := ~ In c_lbr s /\ ~ In c_rbr s.

(** Square brackets come in pairs with no bracket between them. Such a pair is the text of an
    inline link, as in "[the manual](http://a.b/c)", or stands by itself, as in "[1]", with
    neither a parenthesis nor another pair directly after it. Link targets have no backtick
    and no closing parenthesis. *)
Inductive inline_links : str -> Prop :=
| links_none g : no_bracket g -> inline_links g
| links_pair g t s :
    no_bracket g -> no_bracket t ->
    (forall s', s <> c_lpar :: s') -> (forall s', s <> c_lbr :: s') ->
    inline_links s ->
    inline_links (g ++ [c_lbr] ++ t ++ [c_rbr] ++ s)
| links_next g t u s :
    no_bracket g -> link_part [c_lbr; c_rbr] t -> link_part [c_lbr; c_rbr; c_bt; c_rpar] u ->
    inline_links s ->
    inline_links (g ++ [c_lbr] ++ t ++ [c_rbr; c_lpar] ++ u ++ [c_rpar] ++ s).
