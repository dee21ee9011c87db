(** What the kinds of lines are, without reference to the code. [is_space] is Python's
    notion of whitespace. *)
From Verif Require Import Py.

Definition spaces (ws : str) : Prop := Forall (fun c => is_space c = true) ws.

(** A line of whitespace only. *)
Definition blank_line (l : str) : Prop := spaces l.

(** [#...], indented by less than four. *)
Definition atx_line (l : str) : Prop :=
  exists ws body, l = ws ++ c_hash :: body /\ spaces ws /\ length ws < 4.

(** [>...], indented by less than four. *)
Definition quote_line (l : str) : Prop :=
  exists ws body, l = ws ++ c_gt :: body /\ spaces ws /\ length ws < 4.

(** [* ...], [+ ...], [- ...], indented by less than four. *)
Definition bullet_line (l : str) : Prop :=
  exists ws b body, l = ws ++ b :: c_sp :: body /\ spaces ws /\ length ws < 4
    /\ In b [c_star; c_plus; c_dash].

Definition digits (ds : str) : Prop :=
  ds <> [] /\ Forall (fun c => is_digit c = true) ds.

(** [12. ...], indented by less than four. *)
Definition ordered_line (l : str) : Prop :=
  exists ws ds body, l = ws ++ ds ++ c_dot :: c_sp :: body
    /\ spaces ws /\ length ws < 4 /\ digits ds.

(** [|...] at any indentation. *)
Definition table_line (l : str) : Prop :=
  exists ws body, l = ws ++ c_bar :: body /\ spaces ws.

(** Three or more backticks or tildes at any indentation. *)
Definition fence_line (l : str) : Prop :=
  exists ws c body, l = ws ++ [c; c; c] ++ body /\ spaces ws /\ In c [c_bt; c_tilde].

(** Text indented by four or more. *)
Definition indented_line (l : str) : Prop :=
  exists ws c body, l = ws ++ c :: body /\ spaces ws /\ is_space c = false
    /\ 4 <= length ws.

(** Three or more [*], [_] or [-], otherwise whitespace, indented by less than four. *)
Definition thematic_line (l : str) : Prop :=
  exists c ws body, l = ws ++ c :: body /\ spaces ws /\ length ws < 4
    /\ In c [c_star; c_us; c_dash]
    /\ Forall (fun x => x = c \/ is_space x = true) body
    /\ 2 <= count_occ N.eq_dec body c.

(** A run of [=] or of [-], indented by less than four. *)
Definition underline_line (l : str) : Prop :=
  exists c n ws ws', l = ws ++ repeat c (S n) ++ ws' /\ spaces ws /\ spaces ws'
    /\ length ws < 4 /\ In c [c_eq; c_dash].

(** [\[label\]:...], indented by less than four, the label having 1 to 999 characters. *)
Definition definition_line (l : str) : Prop :=
  exists ws label body, l = ws ++ c_lbr :: label ++ c_rbr :: c_colon :: body
    /\ spaces ws /\ length ws < 4
    /\ Forall (fun c => c <> c_rbr) label /\ 1 <= length label <= 999.

(** A line that can start a paragraph: none of the other kinds that the tool looks for. *)
Definition paragraph_line (l : str) : Prop :=
  ~ blank_line l /\ ~ atx_line l /\ ~ quote_line l /\ ~ bullet_line l /\ ~ ordered_line l
  /\ ~ table_line l /\ ~ fence_line l /\ ~ indented_line l /\ ~ thematic_line l.
