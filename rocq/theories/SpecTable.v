(** Vocabulary of the table properties. *)
From Verif Require Import Py SpecLines SpecFormat.

(** A line of the form [| cell | cell |]; cells contain no bar and do not end in a
    backslash (which would escape the bar after them). *)
Definition row_of (cells : list str) (line : str) : Prop :=
  exists ws ws', line = ws ++ [c_bar] ++ str_join [c_bar] cells ++ [c_bar] ++ ws'
    /\ spaces ws /\ spaces ws' /\ cells <> []
    /\ Forall (fun cell => Forall (fun c => c <> c_bar) cell
                           /\ forall cell', cell <> cell' ++ [c_bslash]) cells.

(** The same, but the cells may contain bars that stand right after a backslash. *)
Definition escaped_bars (cell : str) : Prop :=
  (forall a b, cell = a ++ c_bar :: b -> exists a', a = a' ++ [c_bslash])
  /\ forall cell', cell <> cell' ++ [c_bslash].

Definition header_of (cells : list str) (line : str) : Prop :=
  exists ws ws', line = ws ++ [c_bar] ++ str_join [c_bar] cells ++ [c_bar] ++ ws'
    /\ spaces ws /\ spaces ws' /\ cells <> [] /\ Forall escaped_bars cells.

(** The parts of a well-formed table. *)
Record well_formed (lines hs ds : list str) (bss : list (list str)) : Prop := {
  wf_lines : exists header divider body, lines = header :: divider :: body
               /\ header_of hs header /\ row_of ds divider /\ Forall2 row_of bss body;
  wf_divider : length ds = length hs;
  wf_body : Forall (fun bs : list str => length bs = length hs) bss
}.

(** A line of cells with the given widths between bars. *)
Definition laid_out (cells : list str) (widths : list nat) (line : str) : Prop :=
  line = [c_bar] ++ str_join [c_bar] cells ++ [c_bar] /\ map (@length char) cells = widths.

(** A cell with at least one space on either side. *)
Definition spaced (cell : str) : Prop := exists x, cell = [c_sp] ++ x ++ [c_sp].

(** What a divider cell says about its column. *)
Definition colon_left (d : str) : Prop := exists d', d = c_colon :: d'.
Definition colon_right (d : str) : Prop := exists d', d = d' ++ [c_colon].
Definition same_alignment (d d' : str) : Prop :=
  forall t, trims d t -> (colon_left t <-> colon_left d') /\ (colon_right t <-> colon_right d').

(** The text [t] set flush left, flush right, or centred (up to one space). *)
Definition flush_left (t cell : str) : Prop := exists n, cell = [c_sp] ++ t ++ repeat c_sp n ++ [c_sp].
Definition flush_right (t cell : str) : Prop := exists n, cell = [c_sp] ++ repeat c_sp n ++ t ++ [c_sp].
Definition centred (t cell : str) : Prop :=
  exists n m, cell = [c_sp] ++ repeat c_sp n ++ t ++ repeat c_sp m ++ [c_sp] /\ n <= m <= n + 1.

(** How the divider cell [d] wants the text [t] set in its column; [default] is used for
    columns without colons. *)
Definition aligned (default : str -> str -> Prop) (d t cell : str) : Prop :=
  forall td, trims d td ->
    (colon_left td -> colon_right td -> centred t cell)
    /\ (colon_left td -> ~ colon_right td -> flush_left t cell)
    /\ (~ colon_left td -> colon_right td -> flush_right t cell)
    /\ (~ colon_left td -> ~ colon_right td -> default t cell).
