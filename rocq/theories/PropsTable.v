(** Properties C32-C35: tables. *)
From Coq Require Import String.
From Verif Require Import Py Regex Utils TextWrap Lines Detectors Formatters Base
  SpecLines SpecParser SpecFormat SpecTable ProofsLines ProofsParser ProofsShapes ProofsPass
  ProofsTable.

(** * C32 *)

Lemma table_row_laid_out cells : laid_out cells (map (@length char) cells) (table_row cells).
Proof. split; reflexivity. Qed.

Definition sum (l : list nat) : nat := fold_right plus 0 l.

Lemma join_bar_length cells :
  length (str_join [c_bar] cells) = sum (map (@length char) cells) + (length cells - 1).
Proof.
  induction cells as [|c cells IH]; [reflexivity|]. destruct cells as [|c' cells].
  - cbn. lia.
  - rewrite str_join_cons by discriminate. rewrite !app_length, IH. cbn [map sum fold_right length].
    fold (sum (map (@length char) cells)). cbn [length]. lia.
Qed.

Lemma laid_out_length cells ws line :
  laid_out cells ws line -> length line = 2 + sum ws + (length ws - 1).
Proof.
  intros [-> <-]. rewrite !app_length, join_bar_length, map_length. cbn [length]. lia.
Qed.

Lemma zip2_length {A B} (a : list A) (b : list B) :
  length (zip2 a b) = min (length a) (length b).
Proof. revert b. induction a as [|x a IH]; intros [|y b]; cbn; auto. Qed.

(** No newline in what is written for a row. *)
Lemma no_nl_rep c n : c <> c_nl -> Forall (fun x => x <> c_nl) (rep c n).
Proof. intros H. apply Forall_rep. exact H. Qed.

Lemma no_nl_align f t w :
  f = center_align \/ f = left_align \/ f = right_align ->
  Forall (fun x => x <> c_nl) t -> Forall (fun x => x <> c_nl) (f t w).
Proof.
  intros Hf H. destruct Hf as [->|[->| ->]].
  - unfold center_align. apply Forall_app. split; [apply no_nl_rep; discriminate|].
    apply Forall_app. split; [exact H|apply no_nl_rep; discriminate].
  - unfold left_align. apply Forall_app. split; [exact H|apply no_nl_rep; discriminate].
  - unfold right_align. apply Forall_app. split; [apply no_nl_rep; discriminate|exact H].
Qed.

Lemma no_nl_header c w a :
  Forall (fun x => x <> c_nl) c -> Forall (fun x => x <> c_nl) (header_cell (c, (w, a))).
Proof.
  intros H. unfold header_cell. apply (Forall_strip (fun x => x <> c_nl)) in H.
  constructor; [discriminate|]. apply Forall_app. split; [|repeat constructor; discriminate].
  destruct a; apply no_nl_align; auto.
Qed.

Lemma no_nl_body c w a :
  Forall (fun x => x <> c_nl) c -> Forall (fun x => x <> c_nl) (body_cell (c, (w, a))).
Proof.
  intros H. unfold body_cell. apply (Forall_strip (fun x => x <> c_nl)) in H.
  constructor; [discriminate|]. apply Forall_app. split; [|repeat constructor; discriminate].
  destruct a; apply no_nl_align; auto.
Qed.

Lemma no_nl_divider w a : Forall (fun x => x <> c_nl) (divider_cell (w, a)).
Proof.
  unfold divider_cell. destruct a; (constructor; [discriminate|]); apply Forall_app;
    (split; [apply no_nl_rep; discriminate|repeat constructor; discriminate]).
Qed.

Lemma no_nl_row cells :
  Forall (Forall (fun x => x <> c_nl)) cells -> Forall (fun x => x <> c_nl) (table_row cells).
Proof.
  intros H. unfold table_row. constructor; [discriminate|]. apply Forall_app. split.
  - apply Forall_str_join; [repeat constructor; discriminate|exact H].
  - repeat constructor; discriminate.
Qed.

Lemma no_nl_zip (f : str * (nat * alignment) -> str) cells wa :
  (forall c w a, Forall (fun x => x <> c_nl) c -> Forall (fun x => x <> c_nl) (f (c, (w, a)))) ->
  Forall (Forall (fun x => x <> c_nl)) cells ->
  Forall (Forall (fun x => x <> c_nl)) (map f (zip2 cells wa)).
Proof.
  intros Hf H. revert wa. induction H as [|c cells Hc H IH]; intros [|[w a] wa]; cbn;
    constructor; auto.
Qed.

Lemma no_nl_cells line :
  one_line line -> Forall (Forall (fun x => x <> c_nl)) (table_cells line).
Proof.
  intros H. apply Forall_inner. assert (G : Forall (fun x => x <> c_nl) line).
  { eapply Forall_impl; [|exact H]. intros c Hc ->. discriminate. }
  clear H. generalize false. induction G as [|c l Hc H IH]; intros b; cbn [split_unescaped];
    [repeat constructor|].
  destruct (_ && _); [constructor; auto|].
  specialize (IH (N.eqb c c_bslash)). destruct (split_unescaped (N.eqb c c_bslash) l); inv IH;
    repeat constructor; auto.
Qed.

Lemma no_nl_split_on line :
  one_line line -> Forall (Forall (fun x => x <> c_nl)) (inner (split_on c_bar line)).
Proof.
  intros H. apply Forall_inner, Forall_split_on. eapply Forall_impl; [|exact H].
  intros c Hc ->. discriminate.
Qed.

(** In the output of a table whose body has no escaped bar, all lines have the same
    columns with the same widths, hence the same length, and the cells of all rows but the
    divider have a space on either side. *)
Theorem C32_rectangular_partial : forall lim w i lines r,
  section_text lim w i TABLE lines r -> Forall one_line lines ->
  Forall (fun line => contains [c_bslash; c_bar] line = false) (skipn 2 lines) ->
  exists rows widths, has_lines r rows /\ length rows = length lines
    /\ Forall (fun row => exists cells, laid_out cells widths row) rows
    /\ Forall (fun row => length row = length (hd [] rows)) rows
    /\ (forall j row, nth_error rows j = Some row -> j <> 1 ->
          exists cells, laid_out cells widths row /\ Forall spaced cells).
Proof.
  intros lim w i lines r H Ho He. unfold section_text in H. cbn [reformatted] in H.
  destruct lines as [|header [|divider body]]; try discriminate.
  assert (Hr := fmt_table_rows _ _ _ _ _ H). cbn zeta in Hr.
  set (ws := column_widths (cell_widths header) (map cell_widths body)) in *.
  set (wa := zip2 ws (table_alignments divider)) in *.
  destruct Hr as (Hl & Lw & Hle & ->). cbn [skipn] in He.
  inversion Hle as [|? ? Hle1 Hle2]; subst. inversion Ho as [|? ? Ho1 Ho2]; subst.
  inversion Ho2 as [|? ? Ho3 Ho4]; subst.
  set (widths := map (fun wa => fst wa + 2) wa).
  assert (LH : laid_out (map header_cell (zip2 (table_cells header) wa)) widths
                 (table_row (map header_cell (zip2 (table_cells header) wa)))).
  { split; [reflexivity|]. apply row_widths; [exact header_cell_length|exact Hle1]. }
  assert (LD : laid_out (map divider_cell wa) widths (table_row (map divider_cell wa))).
  { split; [reflexivity|]. unfold widths. rewrite map_map. apply map_ext.
    intros [x a]. apply divider_cell_length. }
  assert (LB : Forall (fun line =>
     laid_out (map body_cell (zip2 (inner (split_on c_bar line)) wa)) widths
       (table_row (map body_cell (zip2 (inner (split_on c_bar line)) wa)))) body).
  { apply Forall_forall. intros line Hin. rewrite Forall_forall in He, Hle2.
    rewrite <- table_cells_no_escape by (apply He; exact Hin).
    split; [reflexivity|]. apply row_widths; [exact body_cell_length|].
    apply (Hle2 line Hin). }
  eexists. exists widths. split; [split; [reflexivity|split; [discriminate|]]|].
  { constructor; [|constructor].
    - apply no_nl_row, no_nl_zip; [exact no_nl_header|apply no_nl_cells; exact Ho1].
    - apply no_nl_row. apply Forall_map, Forall_forall. intros [x a] _. apply no_nl_divider.
    - apply Forall_map. eapply Forall_impl; [|exact Ho4]. intros line Hline.
      apply no_nl_row, no_nl_zip; [exact no_nl_body|apply no_nl_split_on; exact Hline]. }
  split; [cbn [length]; rewrite map_length; reflexivity|].
  assert (All : Forall (fun row => exists cells, laid_out cells widths row)
    (table_row (map header_cell (zip2 (table_cells header) wa))
     :: table_row (map divider_cell wa)
     :: map (fun line => table_row (map body_cell (zip2 (inner (split_on c_bar line)) wa))) body)).
  { constructor; [eauto|]. constructor; [eauto|]. apply Forall_map.
    eapply Forall_impl; [|exact LB]. cbn. intros line Hline. eauto. }
  split; [exact All|]. split.
  { cbn [hd]. eapply Forall_impl; [|exact All]. cbn. intros row (cells & Hrow).
    rewrite (laid_out_length _ _ _ Hrow). symmetry. exact (laid_out_length _ _ _ LH). }
  intros j row Hj Hne. destruct j as [|[|j]]; [| congruence |].
  - cbn [nth_error] in Hj. injection Hj as <-. eexists. split; [exact LH|].
    apply Forall_map, Forall_forall. intros x _. apply header_cell_spaced.
  - cbn [nth_error] in Hj. rewrite nth_error_map in Hj.
    destruct (nth_error body j) as [line|] eqn:Ej; [|discriminate]. cbn in Hj. injection Hj as <-.
    apply nth_error_In in Ej. rewrite Forall_forall in LB. eexists. split; [apply (LB line Ej)|].
    apply Forall_map, Forall_forall. intros x _. apply body_cell_spaced.
Qed.

(** False with an escaped bar in the body: rows are counted with escaped bars left alone
    but cut at every bar. *)
Theorem C32_rectangular_refuted :
  exists lines r1 r2 r3,
    section_text 9 (WInt 88) 0 TABLE lines (str_join [c_nl] [r1; r2; r3])
    /\ Forall one_line lines /\ length r1 <> length r3.
Proof.
  exists [lit "| a | b |"; lit "|---|---|"; lit "| \|xxxxx | c |"],
    (lit "|    a    | b |"), (lit "|---------|---|"), (lit "| \       | xxxxx |").
  split; [vm_compute; reflexivity|]. split; [repeat constructor|vm_compute; discriminate].
Qed.

Example C32_nonvacuous :
  section_text 9 (WInt 5) 0 TABLE [lit " |a|long cell|"; lit "|:-|-:|"; lit "|b||"]
    (str_join [c_nl] [lit "| a | long cell |"; lit "|:--|----------:|"; lit "| b |           |"]).
Proof. vm_compute. reflexivity. Qed.

(** * C33 and C34 *)

(** The same text up to surrounding whitespace. *)
Definition same_text (c c' : str) : Prop := exists t, trims c t /\ trims c' t.

Lemma strip_spaced a b t :
  spaces a -> spaces b -> strip (a ++ strip t ++ b) = strip t.
Proof.
  intros Ha Hb. rewrite strip_app_spaces by (apply spaces_forallb; assumption). apply strip_idem.
Qed.

Lemma spaces_rep n : spaces (rep c_sp n).
Proof. apply Forall_rep. reflexivity. Qed.

Lemma strip_aligned f t w :
  f = center_align \/ f = left_align \/ f = right_align ->
  strip ([c_sp] ++ f (strip t) w ++ [c_sp]) = strip t.
Proof.
  assert (S1 : spaces [c_sp]) by (repeat constructor).
  intros [->|[->| ->]].
  - unfold center_align. rewrite <- !app_assoc, app_assoc.
    apply strip_spaced; apply Forall_app; (split; [|]); first [exact S1|apply spaces_rep].
  - unfold left_align. rewrite <- !app_assoc.
    apply strip_spaced; [exact S1|apply Forall_app; split; [apply spaces_rep|exact S1]].
  - unfold right_align. rewrite <- !app_assoc, app_assoc.
    apply strip_spaced; [apply Forall_app; split; [exact S1|apply spaces_rep]|exact S1].
Qed.

Lemma strip_header_cell c w a : strip (header_cell (c, (w, a))) = strip c.
Proof. unfold header_cell. destruct a; apply strip_aligned; auto. Qed.
Lemma strip_body_cell c w a : strip (body_cell (c, (w, a))) = strip c.
Proof. unfold body_cell. destruct a; apply strip_aligned; auto. Qed.

Definition out_widths (hs : list str) (bss : list (list str)) : list nat :=
  column_widths (map (fun c => length (strip c)) hs)
                (map (map (fun c => length (strip c))) bss).

Definition out_wa (hs ds : list str) (bss : list (list str)) : list (nat * alignment) :=
  zip2 (out_widths hs bss) (map divider_alignment ds).

Lemma well_formed_text i lines hs ds bss :
  well_formed lines hs ds bss ->
  fmt_table i lines = Ok (str_join [c_nl]
    (table_row (map header_cell (zip2 hs (out_wa hs ds bss)))
     :: table_row (map divider_cell (out_wa hs ds bss))
     :: map (fun bs => table_row (map body_cell (zip2 bs (out_wa hs ds bss)))) bss)).
Proof.
  intros [(header & divider & body & -> & Hh & Hd & Hb) Hlen Hlens].
  assert (Eb : map table_cells body = bss).
  { clear -Hb. induction Hb; cbn; [reflexivity|]. f_equal; [|assumption].
    apply table_cells_row. assumption. }
  destruct (fmt_table_ok i header divider body) as (r & Hr).
  { rewrite (table_cells_header hs header Hh). clear -Hb Hlens. revert Hlens.
    induction Hb as [|bs line bss body Hx Hb IH]; intros Hlens; [constructor|]. inv Hlens.
    constructor; [rewrite (table_cells_row bs line Hx); assumption|auto]. }
  rewrite Hr. f_equal. apply fmt_table_rows in Hr. cbn zeta in Hr.
  destruct Hr as (_ & _ & _ & ->).
  assert (Ew : column_widths (cell_widths header) (map cell_widths body) = out_widths hs bss).
  { unfold out_widths, cell_widths. rewrite (table_cells_header hs header Hh). f_equal.
    rewrite <- Eb, map_map. reflexivity. }
  rewrite Ew, (table_alignments_row ds divider Hd). fold (out_wa hs ds bss).
  rewrite (table_cells_header hs header Hh). do 3 f_equal.
  clear -Hb. generalize (out_wa hs ds bss). intros wa.
  induction Hb as [|bs line bss body Hx Hb IH]; [reflexivity|]. cbn [map].
  rewrite (split_on_cells bs line Hx), IH. reflexivity.
Qed.

Lemma out_widths_length hs bss :
  Forall (fun bs : list str => length bs = length hs) bss -> length (out_widths hs bss) = length hs.
Proof.
  intros H. unfold out_widths.
  destruct (column_widths_spec (map (fun c => length (strip c)) hs)
              (map (map (fun c => length (strip c))) bss)) as (L & _).
  { apply Forall_map. eapply Forall_impl; [|exact H]. cbn. intros bs Hb.
    rewrite !map_length. exact Hb. }
  rewrite L. apply map_length.
Qed.

Lemma out_wa_length hs ds bss :
  length ds = length hs -> Forall (fun bs : list str => length bs = length hs) bss ->
  length (out_wa hs ds bss) = length hs.
Proof.
  intros Hd Hb. unfold out_wa. rewrite zip2_length, map_length, out_widths_length by exact Hb. lia.
Qed.

Lemma Forall2_zip (f : str * (nat * alignment) -> str) (R : str -> str -> Prop) cells wa :
  length wa = length cells -> (forall c w a, R c (f (c, (w, a)))) ->
  Forall2 R cells (map f (zip2 cells wa)).
Proof.
  intros Hl Hf. revert wa Hl. induction cells as [|c cells IH]; intros [|[w a] wa] Hl;
    try discriminate; cbn; constructor; auto.
Qed.

(** Each cell of a well-formed table stands in the output in its row and column. *)
Theorem C33_cells_kept_partial : forall lim w i lines hs ds bss,
  well_formed lines hs ds bss ->
  exists r hs' ds' bss',
    section_text lim w i TABLE lines r
    /\ r = str_join [c_nl] (table_row hs' :: table_row ds' :: map table_row bss')
    /\ Forall2 same_text hs hs' /\ Forall2 (Forall2 same_text) bss bss'
    /\ Forall2 same_alignment ds ds'.
Proof.
  intros lim w i lines hs ds bss Hwf. assert (E := well_formed_text i lines hs ds bss Hwf).
  destruct Hwf as [_ Hd Hb]. assert (L := out_wa_length hs ds bss Hd Hb).
  eexists. exists (map header_cell (zip2 hs (out_wa hs ds bss))),
    (map divider_cell (out_wa hs ds bss)),
    (map (fun bs => map body_cell (zip2 bs (out_wa hs ds bss))) bss).
  split; [exact E|]. split; [rewrite map_map; reflexivity|]. split; [|split].
  - apply Forall2_zip; [exact L|]. intros c x a. exists (strip c).
    split; apply trims_strip; [reflexivity|symmetry; apply strip_header_cell].
  - clear E. revert Hb. set (wa := out_wa hs ds bss) in *. clearbody wa.
    intros Hb. induction Hb as [|bs bss Hx Hb IH]; cbn; constructor; auto.
    apply Forall2_zip; [congruence|]. intros c x a. exists (strip c).
    split; apply trims_strip; [reflexivity|symmetry; apply strip_body_cell].
  - unfold out_wa. assert (Lw := out_widths_length hs bss Hb).
    assert (Hd' : length ds = length (out_widths hs bss)) by congruence.
    clear -Hd'. rename Hd' into Hd. revert Hd. generalize (out_widths hs bss). induction ds as [|d ds IH];
      intros [|x ws] Hd; try discriminate; cbn; constructor; auto.
    apply divider_same_alignment.
Qed.

(** Every cell is set the way its column's divider asks for: at the left with a colon on
    the left, at the right with a colon on the right, centred with both; without colons
    headers are centred and the other cells set at the left. *)
Theorem C34_alignment : forall lim w i lines hs ds bss,
  well_formed lines hs ds bss ->
  exists r hs' ds' bss',
    section_text lim w i TABLE lines r
    /\ r = str_join [c_nl] (table_row hs' :: table_row ds' :: map table_row bss')
    /\ length hs' = length hs /\ length ds' = length ds
    /\ Forall2 (fun bs bs' : list str => length bs' = length bs) bss bss'
    /\ forall j d, nth_error ds j = Some d ->
         (forall d', nth_error ds' j = Some d' -> same_alignment d d')
         /\ (forall h h' t, nth_error hs j = Some h -> nth_error hs' j = Some h' ->
               trims h t -> aligned centred d t h')
         /\ (forall k bs bs' b b' t, nth_error bss k = Some bs -> nth_error bss' k = Some bs' ->
               nth_error bs j = Some b -> nth_error bs' j = Some b' ->
               trims b t -> aligned flush_left d t b').
Proof.
  intros lim w i lines hs ds bss Hwf. assert (E := well_formed_text i lines hs ds bss Hwf).
  destruct Hwf as [_ Hd Hb]. assert (L := out_wa_length hs ds bss Hd Hb).
  assert (Nth : forall (f : str * (nat * alignment) -> str) cells j c c' d,
    nth_error ds j = Some d -> nth_error cells j = Some c ->
    nth_error (map f (zip2 cells (out_wa hs ds bss))) j = Some c' ->
    exists x, c' = f (c, (x, divider_alignment d))).
  { intros f cells j c c' d. unfold out_wa. generalize (out_widths hs bss).
    clear. revert cells j. induction ds as [|d0 ds IH]; intros cells j ws Ed Ec Ec'.
    - destruct j; discriminate.
    - destruct ws as [|x ws].
      { rewrite zip2_combine in Ec'. rewrite combine_nil in Ec'. destruct j; discriminate. }
      destruct cells as [|c0 cells]; [destruct j; discriminate|].
      destruct j as [|j]; cbn in *.
      + injection Ed as ->. injection Ec as ->. injection Ec' as <-. eauto.
      + eapply IH; eauto. }
  eexists. exists (map header_cell (zip2 hs (out_wa hs ds bss))),
    (map divider_cell (out_wa hs ds bss)),
    (map (fun bs => map body_cell (zip2 bs (out_wa hs ds bss))) bss).
  split; [exact E|]. split; [rewrite map_map; reflexivity|].
  split; [rewrite map_length, zip2_length; lia|]. split; [rewrite map_length; lia|].
  split.
  { clear E Nth. revert Hb L. generalize (out_wa hs ds bss). intros wa Hb L.
    induction Hb as [|bs bss' Hx Hb IH]; cbn; constructor; auto.
    rewrite map_length, zip2_length. lia. }
  intros j d Ed. split; [|split].
  - intros d' Ed'. unfold out_wa in Ed'. revert Ed'. generalize (out_widths hs bss).
    clear -Ed. revert j Ed. induction ds as [|d0 ds IH]; intros j Ed ws Ed'.
    { destruct j; discriminate. }
    destruct ws as [|x ws]; [destruct j; discriminate|]. destruct j as [|j]; cbn in *.
    + injection Ed as ->. injection Ed' as <-. apply divider_same_alignment.
    + eapply IH; eauto.
  - intros h h' t Eh Eh' Ht. apply trims_strip in Ht. subst t.
    destruct (Nth _ _ _ _ _ _ Ed Eh Eh') as (x & ->). apply header_cell_aligned.
  - intros k bs bs' b b' t Ebs Ebs' Eb Eb' Ht. apply trims_strip in Ht. subst t.
    rewrite nth_error_map, Ebs in Ebs'. cbn in Ebs'. injection Ebs' as <-.
    destruct (Nth _ _ _ _ _ _ Ed Eb Eb') as (x & ->). apply body_cell_aligned.
Qed.

(** The output of a well-formed table is a well-formed table with the same texts in its
    cells, and is not changed by formatting it again. *)
Definition same_sides (d d' : str) : Prop :=
  exists t t', trims d t /\ trims d' t'
    /\ (colon_left t <-> colon_left t') /\ (colon_right t <-> colon_right t').

Lemma same_text_strip hs hs' : map strip hs' = map strip hs -> Forall2 same_text hs hs'.
Proof.
  revert hs'. induction hs as [|h hs IH]; intros [|h' hs'] E; try discriminate; constructor.
  - injection E as E _. exists (strip h). split; apply trims_strip; congruence.
  - injection E as _ E. apply IH. exact E.
Qed.

Lemma same_sides_alignment ds ds' : map divider_alignment ds' = map divider_alignment ds -> Forall2 same_sides ds ds'.
Proof.
  revert ds'. induction ds as [|d ds IH]; intros [|d' ds'] E; try discriminate; constructor.
  - injection E as E _. exists (strip d), (strip d'). split; [apply trims_strip; reflexivity|].
    split; [apply trims_strip; reflexivity|].
    assert (H1 := divider_alignment_spec d). assert (H2 := divider_alignment_spec d'). rewrite E in H2.
    destruct (divider_alignment d); tauto.
  - injection E as _ E. apply IH. exact E.
Qed.

Lemma no_bar_rep c n : c <> c_bar -> Forall (fun x => x <> c_bar) (rep c n).
Proof. intros H. apply Forall_rep. exact H. Qed.

Lemma no_bar_align f t w :
  f = center_align \/ f = left_align \/ f = right_align ->
  Forall (fun x => x <> c_bar) t -> Forall (fun x => x <> c_bar) (f t w).
Proof.
  intros Hf H. destruct Hf as [->|[->| ->]].
  - unfold center_align. apply Forall_app. split; [apply no_bar_rep; discriminate|].
    apply Forall_app. split; [exact H|apply no_bar_rep; discriminate].
  - unfold left_align. apply Forall_app. split; [exact H|apply no_bar_rep; discriminate].
  - unfold right_align. apply Forall_app. split; [apply no_bar_rep; discriminate|exact H].
Qed.

Lemma cell_ok_spaced (cell x : str) :
  cell = [c_sp] ++ x ++ [c_sp] -> Forall (fun c => c <> c_bar) x ->
  Forall (fun c => c <> c_bar) cell /\ forall cell', cell <> cell' ++ [c_bslash].
Proof.
  intros -> H. split.
  - constructor; [discriminate|]. apply Forall_app. split; [exact H|repeat constructor; discriminate].
  - intros cell' E. rewrite app_assoc in E. apply app_inj_tail in E. destruct E. discriminate.
Qed.

Lemma row_of_table_row cells :
  cells <> [] ->
  Forall (fun cell => Forall (fun c => c <> c_bar) cell
                      /\ forall cell', cell <> cell' ++ [c_bslash]) cells ->
  row_of cells (table_row cells).
Proof.
  intros Hn H. exists [], []. split; [rewrite app_nil_r; reflexivity|].
  split; [constructor|]. split; [constructor|]. auto.
Qed.

Lemma divider_alignment_cell w a : divider_alignment (divider_cell (w, a)) = a.
Proof.
  assert (S : strip (divider_cell (w, a)) = divider_cell (w, a)).
  { apply strip_id; unfold divider_cell; destruct a; try reflexivity;
      rewrite app_assoc, rev_app_distr; reflexivity. }
  assert (H := divider_alignment_spec (divider_cell (w, a))). rewrite S in H.
  assert (H2 := divider_cell_colons w a).
  destruct (divider_alignment (divider_cell (w, a))), a; try reflexivity; tauto.
Qed.

Lemma Forall_str_join_inv (P : char -> Prop) sep ls :
  Forall P (str_join sep ls) -> Forall (Forall P) ls.
Proof.
  induction ls as [|l ls IH]; intros H; [constructor|]. destruct ls as [|l' ls].
  - constructor; [exact H|constructor].
  - rewrite str_join_cons in H by discriminate. apply Forall_app in H. destruct H as [H1 H2].
    apply Forall_app in H2. destruct H2 as [_ H2]. constructor; [exact H1|apply IH; exact H2].
Qed.

Lemma header_of_one_line cells line : header_of cells line -> one_line line -> Forall one_line cells.
Proof.
  intros (ws & ws' & -> & _) H. apply Forall_app in H. destruct H as [_ H].
  apply Forall_app in H. destruct H as [_ H]. apply Forall_app in H. destruct H as [H _].
  apply Forall_str_join_inv in H. exact H.
Qed.

Lemma row_of_one_line cells line : row_of cells line -> one_line line -> Forall one_line cells.
Proof. intros H. apply header_of_one_line, row_header, H. Qed.

Lemma table_row_one_line cells : Forall one_line cells -> one_line (table_row cells).
Proof.
  intros H. unfold table_row, one_line. apply Forall_app. split; [repeat constructor|].
  apply Forall_app. split; [|repeat constructor]. apply Forall_str_join; [repeat constructor|exact H].
Qed.

Lemma spaces_one_line n : one_line (rep c_sp n).
Proof. apply Forall_rep. reflexivity. Qed.

Lemma align_one_line f t w :
  f = center_align \/ f = left_align \/ f = right_align -> one_line t -> one_line (f t w).
Proof.
  intros [->|[->| ->]] H; [unfold center_align|unfold left_align|unfold right_align];
    repeat (apply Forall_app; split); try exact H; apply spaces_one_line.
Qed.

Lemma header_cell_one_line c x a : one_line c -> one_line (header_cell (c, (x, a))).
Proof.
  intros H. apply (Forall_strip _ c) in H. unfold header_cell. apply Forall_app. split; [repeat constructor|].
  apply Forall_app. split; [|repeat constructor]. destruct a; apply align_one_line; auto.
Qed.

Lemma body_cell_one_line c x a : one_line c -> one_line (body_cell (c, (x, a))).
Proof.
  intros H. apply (Forall_strip _ c) in H. unfold body_cell. apply Forall_app. split; [repeat constructor|].
  apply Forall_app. split; [|repeat constructor]. destruct a; apply align_one_line; auto.
Qed.

Lemma cells_one_line (f : str * (nat * alignment) -> str) cells wa :
  (forall c x a, one_line c -> one_line (f (c, (x, a)))) -> Forall one_line cells ->
  Forall one_line (map f (zip2 cells wa)).
Proof.
  intros Hf H. revert wa. induction H as [|c cells Hc H IH]; intros [|[x a] wa]; cbn; constructor; auto.
Qed.

(** No bar without a backslash before it; [b]: a backslash stands before the text. *)
Fixpoint escapes (b : bool) (s : str) : bool :=
  match s with
  | [] => true
  | c :: s' => (negb (N.eqb c c_bar) || b) && escapes (N.eqb c c_bslash) s'
  end.

Lemma escapes_app b s t :
  escapes b (s ++ t) = escapes b s && escapes (match rev s with [] => b | c :: _ => N.eqb c c_bslash end) t.
Proof.
  revert b. induction s as [|c s IH]; intros b; [reflexivity|]. cbn [app escapes rev]. rewrite IH, andb_assoc.
  f_equal. destruct (rev s); reflexivity.
Qed.

Lemma escapes_spec s : escapes false s = true <-> forall a b, s = a ++ c_bar :: b -> exists a', a = a' ++ [c_bslash].
Proof.
  split.
  - intros H a b ->. rewrite escapes_app in H. apply andb_true_iff in H. destruct H as [_ H]. cbn [escapes] in H.
    apply andb_true_iff in H. destruct H as [H _]. cbn in H.
    destruct (rev a) as [|c r] eqn:E; [discriminate|]. apply N.eqb_eq in H. subst c.
    exists (rev r). rewrite <- (rev_involutive a), E. reflexivity.
  - induction s as [|c s IH] using rev_ind; intros H; [reflexivity|]. rewrite escapes_app, IH; cbn [andb].
    + cbn [escapes]. rewrite andb_true_r. destruct (N.eqb_spec c c_bar) as [->|]; [|reflexivity]. cbn [negb orb].
      destruct (H s [] eq_refl) as (a' & ->). rewrite rev_app_distr. reflexivity.
    + intros a b ->. apply (H a (b ++ [c])). rewrite <- app_assoc. reflexivity.
Qed.

Lemma escapes_plain b s : Forall (fun c => c <> c_bar) s -> escapes b s = true.
Proof.
  intros H. revert b. induction H as [|c s Hc H IH]; intros b; [reflexivity|]. cbn [escapes].
  apply N.eqb_neq in Hc. rewrite Hc, IH. reflexivity.
Qed.

Lemma last_space b ws t : spaces ws -> escapes b t = true -> b = false ->
  escapes (match rev ws with [] => b | c :: _ => N.eqb c c_bslash end) t = true.
Proof.
  intros H Ht ->. destruct (rev ws) as [|c r] eqn:E; [exact Ht|].
  assert (In c ws) by (apply in_rev; rewrite E; left; reflexivity).
  unfold spaces in H. rewrite Forall_forall in H. specialize (H c H0).
  destruct (N.eqb_spec c c_bslash) as [->|]; [discriminate|exact Ht].
Qed.

Lemma escaped_strip c : escaped_bars c -> escapes false (strip c) = true.
Proof.
  intros [H _]. apply escapes_spec in H. assert (T : trims c (strip c)) by (apply trims_strip; reflexivity).
  destruct T as ((ws & ws' & E & Hw & _) & _). rewrite E, escapes_app in H. apply andb_true_iff in H.
  destruct H as [_ H]. rewrite escapes_app in H. apply andb_true_iff in H. destruct H as [H _].
  destruct (rev ws) as [|x r] eqn:Er; [exact H|].
  assert (In x ws) by (apply in_rev; rewrite Er; left; reflexivity).
  unfold spaces in Hw. rewrite Forall_forall in Hw. specialize (Hw x H0).
  destruct (N.eqb_spec x c_bslash) as [->|]; [discriminate|exact H].
Qed.

Lemma escaped_spaced t ws ws' :
  escapes false t = true -> spaces ws -> spaces ws' -> escaped_bars ([c_sp] ++ (ws ++ t ++ ws') ++ [c_sp]).
Proof.
  intros Ht Hw Hw'. split.
  - apply escapes_spec.
    replace ([c_sp] ++ (ws ++ t ++ ws') ++ [c_sp]) with ((c_sp :: ws) ++ t ++ ws' ++ [c_sp])
      by (cbn [app]; rewrite <- !app_assoc; reflexivity).
    assert (S1 : spaces (c_sp :: ws)) by (constructor; [reflexivity|exact Hw]).
    rewrite escapes_app, (escapes_plain _ _ (spaces_no_bar _ S1)). cbn [andb]. apply last_space; auto.
    rewrite escapes_app, Ht. cbn [andb]. apply escapes_plain, spaces_no_bar.
    apply Forall_app. split; [exact Hw'|repeat constructor].
  - intros c E. rewrite app_assoc in E. apply app_inj_tail in E. destruct E. discriminate.
Qed.

Lemma header_cell_escaped c x a : escaped_bars c -> escaped_bars (header_cell (c, (x, a))).
Proof.
  intros H. apply escaped_strip in H. unfold header_cell.
  assert (C : escaped_bars ([c_sp] ++ center_align (strip c) x ++ [c_sp])).
  { apply escaped_spaced; [exact H|apply spaces_rep|apply spaces_rep]. }
  assert (L : escaped_bars ([c_sp] ++ left_align (strip c) x ++ [c_sp])).
  { apply (escaped_spaced _ [] _ H); [constructor|apply spaces_rep]. }
  assert (R : escaped_bars ([c_sp] ++ right_align (strip c) x ++ [c_sp])).
  { unfold right_align. rewrite <- (app_nil_r (strip c)) at 2. apply escaped_spaced; [exact H|apply spaces_rep|constructor]. }
  destruct a; assumption.
Qed.

(** The lines of the formatted table. *)
Definition table_rows (hs ds : list str) (bss : list (list str)) : list str :=
  table_row (map header_cell (zip2 hs (out_wa hs ds bss)))
  :: table_row (map divider_cell (out_wa hs ds bss))
  :: map table_row (map (fun bs => map body_cell (zip2 bs (out_wa hs ds bss))) bss).

Lemma table_rows_stable : forall lim w lines hs ds bss,
  well_formed lines hs ds bss ->
  exists rows, rows = table_rows hs ds bss
    /\ (forall i, section_text lim w i TABLE lines (str_join [c_nl] rows))
    /\ (forall i, section_text lim w i TABLE rows (str_join [c_nl] rows))
    /\ (exists hs' ds' bss', well_formed rows hs' ds' bss'
          /\ Forall2 same_text hs hs' /\ Forall2 same_sides ds ds'
          /\ Forall2 (Forall2 same_text) bss bss')
    /\ Forall (fun r => exists t, r = [c_bar] ++ t ++ [c_bar]) rows
    /\ (Forall one_line lines -> Forall one_line rows).
Proof.
  intros lim w lines hs ds bss Hwf. assert (E := fun i => well_formed_text i lines hs ds bss Hwf).
  destruct Hwf as [(header & divider & body & -> & Hh & Hdv & Hbd) Hd Hb].
  assert (L := out_wa_length hs ds bss Hd Hb). unfold table_rows.
  set (wa := out_wa hs ds bss) in *.
  set (hs' := map header_cell (zip2 hs wa)). set (ds' := map divider_cell wa).
  set (bss' := map (fun bs => map body_cell (zip2 bs wa)) bss).
  assert (Nb : forall cells, (exists line, row_of cells line) ->
               cells <> [] /\ Forall (fun c => Forall (fun x => x <> c_bar) c) cells).
  { intros cells (line & ws & ws' & _ & _ & _ & Hn & Hc). split; [exact Hn|].
    eapply Forall_impl; [|exact Hc]. cbn. tauto. }
  assert (Hzip : forall (f : str * (nat * alignment) -> str) cells,
     (forall c x a, Forall (fun y => y <> c_bar) c ->
        Forall (fun y => y <> c_bar) (f (c, (x, a)))
        /\ forall cell', f (c, (x, a)) <> cell' ++ [c_bslash]) ->
     cells <> [] -> length cells = length hs ->
     Forall (fun c => Forall (fun x => x <> c_bar) c) cells ->
     row_of (map f (zip2 cells wa)) (table_row (map f (zip2 cells wa)))).
  { intros f cells Hf Hn Hl Hc. apply row_of_table_row.
    - destruct cells; [congruence|]. destruct wa; [cbn in *; lia|discriminate].
    - clear -Hf Hc. generalize wa. clear wa. induction Hc; intros [|[x' a'] wa]; cbn; constructor; auto. }
  assert (Hbc : forall c x a, Forall (fun y => y <> c_bar) c ->
        Forall (fun y => y <> c_bar) (body_cell (c, (x, a)))
        /\ forall cell', body_cell (c, (x, a)) <> cell' ++ [c_bslash]).
  { intros c x a Hc. unfold body_cell. eapply cell_ok_spaced; [reflexivity|].
    apply (Forall_strip (fun y => y <> c_bar)) in Hc. destruct a; apply no_bar_align; auto. }
  assert (Hhn : hs <> []) by (destruct Hh as (_ & _ & _ & _ & _ & Hn & _); exact Hn).
  assert (Hhr : header_of hs' (table_row hs')).
  { destruct Hh as (_ & _ & _ & _ & _ & _ & Hc). exists [], []. split; [rewrite app_nil_r; reflexivity|].
    split; [constructor|]. split; [constructor|]. split.
    - unfold hs'. destruct hs; [congruence|]. destruct wa; [cbn in *; lia|discriminate].
    - unfold hs'. clear -Hc. generalize wa. clear wa. induction Hc as [|c cs Hc Hcs IH];
        intros [|[x a] wa]; cbn; constructor; auto. apply header_cell_escaped. exact Hc. }
  exists (table_row hs' :: table_row ds' :: map table_row bss').
  assert (Eh : map strip hs' = map strip hs).
  { unfold hs'. clear -L. revert L. generalize wa. clear. induction hs as [|h hs IH];
      intros [|[x a] wa] L; try discriminate; [reflexivity|]. cbn [zip2 map].
    rewrite strip_header_cell. f_equal. apply IH. cbn in L. lia. }
  assert (Eb : map (map strip) bss' = map (map strip) bss).
  { unfold bss'. clear -L Hb. revert L Hb. generalize wa. clear. intros wa L Hb.
    rewrite map_map. induction Hb as [|bs bss Hx Hb IH]; [reflexivity|]. cbn [map].
    f_equal; [|exact IH]. clear -L Hx. rewrite <- Hx in L. clear Hx. revert wa L.
    induction bs as [|b bs IH]; intros [|[x a] wa] L; try discriminate; [reflexivity|].
    cbn [zip2 map]. rewrite strip_body_cell. f_equal. apply IH. cbn in L. lia. }
  assert (Ed : map divider_alignment ds' = map divider_alignment ds).
  { unfold ds', wa, out_wa. assert (Lw := out_widths_length hs bss Hb).
    rewrite <- Hd in Lw. clear -Lw. revert Lw. generalize (out_widths hs bss).
    induction ds as [|d ds IH]; intros [|x ws] Lw; try discriminate; [reflexivity|].
    cbn [zip2 map]. rewrite divider_alignment_cell. f_equal. apply IH. cbn in Lw. lia. }
  assert (Ew : out_wa hs' ds' bss' = wa).
  { unfold wa, out_wa, out_widths. rewrite Ed. f_equal.
    assert (Y : forall x : list str, map (fun c => length (strip c)) x
                = map (@length char) (map strip x)) by (intros x; rewrite map_map; reflexivity).
    rewrite !Y, Eh. f_equal.
    rewrite !(map_ext _ _ Y), <- !(map_map (map strip) (map (@length char))), Eb. reflexivity. }
  assert (W : well_formed (table_row hs' :: table_row ds' :: map table_row bss') hs' ds' bss').
  { constructor.
    - exists (table_row hs'), (table_row ds'), (map table_row bss'). split; [reflexivity|].
      split; [exact Hhr|]. split.
      + apply row_of_table_row.
        * unfold ds'. destruct wa; [destruct hs; [congruence|discriminate]|discriminate].
        * unfold ds'. apply Forall_map, Forall_forall. intros [x a] _. split.
          -- unfold divider_cell. destruct a; (constructor; [discriminate|]); apply Forall_app;
               (split; [apply no_bar_rep; discriminate|repeat constructor; discriminate]).
          -- intros cell' Ec. unfold divider_cell in Ec. destruct a; rewrite app_assoc in Ec;
               apply app_inj_tail in Ec; destruct Ec; discriminate.
      + unfold bss'. clear -Hbd Hb Hzip Hbc Nb. clearbody wa. induction Hbd as [|bs line bss body Hx Hbd IH];
          cbn; constructor.
        * inv Hb. destruct (Nb bs (ex_intro _ line Hx)). apply Hzip; auto.
        * inv Hb. auto.
    - unfold ds', hs'. rewrite !map_length, zip2_length. lia.
    - unfold bss', hs'. apply Forall_map. eapply Forall_impl; [|exact Hb]. cbn. intros bs Hbs.
      rewrite !map_length, !zip2_length. lia. }
  split; [reflexivity|]. split; [|split; [|split; [|split]]].
  - intros i. unfold section_text. cbn [reformatted]. rewrite E. unfold bss'. rewrite map_map. reflexivity.
  - intros i. unfold section_text. cbn [reformatted]. rewrite (well_formed_text i _ _ _ _ W), Ew.
    assert (Zh : map header_cell (zip2 hs' wa) = hs').
    { clear -Eh. unfold hs' at 2. clearbody hs'. clearbody wa. revert wa hs' Eh.
      induction hs as [|h hs IH]; intros wa hs' Eh.
      - destruct hs'; [reflexivity|discriminate].
      - destruct hs' as [|h' hs']; [discriminate|]. cbn in Eh. injection Eh as E1 E2.
        destruct wa as [|[x a] wa]; [reflexivity|]. cbn [zip2 map]. rewrite (IH wa hs' E2).
        unfold header_cell. rewrite E1. reflexivity. }
    assert (Zb : map (fun bs => table_row (map body_cell (zip2 bs wa))) bss' = map table_row bss').
    { unfold bss' at 2. rewrite map_map. clear -Eb. clearbody bss'. clearbody wa. revert bss' Eb.
      induction bss as [|bs bss IH]; intros [|bs' bss'] Eb; try discriminate; [reflexivity|].
      cbn [map] in *. injection Eb as E1 E2. f_equal; [|apply IH; exact E2]. f_equal.
      clear -E1. revert wa bs' E1. induction bs as [|b bs IH];
        intros wa [|b' bs'] E1; try discriminate; [reflexivity|]. cbn in E1. injection E1 as X1 X2.
      destruct wa as [|[x a] wa]; [reflexivity|]. cbn [zip2 map]. rewrite (IH wa bs' X2).
      unfold body_cell. rewrite X1. reflexivity. }
    rewrite Zh, Zb. reflexivity.
  - exists hs', ds', bss'. split; [exact W|]. split; [apply same_text_strip; exact Eh|].
    split; [apply same_sides_alignment; exact Ed|].
    clear -Eb. clearbody bss'. revert bss' Eb. induction bss as [|bs bss IH]; intros [|bs' bss'] Eb; try discriminate; constructor.
    + injection Eb as Eb _. apply same_text_strip. exact Eb.
    + injection Eb as _ Eb. apply IH. exact Eb.
  - assert (R : forall cells, exists t, table_row cells = [c_bar] ++ t ++ [c_bar])
      by (intros cells; eexists; reflexivity).
    constructor; [apply R|]. constructor; [apply R|]. apply Forall_map, Forall_forall. intros bs _. apply R.
  - intros Ho. inversion Ho as [|? ? O1 Ho']; subst. inversion Ho' as [|? ? O2 O3]; subst.
    constructor; [|constructor].
    + apply table_row_one_line, cells_one_line; [apply header_cell_one_line|].
      eapply header_of_one_line; eassumption.
    + apply table_row_one_line. unfold ds'. apply Forall_map, Forall_forall. intros [x a] _.
      unfold divider_cell. destruct a; repeat (apply Forall_app; split);
        try (repeat constructor); apply Forall_rep; reflexivity.
    + unfold bss'. rewrite map_map. apply Forall_map. clear -Hbd O3. clearbody wa. revert O3.
      induction Hbd as [|bs line bss body Hx Hbd IH]; intros O3; [constructor|].
      inversion O3; subst. constructor; [|auto].
      apply table_row_one_line, cells_one_line; [apply body_cell_one_line|].
      eapply row_of_one_line; eassumption.
Qed.

(** The formatted table is a table of the same shape, and formatting it changes nothing. *)
Theorem C33_tables_stable : forall lim w lines hs ds bss,
  well_formed lines hs ds bss ->
  exists rows, (forall i, section_text lim w i TABLE lines (str_join [c_nl] rows))
    /\ (forall i, section_text lim w i TABLE rows (str_join [c_nl] rows))
    /\ (exists hs' ds' bss', well_formed rows hs' ds' bss'
          /\ Forall2 same_text hs hs' /\ Forall2 same_sides ds ds'
          /\ Forall2 (Forall2 same_text) bss bss')
    /\ Forall (fun r => exists t, r = [c_bar] ++ t ++ [c_bar]) rows
    /\ (Forall one_line lines -> Forall one_line rows).
Proof.
  intros lim w lines hs ds bss H. destruct (table_rows_stable lim w lines hs ds bss H) as (rows & _ & G). eauto.
Qed.

Definition ex_table : list str :=
  [lit "|  a\|x|b  |c|"; lit " |:--|:-: |--:| "; lit "|1| 2 2|  |"; lit "|four|||"].

Example C33_C34_nonvacuous :
  well_formed ex_table [lit "  a\|x"; lit "b  "; lit "c"] [lit ":--"; lit ":-: "; lit "--:"]
    [[lit "1"; lit " 2 2"; lit "  "]; [lit "four"; []; []]]
  /\ section_text 9 (WInt 5) 0 TABLE ex_table
       (str_join [c_nl] [lit "| a\|x |  b  | c |"; lit "|:-----|:---:|--:|";
                         lit "| 1    | 2 2 |   |"; lit "| four |     |   |"]).
Proof.
  split; [|vm_compute; reflexivity].
  assert (R : forall ws ws' cells line, line = ws ++ [c_bar] ++ str_join [c_bar] cells ++ [c_bar] ++ ws' ->
    forallb is_space ws = true -> forallb is_space ws' = true -> cells <> [] ->
    forallb (fun cell => forallb (fun c => negb (N.eqb c c_bar)) cell
                         && negb (endswith [c_bslash] cell)) cells = true ->
    row_of cells line).
  { intros ws ws' cells line -> H1 H2 H3 H4. exists ws, ws'. split; [reflexivity|].
    split; [apply spaces_forallb; exact H1|]. split; [apply spaces_forallb; exact H2|].
    split; [exact H3|]. apply Forall_forall. intros cell Hin. rewrite forallb_forall in H4.
    specialize (H4 cell Hin). apply andb_true_iff in H4. destruct H4 as [H4 H5]. split.
    - apply Forall_forall. intros c Hc. rewrite forallb_forall in H4. specialize (H4 c Hc).
      apply negb_true_iff, N.eqb_neq in H4. exact H4.
    - intros cell' E. apply negb_true_iff in H5.
      assert (endswith [c_bslash] cell = true) by (apply endswith_spec; eauto). congruence. }
  constructor.
  - exists (lit "|  a\|x|b  |c|"), (lit " |:--|:-: |--:| "), [lit "|1| 2 2|  |"; lit "|four|||"].
    split; [reflexivity|].
    split.
    { exists [], []. split; [reflexivity|]. split; [constructor|]. split; [constructor|]. split; [discriminate|].
      repeat constructor; try (apply escapes_spec; reflexivity); intros cell' E;
        apply (f_equal (@rev char)) in E; rewrite rev_app_distr in E; discriminate. }
    split; [apply (R (lit " ") (lit " ")); try reflexivity; discriminate|].
    constructor; [apply (R [] []); try reflexivity; discriminate|].
    constructor; [apply (R [] []); try reflexivity; discriminate|constructor].
  - reflexivity.
  - repeat constructor.
Qed.

(** False for other tables: cells after an escaped bar are cut and shifted... *)
Theorem C33_escaped_bar_refuted :
  section_text 9 (WInt 88) 0 TABLE [lit "| a | b |"; lit "|---|---|"; lit "| x \| y | important |"]
    (str_join [c_nl] [lit "|   a    |     b     |"; lit "|--------|-----------|";
                      lit "| x \    | y         |"]).
Proof. vm_compute. reflexivity. Qed.

(** ... the last cell is lost where the row has no closing bar... *)
Theorem C33_no_closing_bar_refuted :
  reformat_markdown_text 9
    (str_join [c_nl] [lit "| a | b | c"; lit "|---|---|---"; lit "| 1 | 2 | important"]) (WInt 88)
  = Ok (str_join [c_nl] [lit "| a | b |"; lit "|---|---|"; lit "| 1 | 2 |"; []]).
Proof. vm_compute. reflexivity. Qed.

(** ... columns are lost when the divider has fewer... *)
Theorem C33_short_divider_refuted :
  reformat_markdown_text 9
    (str_join [c_nl] [lit "| a | b |"; lit "|---|"; lit "| 1 | important |"]) (WInt 88)
  = Ok (str_join [c_nl] [lit "| a |"; lit "|---|"; lit "| 1 |"; []]).
Proof. vm_compute. reflexivity. Qed.

(** ... and the second line is lost whatever it is. *)
Theorem C33_second_line_refuted :
  reformat_markdown_text 9 (str_join [c_nl] [lit "| a |"; lit "| important |"]) (WInt 88)
  = Ok (str_join [c_nl] [lit "| a |"; lit "|---|"; []]).
Proof. vm_compute. reflexivity. Qed.

(** * C35 *)

(** A table with a row of a different number of columns stops the pass with the number of
    that row's line, when what stands before the table can be formatted. *)
Theorem C35_ragged_rejected : forall lim text w before header divider body1 row body2 after texts,
  parse_markdown lim (splitlines text)
    = Ok (before ++ (TABLE, header :: divider :: body1 ++ row :: body2) :: after) ->
  Forall (fun s => repr_check (fst s) (snd s) = Ok tt) after ->
  Forall (fun s => repr_check (fst s) (snd s) = Ok tt) before ->
  section_texts lim w 0 before texts ->
  Forall (fun line => length (table_cells line) = length (table_cells header)) body1 ->
  length (table_cells row) <> length (table_cells header) ->
  exists n, reformat_pass (S lim) text w
    = Err (MarkdownFormatException n (length (table_cells header)) (length (table_cells row)))
  /\ nth_error (splitlines text) (n - 1) = Some row
  /\ n = length (concat (map snd before)) + 2 + length body1 + 1.
Proof.
  intros lim text w before header divider body1 row body2 after texts Hp Ra Rb Ht Hb1 Hrow.
  set (li := length (concat (map snd before))).
  set (hc := length (table_cells header)).
  assert (Et : fmt_table li (header :: divider :: body1 ++ row :: body2)
    = Err (MarkdownFormatException (li + (2 + length body1) + 1) hc (length (table_cells row)))).
  { cbn [fmt_table].
    assert (Ec : check_columns li (length (cell_widths header)) 2
                   (map cell_widths (body1 ++ row :: body2))
                 = Err (MarkdownFormatException (li + (2 + length body1) + 1) hc
                          (length (table_cells row)))).
    { apply check_columns_err. exists (map cell_widths body1), (cell_widths row), (map cell_widths body2).
      rewrite map_app. split; [reflexivity|]. split.
      - apply Forall_map. eapply Forall_impl; [|exact Hb1]. cbn. unfold cell_widths. intros l.
        rewrite !map_length. auto.
      - split; [unfold cell_widths; rewrite !map_length; exact Hrow|].
        unfold cell_widths. rewrite !map_length. reflexivity. }
    rewrite Ec. reflexivity. }
  exists (li + (2 + length body1) + 1). split; [|split; [|unfold li; lia]].
  - cbn [reformat_pass]. rewrite Hp. cbn [bind].
    assert (B : forall secs1 i last texts1, section_texts lim w i secs1 texts1 ->
      Forall (fun s => repr_check (fst s) (snd s) = Ok tt) secs1 ->
      exists fs1 outs1 fs2,
        build_formatters i last (secs1 ++ (TABLE, header :: divider :: body1 ++ row :: body2) :: after)
        = Ok (fs1 ++ (TABLE, i + length (concat (map snd secs1)),
                      header :: divider :: body1 ++ row :: body2) :: fs2)
        /\ Forall2 (fun '(ty, line_index, lines) r => section_text lim w line_index ty lines r)
             fs1 outs1).
    { assert (A : forall secs i last, Forall (fun s => repr_check (fst s) (snd s) = Ok tt) secs ->
                  exists fs, build_formatters i last secs = Ok fs).
      { induction secs as [|[ty c] secs IH]; intros i last H; cbn [build_formatters]; [eauto|].
        inv H. cbn [fst snd] in *. rewrite H2. cbn [bind].
        destruct (IH (i + length c) (Some ty) H3) as (fs & ->). cbn [bind]. eauto. }
      induction secs1 as [|[ty c] secs1 IH]; intros i last texts1 H R.
      - cbn [app build_formatters map concat length]. rewrite Nat.add_0_r.
        cbn [repr_check bind].
        match goal with |- context [build_formatters ?a ?b after] =>
          destruct (A after a b Ra) as (fs & E) end. rewrite E. cbn [bind].
        exists [], [], fs. split; [reflexivity|constructor].
      - inv H. inv R. cbn [fst snd] in *. cbn [app build_formatters]. rewrite H1. cbn [bind].
        destruct (IH (i + length c) (Some ty) outs H6 H2) as (fs1 & outs1 & fs2 & E & HF).
        rewrite E. cbn [bind map concat]. rewrite app_length, Nat.add_assoc.
        set (extra := match ty with SETEXT_HEADING => _ | _ => _ end).
        exists (extra ++ (ty, i, c) :: fs1),
          (map (fun _ => []) extra ++ r :: outs1), fs2.
        split; [rewrite <- app_assoc; reflexivity|]. apply Forall2_app.
        + unfold extra. destruct ty; try constructor. destruct last as [[]|]; repeat constructor.
        + constructor; [assumption|exact HF]. }
    destruct (B before 0 None texts Ht Rb) as (fs1 & outs1 & fs2 & E & HF).
    match goal with |- bind ?x _ = _ =>
      match type of E with _ = ?y => replace x with y by (symmetry; exact E) end end.
    cbn [bind plus]. fold li.
    match goal with |- context [pep479 (mapM ?f ?l)] =>
      assert (EM : mapM f l = Err (MarkdownFormatException (li + (2 + length body1) + 1) hc
                          (length (table_cells row)))) end.
    { clear -HF Et. induction HF as [|[[ty i] c] o fs1 outs1 Ho HF IH].
      - cbn [app mapM reformatted]. rewrite Et. reflexivity.
      - cbn [app mapM]. unfold section_text in Ho. rewrite Ho. cbn [bind]. rewrite IH. reflexivity. }
    rewrite EM. reflexivity.
  - apply parse_markdown_lossless in Hp. destruct Hp as [Hp _]. rewrite <- Hp.
    rewrite map_app, concat_app. cbn [map concat snd].
    rewrite nth_error_app2 by (fold li; lia). fold li.
    replace (li + (2 + length body1) + 1 - 1 - li) with (2 + length body1) by lia.
    cbn [plus app nth_error]. rewrite <- app_assoc, nth_error_app2 by lia.
    rewrite Nat.sub_diag. reflexivity.
Qed.

(** The same for tables written with bars on both sides, about the API function. *)
Theorem C35_ragged_table_rejected :
  forall lim text w before header divider body1 row body2 after texts hs bss bs,
  parse_markdown lim (splitlines text)
    = Ok (before ++ (TABLE, header :: divider :: body1 ++ row :: body2) :: after) ->
  Forall (fun s => repr_check (fst s) (snd s) = Ok tt) (before ++ after) ->
  section_texts lim w 0 before texts ->
  header_of hs header -> Forall2 header_of bss body1 -> header_of bs row ->
  Forall (fun cells : list str => length cells = length hs) bss ->
  length bs <> length hs ->
  exists n, reformat_markdown_text (S lim) text w
    = Err (MarkdownFormatException n (length hs) (length bs))
  /\ nth_error (splitlines text) (n - 1) = Some row
  /\ n = length (concat (map snd before)) + 2 + length body1 + 1.
Proof.
  intros lim text w before header divider body1 row body2 after texts hs bss bs
    Hp R Ht Hh Hb Hr Hl Hne.
  apply Forall_app in R. destruct R as [R1 R2].
  rewrite <- (table_cells_header bs row Hr), <- (table_cells_header hs header Hh) in Hne.
  destruct (C35_ragged_rejected lim text w before header divider body1 row body2 after texts
              Hp R2 R1 Ht) as (n & E & En & Enn); [|exact Hne|].
  - rewrite (table_cells_header hs header Hh). clear -Hb Hl. revert Hl.
    induction Hb as [|x line xs body Hx Hb IH]; intros Hl; [constructor|]. inv Hl.
    constructor; [rewrite (table_cells_header x line Hx); assumption|auto].
  - rewrite (table_cells_header hs header Hh), (table_cells_header bs row Hr) in E.
    exists n. split; [|auto]. unfold reformat_markdown_text. rewrite E. reflexivity.
Qed.

(** A table section is rejected exactly when some body row has a different number of
    columns than the header; otherwise it is formatted. *)
Theorem C35_only_ragged_rejected : forall lim w i header divider body,
  ((exists n a b, reformatted (fun lines w' => reformat_pass lim (str_join [c_nl] lines ++ [c_nl]) w')
                    TABLE i (header :: divider :: body) w
                  = Err (MarkdownFormatException n a b))
   <-> Exists (fun row => length (table_cells row) <> length (table_cells header)) body)
  /\ (Forall (fun row => length (table_cells row) = length (table_cells header)) body ->
      exists r, section_text lim w i TABLE (header :: divider :: body) r).
Proof.
  intros lim w i header divider body. split; [|intros H; apply fmt_table_ok; exact H].
  cbn [reformatted]. split.
  - intros (n & a & b & E). apply neg_Forall_Exists_neg.
    + intros x. apply Nat.eq_dec.
    + intros H. destruct (fmt_table_ok i header divider body H) as (r & Er). congruence.
  - intros H. destruct (fmt_table i (header :: divider :: body)) as [r|e] eqn:E.
    + apply fmt_table_rows in E. destruct E as (E & _). exfalso. apply Exists_exists in H.
      destruct H as (row & Hin & Hne). rewrite Forall_forall in E. apply Hne. auto.
    + cbn [fmt_table] in E. apply bind_err in E. destruct E as [E|(x & _ & E)]; [|discriminate].
      apply check_columns_err in E. destruct E as (? & ? & ? & _ & _ & _ & ->). eauto.
Qed.

Example C35_nonvacuous :
  reformat_markdown_text 9 (str_join [c_nl] [lit "# t"; []; lit "| a | b |"; lit "|---|---|";
                                             lit "| 1 | 2 |"; lit "| 3 |"]) (WInt 88)
  = Err (MarkdownFormatException 6 2 1).
Proof. vm_compute. reflexivity. Qed.

(** False for nested tables: the line number is relative to the enclosing quote or list
    entry. *)
Theorem C35_nested_line_number_refuted :
  exists text n, (exists e, reformat_markdown_text 9 text (WInt 88) = Err e
                   /\ exn_base e = MarkdownFormatException n 2 1)
    /\ nth_error (splitlines text) (n - 1) <> Some (lit "> | 3 |")
    /\ In (lit "> | 3 |") (splitlines text).
Proof.
  exists (str_join [c_nl] [lit "# t"; []; lit "> | a | b |"; lit "> |---|---|"; lit "> | 3 |"]), 3.
  split; [|split; [vm_compute; discriminate|vm_compute; tauto]].
  exists (Redirected (MarkdownFormatException 3 2 1)). split; vm_compute; reflexivity.
Qed.
