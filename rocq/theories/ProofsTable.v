(** Tables. *)
From Verif Require Import Py Regex Utils TextWrap Lines Detectors Formatters Base
  SpecLines SpecFormat SpecTable ProofsLines ProofsParser ProofsPass.

(** ** Splitting rows *)

Lemma split_unescaped_ne b s : split_unescaped b s <> [].
Proof.
  destruct s as [|c s]; cbn [split_unescaped]; [discriminate|].
  destruct (_ && _); [discriminate|]. destruct (split_unescaped _ s); discriminate.
Qed.

Lemma split_unescaped_last b s : Forall (fun c => c <> c_bar) s -> split_unescaped b s = [s].
Proof.
  intros H. revert b. induction H as [|c s Hc H IH]; intros b; cbn [split_unescaped]; [reflexivity|].
  apply N.eqb_neq in Hc. rewrite Hc. cbn [andb]. rewrite IH. reflexivity.
Qed.

Lemma plain_escaped p : Forall (fun c => c <> c_bar) p -> (forall p', p <> p' ++ [c_bslash]) -> escaped_bars p.
Proof.
  intros H Hl. split; [|exact Hl]. intros a b ->. apply Forall_app in H. destruct H as [_ H]. inv H. congruence.
Qed.

Lemma split_unescaped_app b p s :
  escaped_bars p -> (p = [] -> b = false) ->
  split_unescaped b (p ++ c_bar :: s) = p :: split_unescaped false s.
Proof.
  intros [He Hl].
  assert (G : forall p b, (forall x y, p = x ++ c_bar :: y -> match x with [] => b = true | _ => exists x', x = x' ++ [c_bslash] end) ->
    (forall p', p <> p' ++ [c_bslash]) -> (p = [] -> b = false) ->
    split_unescaped b (p ++ c_bar :: s) = p :: split_unescaped false s).
  { clear. induction p as [|c p IH]; intros b He Hl Hb.
    - cbn [app split_unescaped]. rewrite (Hb eq_refl). reflexivity.
    - cbn [app split_unescaped].
      assert (Hc : N.eqb c c_bar && negb b = false).
      { destruct (N.eqb_spec c c_bar) as [->|]; [|reflexivity]. rewrite (He [] p eq_refl). reflexivity. }
      rewrite Hc, IH; [reflexivity| | |].
      + intros [|y x] z E.
        * destruct (He [c] z) as ([|? [|]] & Ex); [rewrite E; reflexivity|..]; inv Ex. reflexivity.
        * destruct (He (c :: y :: x) z) as ([|x0 x'] & Ex); [rewrite E; reflexivity|inv Ex|].
          cbn [app] in Ex. injection Ex as _ Ex. eauto.
      + intros p' E. apply (Hl (c :: p')). rewrite E. reflexivity.
      + intros ->. apply N.eqb_neq. intros ->. apply (Hl []). reflexivity. }
  intros Hb. apply G; auto. intros x y E. destruct (He x y E) as (x' & ->). destruct x'; cbn; eauto.
Qed.

Lemma split_unescaped_row cells s :
  cells <> [] -> Forall (fun c => c <> c_bar) s -> Forall escaped_bars cells ->
  split_unescaped false (str_join [c_bar] cells ++ [c_bar] ++ s) = cells ++ [s].
Proof.
  intros Hn Hs H. induction H as [|cell cells Hb H IH]; [congruence|].
  destruct cells as [|cell' cells].
  - cbn [str_join app]. rewrite split_unescaped_app by auto.
    rewrite split_unescaped_last by exact Hs. reflexivity.
  - rewrite str_join_cons by discriminate. rewrite <- !app_assoc. cbn [app].
    rewrite split_unescaped_app by auto. f_equal. apply IH. discriminate.
Qed.

Lemma spaces_no_bar ws : spaces ws -> Forall (fun c => c <> c_bar) ws.
Proof. apply Forall_impl. intros c H ->. discriminate. Qed.

Lemma spaces_no_bslash ws : spaces ws -> forall ws', ws <> ws' ++ [c_bslash].
Proof.
  intros H ws' ->. apply Forall_app in H. destruct H as [_ H]. inv H. discriminate.
Qed.

Lemma inner_row {A} (a : A) l b : inner (a :: l ++ [b]) = l.
Proof. unfold inner. cbn [tl]. apply removelast_last. Qed.

Lemma row_header cells line : row_of cells line -> header_of cells line.
Proof.
  intros (ws & ws' & E & Hw & Hw' & Hn & Hc). exists ws, ws'. repeat split; auto.
  eapply Forall_impl; [|exact Hc]. cbn. intros c [H1 H2]. apply plain_escaped; assumption.
Qed.

Lemma table_cells_header cells line : header_of cells line -> table_cells line = cells.
Proof.
  intros (ws & ws' & -> & Hw & Hw' & Hn & Hc). unfold table_cells. cbn [app].
  rewrite split_unescaped_app;
    [|apply plain_escaped; [apply spaces_no_bar; exact Hw|apply spaces_no_bslash; exact Hw]|auto].
  change (str_join [c_bar] cells ++ c_bar :: ws') with (str_join [c_bar] cells ++ [c_bar] ++ ws').
  rewrite split_unescaped_row; auto; [apply inner_row|apply spaces_no_bar; exact Hw'].
Qed.

Lemma table_cells_row cells line : row_of cells line -> table_cells line = cells.
Proof. intros H. apply table_cells_header, row_header, H. Qed.

Lemma split_on_row cells s :
  cells <> [] -> Forall (fun c => c <> c_bar) s ->
  Forall (fun cell => Forall (fun c => c <> c_bar) cell) cells ->
  split_on c_bar (str_join [c_bar] cells ++ [c_bar] ++ s) = cells ++ [s].
Proof.
  intros Hn Hs H. induction H as [|cell cells Hb H IH]; [congruence|].
  destruct cells as [|cell' cells].
  - cbn [str_join app]. rewrite split_on_app by auto.
    rewrite split_on_none by exact Hs. reflexivity.
  - rewrite str_join_cons by discriminate. rewrite <- !app_assoc. cbn [app].
    rewrite split_on_app by auto. f_equal. apply IH. discriminate.
Qed.

Lemma split_on_cells cells line : row_of cells line -> inner (split_on c_bar line) = cells.
Proof.
  intros (ws & ws' & -> & Hw & Hw' & Hn & Hc). cbn [app].
  rewrite split_on_app by (apply spaces_no_bar; exact Hw).
  change (str_join [c_bar] cells ++ c_bar :: ws') with (str_join [c_bar] cells ++ [c_bar] ++ ws').
  rewrite split_on_row; auto; [apply inner_row|apply spaces_no_bar; exact Hw'|].
  eapply Forall_impl; [|exact Hc]. cbn. tauto.
Qed.

Lemma strip_row cells line :
  row_of cells line -> inner (strip line) = str_join [c_bar] cells.
Proof.
  intros (ws & ws' & -> & Hw & Hw' & Hn & Hc).
  replace (ws ++ [c_bar] ++ str_join [c_bar] cells ++ [c_bar] ++ ws')
    with (ws ++ ([c_bar] ++ str_join [c_bar] cells ++ [c_bar]) ++ ws')
    by (rewrite <- !app_assoc; reflexivity).
  rewrite strip_app_spaces by (apply spaces_forallb; assumption).
  rewrite strip_id; [apply (inner_row c_bar)|reflexivity|].
  rewrite app_assoc, rev_app_distr. reflexivity.
Qed.

Lemma table_alignments_row cells line :
  row_of cells line -> table_alignments line = map divider_alignment cells.
Proof.
  intros H. unfold table_alignments. rewrite (strip_row cells line H). f_equal.
  destruct H as (_ & _ & _ & _ & _ & Hn & Hc). apply split_on_join; [exact Hn|].
  eapply Forall_impl; [|exact Hc]. cbn. tauto.
Qed.

Lemma split_no_escape l b :
  contains [c_bslash; c_bar] l = false -> (b = true -> forall l', l <> c_bar :: l') ->
  split_unescaped b l = split_on c_bar l.
Proof.
  revert b. induction l as [|c l IH]; intros b Hc Hb; [reflexivity|].
  cbn [contains] in Hc. apply orb_false_iff in Hc. destruct Hc as [Hc1 Hc2].
  cbn [split_unescaped split_on].
  assert (G : c = c_bslash -> forall l', l <> c_bar :: l').
  { intros -> l' ->. cbn in Hc1. discriminate. }
  destruct (N.eqb_spec c c_bar) as [->|Hn].
  - destruct b; [exfalso; apply (Hb eq_refl l); reflexivity|]. cbn [negb andb].
    rewrite IH; [reflexivity|exact Hc2|discriminate].
  - cbn [andb]. rewrite IH; [reflexivity|exact Hc2|]. intros E. apply G. apply N.eqb_eq. exact E.
Qed.

Lemma table_cells_no_escape l :
  contains [c_bslash; c_bar] l = false -> table_cells l = inner (split_on c_bar l).
Proof. intros H. unfold table_cells. rewrite split_no_escape; [reflexivity|exact H|discriminate]. Qed.

(** ** Column widths *)

Lemma widen_spec ns ws :
  length ws = length ns ->
  length (widen ns ws) = length ns /\ Forall2 le ns (widen ns ws) /\ Forall2 le ws (widen ns ws)
  /\ forall j v, nth_error (widen ns ws) j = Some v ->
       nth_error ns j = Some v \/ nth_error ws j = Some v.
Proof.
  revert ws. induction ns as [|n ns IH]; intros [|w ws] H; try discriminate.
  - cbn. split; [reflexivity|]. split; [constructor|]. split; [constructor|auto].
  - cbn in H. destruct (IH ws) as (H1 & H2 & H3 & H4); [lia|]. cbn [widen length].
    split; [lia|]. split; [|split].
    + constructor; [|exact H2]. destruct (n <? w) eqn:E; [apply Nat.ltb_lt in E; lia|lia].
    + constructor; [|exact H3]. destruct (n <? w) eqn:E; [lia|apply Nat.ltb_ge in E; lia].
    + intros [|j] v E; cbn [nth_error] in *; [|auto]. destruct (n <? w); auto.
Qed.

Lemma Forall2_le_trans a b c : Forall2 le a b -> Forall2 le b c -> Forall2 le a c.
Proof.
  intros H. revert c. induction H; intros c Hc; inv Hc; constructor; [lia|auto].
Qed.

Lemma Forall2_le_refl a : Forall2 le a a.
Proof. induction a; constructor; auto. Qed.

Lemma fold_widen rows ns :
  Forall (fun ws : list nat => length ws = length ns) rows ->
  let r := fold_left widen rows ns in
  length r = length ns /\ Forall2 le ns r /\ Forall (fun ws => Forall2 le ws r) rows
  /\ forall j v, nth_error r j = Some v ->
       nth_error ns j = Some v \/ exists ws, In ws rows /\ nth_error ws j = Some v.
Proof.
  revert ns. induction rows as [|ws rows IH]; intros ns H; cbn [fold_left].
  - split; [reflexivity|]. split; [apply Forall2_le_refl|]. split; [constructor|auto].
  - inv H. destruct (widen_spec ns ws H2) as (L & Hn & Hw & Ha).
    destruct (IH (widen ns ws)) as (L' & Hn' & Hr & Ha').
    { eapply Forall_impl; [|exact H3]. cbn. intros. lia. }
    split; [lia|]. split; [eapply Forall2_le_trans; eauto|]. split.
    + constructor; [eapply Forall2_le_trans; eauto|exact Hr].
    + intros j v E. destruct (Ha' j v E) as [E'|(ws' & Hin & E')].
      * destruct (Ha j v E') as [|]; [auto|]. right. exists ws. cbn. auto.
      * right. exists ws'. cbn. auto.
Qed.

Definition column_widths (hw : list nat) (bws : list (list nat)) : list nat :=
  fold_left widen (hw :: bws) (map (fun _ => 0) hw).

Lemma column_widths_spec hw bws :
  Forall (fun ws => length ws = length hw) bws ->
  let r := column_widths hw bws in
  length r = length hw /\ Forall (fun ws => Forall2 le ws r) (hw :: bws)
  /\ forall j v, nth_error r j = Some v ->
       exists ws, In ws (hw :: bws) /\ nth_error ws j = Some v.
Proof.
  intros H. unfold column_widths. cbn zeta.
  destruct (fold_widen (hw :: bws) (map (fun _ => 0) hw)) as (L & _ & Hr & Ha).
  { constructor; [rewrite map_length; reflexivity|].
    eapply Forall_impl; [|exact H]. cbn. intros. rewrite map_length. assumption. }
  rewrite map_length in L. split; [exact L|]. split; [exact Hr|].
  intros j v E. destruct (Ha j v E) as [E'|E']; [|exact E'].
  rewrite nth_error_map in E'. destruct (nth_error hw j) as [x|] eqn:Ex; [|discriminate].
  cbn in E'. injection E' as <-. inv Hr. exists hw. split; [left; reflexivity|].
  clear -Ex E H2. revert j Ex E. induction H2; intros [|j] Ex E; cbn in *; try discriminate.
  - injection Ex as ->. injection E as ->. f_equal. lia.
  - eauto.
Qed.

(** ** Checking column counts *)

Lemma check_columns_ok li hc i widths :
  check_columns li hc i widths = Ok tt <-> Forall (fun ws => length ws = hc) widths.
Proof.
  revert i. induction widths as [|ws rest IH]; intros i; cbn [check_columns].
  - split; [constructor|reflexivity].
  - destruct (length ws =? hc) eqn:E.
    + apply Nat.eqb_eq in E. rewrite IH. split; [constructor; auto|intros H; inv H; auto].
    + apply Nat.eqb_neq in E. split; [discriminate|]. intros H. inv H. congruence.
Qed.

Lemma check_columns_err li hc i widths e :
  check_columns li hc i widths = Err e <->
  exists before ws after, widths = before ++ ws :: after
    /\ Forall (fun x => length x = hc) before /\ length ws <> hc
    /\ e = MarkdownFormatException (li + (i + length before) + 1) hc (length ws).
Proof.
  revert i. induction widths as [|ws rest IH]; intros i; cbn [check_columns].
  - split; [discriminate|]. intros (b & x & a & E & _). destruct b; discriminate.
  - destruct (length ws =? hc) eqn:E.
    + apply Nat.eqb_eq in E. rewrite IH. split.
      * intros (b & x & a & -> & Hb & Hx & ->). exists (ws :: b), x, a.
        split; [reflexivity|]. split; [constructor; assumption|]. split; [exact Hx|].
        f_equal. cbn [length]. lia.
      * intros (b & x & a & Eb & Hb & Hx & ->). destruct b as [|y b].
        { cbn in Eb. injection Eb as -> _. congruence. }
        cbn in Eb. injection Eb as -> Er. inv Hb. exists b, x, a.
        split; [auto|]. split; [assumption|]. split; [exact Hx|]. f_equal. cbn [length]. lia.
    + apply Nat.eqb_neq in E. split.
      * intros G. inv G. exists [], ws, rest. split; [reflexivity|]. split; [constructor|].
        split; [exact E|]. f_equal. cbn [length]. lia.
      * intros (b & x & a & Eb & Hb & Hx & ->). destruct b as [|y b].
        { cbn in Eb. injection Eb as -> ->. f_equal. f_equal. cbn [length]. lia. }
        cbn in Eb. injection Eb as -> Er. inv Hb. congruence.
Qed.

(** ** Cells *)


Lemma left_align_length t w : length t <= w -> length (left_align t w) = w.
Proof. intros H. unfold left_align, rep. rewrite app_length, repeat_length. lia. Qed.
Lemma right_align_length t w : length t <= w -> length (right_align t w) = w.
Proof. intros H. unfold right_align, rep. rewrite app_length, repeat_length. lia. Qed.
Lemma center_align_length t w : length t <= w -> length (center_align t w) = w.
Proof.
  intros H. unfold center_align, rep. rewrite !app_length, !repeat_length.
  assert ((w - length t) / 2 <= w - length t) by (apply Nat.div_le_upper_bound; lia). lia.
Qed.

Lemma header_cell_length t w a :
  length (strip t) <= w -> length (header_cell (t, (w, a))) = w + 2.
Proof.
  intros H. unfold header_cell. rewrite !app_length. cbn [length].
  destruct a; rewrite ?left_align_length, ?right_align_length, ?center_align_length by exact H; lia.
Qed.

Lemma body_cell_length t w a :
  length (strip t) <= w -> length (body_cell (t, (w, a))) = w + 2.
Proof.
  intros H. unfold body_cell. rewrite !app_length. cbn [length].
  destruct a; rewrite ?left_align_length, ?right_align_length, ?center_align_length by exact H; lia.
Qed.

Lemma divider_cell_length w a : length (divider_cell (w, a)) = w + 2.
Proof.
  unfold divider_cell, rep. destruct a; rewrite !app_length, repeat_length; cbn [length]; lia.
Qed.

Lemma header_cell_spaced x : spaced (header_cell x).
Proof. destruct x as [t [w a]]. unfold header_cell. eexists. reflexivity. Qed.
Lemma body_cell_spaced x : spaced (body_cell x).
Proof. destruct x as [t [w a]]. unfold body_cell. eexists. reflexivity. Qed.

Lemma zip2_combine {A B} (a : list A) (b : list B) : zip2 a b = combine a b.
Proof. revert b. induction a as [|x a IH]; intros [|y b]; cbn; f_equal; auto. Qed.

(** Rows laid out from cells that fit. *)
Lemma row_widths (f : str * (nat * alignment) -> str) cells ws al :
  (forall t w a, length (strip t) <= w -> length (f (t, (w, a))) = w + 2) ->
  Forall2 le (map (fun c => length (strip c)) cells) ws ->
  map (@length char) (map f (zip2 cells (zip2 ws al)))
  = map (fun wa => fst wa + 2) (zip2 ws al).
Proof.
  intros Hf H. remember (map (fun c => length (strip c)) cells) as lens eqn:El.
  revert cells al El. induction H as [|n w lens ws Hnw H IH]; intros cells al El.
  - destruct cells; [|discriminate]. reflexivity.
  - destruct cells as [|c cells]; [discriminate|]. cbn in El. injection El as -> El.
    destruct al as [|a al]; [reflexivity|]. cbn [zip2 map fst]. rewrite Hf by exact Hnw.
    f_equal. apply IH. exact El.
Qed.

Lemma Forall2_le_app_l a a' b : Forall2 le a b -> length a = length b -> a' = [] -> Forall2 le (a ++ a') b.
Proof. intros H _ ->. rewrite app_nil_r. exact H. Qed.

(** The shape of an accepted table without escaped bars in its body. *)
Lemma fmt_table_rows li header divider body r :
  fmt_table li (header :: divider :: body) = Ok r ->
  let ws := column_widths (cell_widths header) (map cell_widths body) in
  let wa := zip2 ws (table_alignments divider) in
  Forall (fun line => length (table_cells line) = length (table_cells header)) body
  /\ length ws = length (table_cells header)
  /\ Forall (fun line => Forall2 le (cell_widths line) ws) (header :: body)
  /\ r = str_join [c_nl]
       (table_row (map header_cell (zip2 (table_cells header) wa))
        :: table_row (map divider_cell wa)
        :: map (fun line => table_row (map body_cell (zip2 (inner (split_on c_bar line)) wa)))
               body).
Proof.
  cbn [fmt_table]. intros H. bind_inv H. destruct a. apply ok_inj in H.
  fold (column_widths (cell_widths header) (map cell_widths body)) in H.
  cbn zeta. apply check_columns_ok in E.
  assert (Hl : Forall (fun line => length (table_cells line) = length (table_cells header)) body).
  { apply Forall_map in E. eapply Forall_impl; [|exact E]. cbn. unfold cell_widths. intros l.
    rewrite !map_length. auto. }
  destruct (column_widths_spec (cell_widths header) (map cell_widths body) E) as (L & Hle & _).
  split; [exact Hl|]. split.
  - rewrite L. unfold cell_widths. apply map_length.
  - split; [|symmetry; exact H]. inversion Hle as [|? ? Hh Hb]; subst. constructor; [exact Hh|].
    apply Forall_map in Hb. exact Hb.
Qed.

Lemma fmt_table_ok li header divider body :
  Forall (fun line => length (table_cells line) = length (table_cells header)) body ->
  exists r, fmt_table li (header :: divider :: body) = Ok r.
Proof.
  intros H. cbn [fmt_table].
  assert (E : check_columns li (length (cell_widths header)) 2 (map cell_widths body) = Ok tt).
  { apply check_columns_ok, Forall_map. eapply Forall_impl; [|exact H]. cbn. unfold cell_widths.
    intros l. rewrite !map_length. auto. }
  rewrite E. cbn [bind]. eauto.
Qed.

(** ** Alignment *)

Lemma startswith_colon_iff t : startswith [c_colon] t = true <-> colon_left t.
Proof. rewrite startswith_spec. split; intros (x & ->); exists x; reflexivity. Qed.

Lemma endswith_colon_iff t : endswith [c_colon] t = true <-> colon_right t.
Proof. rewrite endswith_spec. split; intros (x & ->); exists x; reflexivity. Qed.

Lemma divider_alignment_spec d :
  match divider_alignment d with
  | ACenter => colon_left (strip d) /\ colon_right (strip d)
  | ALeft => colon_left (strip d) /\ ~ colon_right (strip d)
  | ARight => ~ colon_left (strip d) /\ colon_right (strip d)
  | ANone => ~ colon_left (strip d) /\ ~ colon_right (strip d)
  end.
Proof.
  unfold divider_alignment.
  assert (L := startswith_colon_iff (strip d)). assert (R := endswith_colon_iff (strip d)).
  destruct (startswith [c_colon] (strip d)), (endswith [c_colon] (strip d)); cbn [andb];
    split; intuition congruence.
Qed.

Lemma divider_cell_colons w a :
  match a with
  | ACenter => colon_left (divider_cell (w, a)) /\ colon_right (divider_cell (w, a))
  | ALeft => colon_left (divider_cell (w, a)) /\ ~ colon_right (divider_cell (w, a))
  | ARight => ~ colon_left (divider_cell (w, a)) /\ colon_right (divider_cell (w, a))
  | ANone => ~ colon_left (divider_cell (w, a)) /\ ~ colon_right (divider_cell (w, a))
  end.
Proof.
  assert (L : forall c s, c <> c_colon -> ~ colon_left ([c] ++ s)).
  { intros c s Hc (x & E). cbn in E. congruence. }
  assert (R : forall s, ~ colon_right (s ++ [c_dash])).
  { intros s (x & E). apply app_inj_tail in E. destruct E. discriminate. }
  unfold divider_cell. destruct a; split.
  - apply L. discriminate.
  - rewrite app_assoc. apply R.
  - eexists. reflexivity.
  - eexists. rewrite app_assoc. reflexivity.
  - eexists. reflexivity.
  - rewrite app_assoc. apply R.
  - apply L. discriminate.
  - eexists. rewrite app_assoc. reflexivity.
Qed.

Lemma divider_same_alignment d w : same_alignment d (divider_cell (w, divider_alignment d)).
Proof.
  intros t Ht. apply trims_strip in Ht. subst t. assert (H1 := divider_alignment_spec d).
  assert (H2 := divider_cell_colons w (divider_alignment d)).
  destruct (divider_alignment d); tauto.
Qed.

Lemma center_centred t w : centred t ([c_sp] ++ center_align t w ++ [c_sp]).
Proof.
  set (p := w - length t). exists (p / 2), (p - p / 2). split.
  - unfold center_align, rep. fold p. rewrite <- !app_assoc. reflexivity.
  - assert (p = 2 * (p / 2) + p mod 2) by (apply Nat.div_mod; lia).
    assert (p mod 2 < 2) by (apply Nat.mod_upper_bound; lia). lia.
Qed.

Lemma header_cell_aligned d t w : aligned centred d (strip t) (header_cell (t, (w, divider_alignment d))).
Proof.
  intros td Htd. apply trims_strip in Htd. subst td. assert (H := divider_alignment_spec d).
  unfold header_cell. destruct (divider_alignment d); repeat split; intros; try tauto.
  - apply center_centred.
  - apply center_centred.
  - exists (w - length (strip t)). unfold left_align, rep. rewrite <- app_assoc. reflexivity.
  - exists (w - length (strip t)). unfold right_align, rep. rewrite <- app_assoc. reflexivity.
Qed.

Lemma body_cell_aligned d t w : aligned flush_left d (strip t) (body_cell (t, (w, divider_alignment d))).
Proof.
  intros td Htd. apply trims_strip in Htd. subst td. assert (H := divider_alignment_spec d).
  unfold body_cell. destruct (divider_alignment d); repeat split; intros; try tauto.
  - exists (w - length (strip t)). unfold left_align, rep. rewrite <- app_assoc. reflexivity.
  - apply center_centred.
  - exists (w - length (strip t)). unfold left_align, rep. rewrite <- app_assoc. reflexivity.
  - exists (w - length (strip t)). unfold right_align, rep. rewrite <- app_assoc. reflexivity.
Qed.
