(** The text that the sections of documents are formatted to. *)
From Coq Require Import String.
From Verif Require Import Py Formatters Base SpecLines SpecFormat ProofsPass SpecTable ProofsTable PropsTable
  SpecWrap SpecProse ProofsWrap ProofsStable ProofsProse SpecContent SpecNested SpecRender.

(** * Text *)

Lemma fit_spec w n : fit w n = true <-> fits w n.
Proof.
  destruct w as [z| |q]; cbn [fit fits]; [|tauto|]; rewrite Bool.orb_true_iff.
  - rewrite !Z.leb_le. reflexivity.
  - rewrite !Qle_bool_iff. reflexivity.
Qed.

Lemma put_longer line p : length line <= length (put line p).
Proof.
  destruct line as [|c line], p as [t []]; cbn [put]; try (cbn; lia); rewrite !app_length; lia.
Qed.

Lemma puts_longer ps line : length line <= length (fold_left put ps line).
Proof.
  revert line. induction ps as [|p ps IH]; intros line; cbn [fold_left]; [lia|].
  etransitivity; [apply put_longer|apply IH].
Qed.

Lemma fill_line w line more rest : (more <> [] -> fits w (length (fold_left put more line))) ->
  fill w line (more ++ rest) = fill w (fold_left put more line) rest.
Proof.
  revert line. induction more as [|p more IH]; intros line H; [reflexivity|]. cbn [app fill fold_left].
  assert (F : fits w (length (put line p))).
  { eapply fits_shorter; [|apply H; discriminate]. cbn [fold_left]. apply puts_longer. }
  apply fit_spec in F. rewrite F. apply IH. intros _. apply H. discriminate.
Qed.

Lemma line_of_cons p g : line_of (p :: g) = fold_left put g (fst p).
Proof. unfold line_of. cbn [fold_left]. destruct p as [t b]. reflexivity. Qed.

(** A line of several pieces is longer than each of them. *)
Lemma put_single g : forall line p, line <> [] -> Forall (fun p : piece => fst p <> []) g -> In p g -> length (fst p) < length (fold_left put g line).
Proof.
  induction g as [|q g IH]; intros line p Hl Hg Hp; [destruct Hp|]. cbn [fold_left]. inversion Hg; subst.
  assert (L : length (fst q) < length (put line q)).
  { destruct line as [|c line]; [congruence|]. destruct q as [t []]; cbn [put fst]; rewrite !app_length; cbn [length]; lia. }
  destruct Hp as [<-|Hp].
  - eapply Nat.lt_le_trans; [exact L|apply puts_longer].
  - apply IH; auto. intros E. rewrite E in L. cbn in L. lia.
Qed.

Lemma put_grows q g line : line <> [] -> fst q <> [] -> length line < length (fold_left put g (put line q)).
Proof.
  intros Hl Hq. eapply Nat.lt_le_trans; [|apply puts_longer]. destruct line as [|c line]; [congruence|].
  destruct q as [t []]; cbn [put fst] in *; rewrite !app_length; destruct t; try congruence; cbn; lia.
Qed.

Lemma single_piece w p g : Forall (fun p : piece => fst p <> []) (p :: g) ->
  (fits w (length (line_of (p :: g))) \/ exists q, In q (p :: g) /\ line_of (p :: g) = fst q) ->
  g <> [] -> fits w (length (fold_left put g (fst p))).
Proof.
  intros Hg H Hn. rewrite line_of_cons in H. destruct H as [H|(q & Hq & E)]; [exact H|]. exfalso.
  inversion Hg as [|? ? H1 H2]; subst. destruct Hq as [<-|Hq].
  - destruct g as [|q g]; [congruence|]. inversion H2; subst. cbn [fold_left] in E.
    assert (G := put_grows q g (fst p) H1 ltac:(assumption)). rewrite E in G. lia.
  - assert (G := put_single g (fst p) q H1 H2 Hq). rewrite E in G. lia.
Qed.

Lemma empty_line ps : Forall (fun p : piece => fst p <> []) ps -> line_of ps = [] -> ps = [].
Proof.
  intros H E. destruct H as [|p ps Hp _]; [reflexivity|]. exfalso. rewrite line_of_cons in E.
  assert (G := puts_longer ps (fst p)). rewrite E in G. destruct (fst p); [congruence|cbn in G; lia].
Qed.

(** Pieces are filled into lines in one way only. *)
Lemma filled_paragraph w ps lines : Forall (fun p : piece => fst p <> []) ps -> Forall (fun p => ~ html_break p) ps ->
  filled w ps lines -> lines = paragraph w ps.
Proof.
  intros Hp Hb (groups & rest & -> & Hr & -> & Hn & Hf & Hbr & _).
  apply Forall_app in Hp. destruct Hp as [Hp Hp']. rewrite (empty_line _ Hp' Hr), app_nil_r in *. clear rest Hr Hp'.
  assert (Hbr' : forall before g g' after, groups = before ++ g :: g' :: after ->
            exists p g1, g' = p :: g1 /\ ~ fits w (length (put (line_of g) p))).
  { intros before g g' after E. destruct (Hbr before g g' after E) as [(g1 & p & -> & G)|G]; [|exact G]. exfalso.
    rewrite Forall_forall in Hb. apply (Hb p); [|exact G]. rewrite E, concat_app. cbn [concat]. rewrite !in_app_iff. cbn. tauto. }
  clear Hbr Hb. destruct groups as [|g groups]; [reflexivity|].
  inversion Hn as [|? ? N1 N2]; subst. destruct g as [|p g]; [exfalso; apply N1; reflexivity|]. clear N1.
  cbn [map concat app] in *. cbn [paragraph]. inversion Hf as [|? ? F1 F2]; subst.
  change (p :: g ++ concat groups) with ((p :: g) ++ concat groups) in Hp. apply Forall_app in Hp. destruct Hp as [P1 P2].
  rewrite fill_line by (apply (single_piece w p g P1 F1)). rewrite <- line_of_cons. clear F1 P1 Hf Hn.
  assert (Hbr : forall before g0 g' after, (p :: g) :: groups = before ++ g0 :: g' :: after ->
            exists p g1, g' = p :: g1 /\ ~ fits w (length (put (line_of g0) p))) by exact Hbr'.
  clear Hbr'. revert Hbr F2 P2 N2. generalize (p :: g) as cur. clear p g.
  induction groups as [|g groups IH]; intros cur Hbr Hf Hp Hn; [reflexivity|].
  destruct (Hbr [] cur g groups eq_refl) as (p & g1 & -> & Hl). cbn [map concat app fill] in *.
  change (p :: g1 ++ concat groups) with ((p :: g1) ++ concat groups) in Hp. apply Forall_app in Hp. destruct Hp as [P1 P2].
  inversion Hf as [|? ? F1 F2]; subst. inversion Hn; subst.
  destruct (fit w (length (put (line_of cur) p))) eqn:E; [apply fit_spec in E; contradiction|]. f_equal.
  rewrite fill_line by (apply (single_piece w p g1 P1 F1)). rewrite <- line_of_cons. apply IH; auto.
  intros before g0 g' after Eg. apply (Hbr (cur :: before) g0 g' after). rewrite Eg. reflexivity.
Qed.

Lemma break_first p : html_break p -> exists t, fst p = lit "<br" ++ t.
Proof.
  intros (tag & t & E & H). cbn in H.
  destruct H as [<-|[<-|[<-|[<-|[]]]]]; rewrite E; eexists; cbn; reflexivity.
Qed.

Lemma prose_unbroken b ps s : prose b ps s -> Forall (fun p => ~ html_break p) ps.
Proof.
  induction 1 as [b ws Hw|b ws x ps rest Hw Hx Hs Ho Hp H IH|b ws x ps rest Hw Hc Hp H IH|ws x ws' y ps rest Hw Hw' Hl Hp H IH].
  - constructor.
  - constructor; [|exact IH]. intros Hb. apply break_first in Hb. destruct Hb as (t & E). cbn [fst] in E.
    destruct Ho as (Hm & _). apply (Hm (lit "<br") [] t); [cbn; tauto|]. rewrite E. reflexivity.
  - constructor; [|exact IH]. intros Hb. apply break_first in Hb. destruct Hb as (t & E). cbn [fst] in E.
    destruct Hc as (n & code & dot & -> & Hn & _). destruct n as [|n]; [lia|]. cbn in E. discriminate.
  - destruct Hl as (_ & _ & Hl & _ & Hy & _). apply Forall_app. split.
    + unfold words_as_pieces. rewrite Forall_map. eapply Forall_impl; [|exact Hl]. intros word (_ & _ & G) Hb.
      apply break_first in Hb. destruct Hb as (t & E). apply (G [] t). exact E.
    + constructor; [|exact IH]. intros Hb. apply break_first in Hb. destruct Hb as (t & E). apply (Hy t). exact E.
Qed.

Lemma prose_paragraph w b ps s lines : prose b ps s -> filled w ps lines -> lines = paragraph w ps.
Proof.
  intros H. apply filled_paragraph; [|eapply prose_unbroken; exact H].
  eapply Forall_impl; [|eapply prose_ink; exact H]. intros p [(c & t & -> & _) _]. discriminate.
Qed.

Lemma max_longest lines m : max_list (map (@length char) lines) = Ok m -> longest lines = m.
Proof.
  unfold longest. destruct lines as [|l lines]; [discriminate|]. cbn [map max_list list_max]. intros [= <-].
  assert (G : forall l n, fold_left Nat.max l n = Nat.max n (list_max l)).
  { clear. unfold list_max. induction l as [|a l IH]; intros n; [cbn; lia|]. cbn [fold_left fold_right]. rewrite IH. lia. }
  rewrite G. reflexivity.
Qed.

(** * Tables *)

Lemma trims_map hs ts : Forall2 trims hs ts -> ts = map strip hs.
Proof. induction 1 as [|h t hs ts H _ IH]; [reflexivity|]. cbn [map]. apply trims_strip in H. congruence. Qed.

Lemma divides_map ds sides : Forall2 divides ds sides ->
  sides = map (fun d => (startswith [c_colon] (strip d), endswith [c_colon] (strip d))) ds.
Proof.
  induction 1 as [|d side ds sides (t & Ht & L & R) _ IH]; [reflexivity|]. cbn [map]. rewrite IH. f_equal.
  apply trims_strip in Ht. subst t. rewrite <- startswith_colon_iff in L. rewrite <- endswith_colon_iff in R.
  destruct side as [a b]. cbn [fst snd] in *. f_equal; apply Bool.eq_iff_eq_true; assumption.
Qed.

Lemma map_seq {A B} (d : A) (f : A -> B) l : map f l = map (fun j => f (nth j l d)) (seq 0 (length l)).
Proof.
  induction l as [|a l IH]; [reflexivity|]. cbn [length seq map nth]. f_equal. rewrite <- seq_shift, map_map. exact IH.
Qed.

Lemma zip_seq {A B C} (a0 : A) (b0 : B) (f : A * B -> C) a b : length b = length a ->
  map f (zip2 a b) = map (fun j => f (nth j a a0, nth j b b0)) (seq 0 (length a)).
Proof.
  revert b. induction a as [|x a IH]; intros [|y b] H; try discriminate; [reflexivity|].
  cbn [zip2 map length seq nth]. f_equal. rewrite <- seq_shift, map_map. apply IH. cbn in H. lia.
Qed.

Lemma nth_zip {A B} (a0 : A) (b0 : B) a b j : length b = length a -> nth j (zip2 a b) (a0, b0) = (nth j a a0, nth j b b0).
Proof.
  revert b j. induction a as [|x a IH]; intros [|y b] [|j] H; try discriminate; try reflexivity.
  cbn [zip2 nth]. apply IH. cbn in H. lia.
Qed.

Lemma longest_spec lines n : (forall l, In l lines -> length l <= n) -> (exists l, In l lines /\ length l = n) -> longest lines = n.
Proof.
  intros H (l & Hl & E). unfold longest. apply Nat.le_antisymm.
  - apply list_max_le, Forall_map, Forall_forall. exact H.
  - assert (G := proj1 (list_max_le (map (@length char) lines) _) (le_n _)). rewrite Forall_forall in G.
    rewrite <- E. apply G, in_map. exact Hl.
Qed.

Lemma nth_error_map_nth {A B} (f : A -> B) l j v d : nth_error (map f l) j = Some v -> v = f (nth j l d) /\ j < length l.
Proof.
  revert j. induction l as [|a l IH]; intros [|j] H; try discriminate; cbn in *.
  - injection H as <-. split; [reflexivity|lia].
  - destruct (IH j H) as [-> L]. split; [reflexivity|lia].
Qed.

Lemma out_width hs bss j : Forall (fun bs => length bs = length hs) bss -> j < length hs ->
  nth j (out_widths hs bss) 0 = column (map strip hs :: map (map strip) bss) j.
Proof.
  intros Hb Hj. unfold out_widths.
  set (f := fun c : str => length (strip c)).
  destruct (column_widths_spec (map f hs) (map (map f) bss)) as (L & Ha & He).
  { apply Forall_map. eapply Forall_impl; [|exact Hb]. cbn. intros bs E. rewrite !map_length. exact E. }
  change (map f hs :: map (map f) bss) with (map (map f) (hs :: bss)) in Ha, He.
  change (map strip hs :: map (map strip) bss) with (map (map strip) (hs :: bss)).
  set (r := column_widths _ _) in *. clearbody r. rewrite map_length in L.
  assert (Hl : forall row, In row (hs :: bss) -> length row = length hs).
  { intros row [<-|H]; [reflexivity|]. rewrite Forall_forall in Hb. auto. }
  symmetry. unfold column. rewrite map_map. apply longest_spec.
  - intros l Hin. apply in_map_iff in Hin. destruct Hin as (row & <- & Hrow).
    rewrite Forall_map in Ha. rewrite Forall_forall in Ha. specialize (Ha row Hrow). specialize (Hl row Hrow).
    change (@nil char) with (strip []). rewrite map_nth. change (length (strip (nth j row []))) with (f (nth j row [])).
    clear -Ha Hl Hj. rewrite <- Hl in Hj. clear Hl. revert j r Hj Ha.
    induction row as [|c row IH]; intros j r Hj Ha; [cbn in Hj; lia|]. cbn [map] in Ha. inversion Ha; subst.
    destruct j as [|j]; [assumption|]. cbn [nth]. apply IH; [cbn in Hj; lia|assumption].
  - assert (E : nth_error r j = Some (nth j r 0)) by (apply nth_error_nth'; lia).
    destruct (He j _ E) as (ws & Hw & Ew). apply in_map_iff in Hw. destruct Hw as (row & <- & Hrow).
    exists (nth j (map strip row) []). split; [apply in_map_iff; exists row; auto|].
    destruct (nth_error_map_nth f row j _ [] Ew) as [-> _]. change (@nil char) with (strip []) at 1. rewrite map_nth. reflexivity.
Qed.

Lemma divider_side d : divider_alignment d =
  match (startswith [c_colon] (strip d), endswith [c_colon] (strip d)) with
  | (true, true) => ACenter | (true, false) => ALeft | (false, true) => ARight | (false, false) => ANone
  end.
Proof. unfold divider_alignment. destruct (startswith _ _), (endswith _ _); reflexivity. Qed.

Lemma table_rendering hs ds bss header sides rows :
  length ds = length hs -> Forall (fun bs => length bs = length hs) bss ->
  Forall2 trims hs header -> Forall2 divides ds sides -> Forall2 (Forall2 trims) bss rows ->
  table_rows hs ds bss = table_lines header sides rows.
Proof.
  intros Hd Hb Hh Hs Hr. apply trims_map in Hh. apply divides_map in Hs.
  assert (rows = map (map strip) bss) as ->.
  { clear -Hr. induction Hr as [|bs row bss rows H _ IH]; [reflexivity|]. cbn [map]. apply trims_map in H. congruence. }
  subst header. set (side := fun d => _) in Hs. clear Hr.
  assert (Lw := out_widths_length hs bss Hb). assert (L := out_wa_length hs ds bss Hd Hb).
  assert (La : length (map divider_alignment ds) = length (out_widths hs bss)) by (rewrite map_length; lia).
  set (size := column (map strip hs :: map (map strip) bss)).
  assert (N : forall j, j < length hs -> nth j (out_wa hs ds bss) (0, divider_alignment [])
              = (size j, divider_alignment (nth j ds []))).
  { intros j Hj. unfold out_wa. rewrite nth_zip by exact La. rewrite out_width by assumption. rewrite map_nth. reflexivity. }
  assert (S : forall j, nth j sides (false, false) = side (nth j ds [])).
  { intros j. subst sides. change (false, false) with (side []). apply map_nth. }
  assert (C : forall (dflt : nat -> str -> str) f row, length row = length hs ->
            (forall c n d, f (c, (n, divider_alignment d)) = cell dflt (side d) n (strip c)) ->
            map f (zip2 row (out_wa hs ds bss))
            = map (fun j => cell dflt (nth j sides (false, false)) (size j) (nth j (map strip row) []))
                  (seq 0 (length (map strip hs)))).
  { intros dflt f row Hl Hf. rewrite map_length. rewrite (zip_seq [] (0, divider_alignment [])) by lia. rewrite Hl.
    apply map_ext_in. intros j Hj. apply in_seq in Hj. rewrite N by lia. rewrite Hf, S. f_equal.
    change (@nil char) with (strip []) at 2. rewrite map_nth. reflexivity. }
  assert (Cell : forall dflt c n d, c_sp :: match divider_alignment d with
            | ACenter => in_middle n (strip c) | ALeft => flushed_left n (strip c)
            | ARight => flushed_right n (strip c) | ANone => dflt n (strip c) end ++ [c_sp]
            = cell dflt (side d) n (strip c)).
  { intros dflt c n d. rewrite divider_side. unfold cell, side. destruct (startswith _ _), (endswith _ _); reflexivity. }
  unfold table_rows, table_lines. cbv zeta. fold size. f_equal; [|f_equal].
  - unfold table_row, between_bars. cbn [app]. f_equal. f_equal. f_equal. apply C; [reflexivity|].
    intros c n d. rewrite <- Cell. unfold header_cell. destruct (divider_alignment d); reflexivity.
  - unfold table_row, between_bars. cbn [app]. f_equal. f_equal. f_equal.
    rewrite (map_seq (0, divider_alignment [])). rewrite L, map_length. apply map_ext_in. intros j Hj. apply in_seq in Hj.
    rewrite N by lia. rewrite S. cbn [divider_cell]. rewrite divider_side. unfold ruled, side.
    destruct (startswith _ _), (endswith _ _); reflexivity.
  - rewrite !map_map. apply map_ext_in. intros row Hrow. rewrite Forall_forall in Hb.
    unfold table_row, between_bars. cbn [app]. f_equal. f_equal. f_equal. apply C; [apply Hb; exact Hrow|].
    intros c n d. rewrite <- Cell. unfold body_cell. destruct (divider_alignment d); reflexivity.
Qed.
