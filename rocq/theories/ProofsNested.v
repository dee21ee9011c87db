(** Documents with lists and block quotes: parsing and formatting. *)
From Coq Require Import String.
From Verif Require Import Py Regex Utils TextWrap Lines Detectors Formatters Base
  SpecLines SpecParser ProofsLines ProofsRegex ProofsParser ProofsShapes ProofsKinds
  SpecFormat ProofsPass ProofsForward PropsLeaf SpecTable ProofsTable PropsTable
  SpecWrap ProofsWrap ProofsTokens ProofsPieces ProofsFilled PropsWrap
  SpecDefinition ProofsDefinition PropsDefinition SpecList ProofsList PropsList SpecQuote PropsQuote
  SpecLimit ProofsLimit SpecErrors ProofsErrors SpecDocument SpecContent ProofsDocument SpecNested.

(** * Lines of list entries *)

(** Lines that stay inside a list, whatever is before them. *)
Definition entry_line (l : str) : Prop :=
  ~ blank_line l /\ ~ table_line l /\ ~ fence_line l
  /\ (forall c, In c [c_star; c_us; c_dash] -> exists x, In x l /\ is_space x = false /\ x <> c).

Lemma entry_line_continues l : entry_line l -> continues_list l = true.
Proof.
  intros (H1 & H2 & _ & H3). unfold continues_list. apply Bool.negb_true_iff.
  apply Bool.not_true_is_false. intros E. apply Bool.orb_true_iff in E. destruct E as [E|E].
  - apply Bool.orb_true_iff in E. destruct E as [E|E].
    + apply H1, blank_line_spec. exact E.
    + apply H2, table_spec. exact E.
  - apply thematic_spec in E. destruct E as (c & ws & body & -> & Hw & _ & Hc & Hb & _).
    destruct (H3 c Hc) as (x & Hx & Hs & Hn). apply in_app_or in Hx. destruct Hx as [Hx|[Hx|Hx]].
    + unfold spaces in Hw. rewrite Forall_forall in Hw. specialize (Hw x Hx). congruence.
    + congruence.
    + rewrite Forall_forall in Hb. destruct (Hb x Hx); congruence.
Qed.

Lemma entry_line_fence l run : entry_line l -> ~ opens l run.
Proof. intros (_ & _ & H & _) G. apply H. eapply opens_fence_line. exact G. Qed.

(** The first character that is no whitespace. *)
Lemma entry_line_head ws c t : spaces ws -> is_space c = false ->
  c <> c_bar -> (c = c_bt \/ c = c_tilde -> forall t', t <> [c; c] ++ t') ->
  (forall d, In d [c_star; c_us; c_dash] -> exists x, In x (c :: t) /\ is_space x = false /\ x <> d) ->
  entry_line (ws ++ c :: t).
Proof.
  intros Hw Hc H1 H2 H3. split; [|split; [|split]].
  - intros H. apply Forall_app in H. destruct H as [_ H]. apply Forall_inv in H. congruence.
  - intros (v & b & E & Hv). apply first_char_unique in E; try assumption; [|reflexivity].
    destruct E as (_ & E & _). congruence.
  - intros (v & d & b & E & Hv & Hd). apply first_char_unique in E; try assumption.
    + destruct E as (_ & <- & E). apply (H2 ltac:(cbn in Hd; intuition) b E).
    + cbn in Hd. destruct Hd as [<-|[<-|[]]]; reflexivity.
  - intros d Hd. destruct (H3 d Hd) as (x & Hx & G). exists x. split; [apply in_or_app; right; exact Hx|exact G].
Qed.

Lemma entry_line_spaces ws l : spaces ws -> entry_line l -> entry_line (ws ++ l).
Proof.
  intros Hw (H1 & H2 & H3 & H4). split; [|split; [|split]].
  - intros H. apply H1. apply Forall_app in H. apply H.
  - intros (v & b & E & Hv). apply H2. destruct (lead_decomp l) as (u & El & Hu & Hh).
    destruct (lstrip l) as [|c t] eqn:Es.
    { exfalso. apply H1. rewrite El, app_nil_r. exact Hu. }
    assert (Hc := lstrip_by_head is_space l c t Es). rewrite El, app_assoc in E.
    apply first_char_unique in E; [|apply Forall_app; auto|exact Hv|exact Hc|reflexivity].
    destruct E as (_ & -> & _). exists u, t. auto.
  - intros (v & d & b & E & Hv & Hd). apply H3. destruct (lead_decomp l) as (u & El & Hu & Hh).
    destruct (lstrip l) as [|c t] eqn:Es.
    { exfalso. apply H1. rewrite El, app_nil_r. exact Hu. }
    assert (Hc := lstrip_by_head is_space l c t Es). rewrite El, app_assoc in E.
    apply first_char_unique in E; [|apply Forall_app; auto|exact Hv|exact Hc|].
    + destruct E as (_ & <- & ->). exists u, c, b. split; [exact El|]. auto.
    + cbn in Hd. destruct Hd as [<-|[<-|[]]]; reflexivity.
  - intros c Hc. destruct (H4 c Hc) as (x & Hx & G). exists x. split; [apply in_or_app; right; exact Hx|exact G].
Qed.

Lemma marker_char m c m' : marker m -> m = c :: m' ->
  is_space c = false /\ c <> c_bar /\ c <> c_bt /\ c <> c_tilde.
Proof.
  intros [(b & -> & Hb)|(ds & -> & Hn & Hd)] E.
  - injection E as <- _. cbn in Hb. destruct Hb as [<-|[<-|[<-|[]]]]; repeat split; discriminate.
  - destruct ds as [|d ds]; [congruence|]. injection E as <- _. apply Forall_inv in Hd.
    split; [apply digit_not_space; exact Hd|]. repeat split; intros ->; discriminate.
Qed.

(** After a marker. *)
Lemma entry_line_marked ws m l : spaces ws -> marker m -> entry_line l -> entry_line (ws ++ m ++ c_sp :: l).
Proof.
  intros Hw Hm (_ & _ & _ & H). destruct (marker_head m Hm) as (c & m' & -> & Hc).
  destruct (marker_char _ c m' Hm eq_refl) as (_ & N1 & N2 & N3). cbn [app].
  apply entry_line_head; auto.
  - intros [G|G]; congruence.
  - intros d Hd. destruct (H d Hd) as (x & Hx & G). exists x. split; [|exact G].
    right. apply in_or_app. right. right. exact Hx.
Qed.

Lemma ordinary_entry_line l : text_line l -> entry_line l.
Proof.
  intros Ht. assert (K := text_line_kinds l Ht).
  destruct K as (K1 & K2 & K3 & K4 & K5 & K6 & K7 & K8 & K9). destruct Ht as (_ & (word & more & E & Ho) & _).
  split; [exact K1|]. split; [exact K6|]. split; [exact K7|].
  intros c Hc. destruct Ho as (_ & _ & _ & _ & Ho).
  assert (G : exists x, In x word /\ x <> c).
  { specialize (Ho c (length word)). assert (In c [c_star; c_plus; c_dash; c_us; c_eq]) by (cbn in *; intuition).
    specialize (Ho H). clear -Ho. destruct (forallb (N.eqb c) word) eqn:F.
    - exfalso. apply Ho. apply Forall_eq_repeat. rewrite forallb_forall in F. apply Forall_forall. intros x Hx.
      specialize (F x Hx). apply N.eqb_eq in F. congruence.
    - assert (G : existsb (fun x => negb (N.eqb c x)) word = true).
      { induction word as [|y word IH]; [discriminate|]. cbn in *. apply Bool.andb_false_iff in F.
        destruct (N.eqb c y); cbn in *; [|reflexivity]. destruct F as [F|F]; [discriminate|].
        apply existsb_exists. clear -F. induction word as [|z word IH]; [discriminate|].
        cbn in F. destruct (N.eqb c z) eqn:Ez; cbn in F.
        - destruct (IH F) as (x & Hx & G). exists x. split; [right; exact Hx|exact G].
        - exists z. split; [left; reflexivity|]. rewrite Ez. reflexivity. }
      apply existsb_exists in G. destruct G as (x & Hx & G). exists x. split; [exact Hx|]. intros ->.
      rewrite N.eqb_refl in G. discriminate. }
  destruct G as (x & Hx & Hne). destruct (word_infix word l) as (a & b & El).
  { rewrite E. left. reflexivity. }
  exists x. split; [rewrite El; apply in_or_app; right; apply in_or_app; left; exact Hx|].
  split; [|exact Hne]. assert (Hw := words_nonspace l). rewrite E in Hw. apply Forall_inv in Hw.
  destruct Hw as [_ Hw]. rewrite Forall_forall in Hw. auto.
Qed.

Lemma atx_entry_line l : atx_line l -> entry_line l.
Proof.
  intros (ws & body & -> & Hw & _). apply entry_line_head; try reflexivity; [exact Hw|discriminate| |].
  - intros [G|G]; discriminate.
  - intros d Hd. exists c_hash. split; [left; reflexivity|]. split; [reflexivity|].
    cbn in Hd. intuition (subst; discriminate).
Qed.

Lemma quote_entry_line l : quote_line l -> entry_line l.
Proof.
  intros (ws & body & -> & Hw & _). apply entry_line_head; try reflexivity; [exact Hw|discriminate| |].
  - intros [G|G]; discriminate.
  - intros d Hd. exists c_gt. split; [left; reflexivity|]. split; [reflexivity|].
    cbn in Hd. intuition (subst; discriminate).
Qed.

(** * Parsing *)

Lemma span_all {A} (p : A -> bool) a b :
  Forall (fun x => p x = true) a -> (forall x r, b = x :: r -> p x = false) -> span p (a ++ b) = (a, b).
Proof.
  intros Ha Hb. induction Ha as [|x a Hx Ha IH]; cbn [app span].
  - destruct b as [|x b]; [reflexivity|]. cbn [span]. rewrite (Hb x b eq_refl). reflexivity.
  - rewrite Hx, IH. reflexivity.
Qed.

Section Splits.
  Variable sbq : splitter.
  Hypothesis sbq_no : forall l rest,
    is_explicit_block_quote_line l = false -> sbq (l :: rest) = Ok ([], l :: rest).

  Ltac skip := rewrite first_split_skip.

  Lemma first_split_bullet l more rest :
    bullet_line l -> Forall (fun x => continues_list x = true) more ->
    (forall x r, rest = x :: r -> continues_list x = false) ->
    first_split (SPLITTERS sbq) (l :: more ++ rest) = Ok ((BULLET_LIST, l :: more), rest).
  Proof.
    intros Hb Hm Hr. assert (S := starts_bullet l Hb). unfold SPLITTERS.
    skip; [|apply one_line_no; not_kind].
    skip; [|apply one_line_no; not_kind].
    skip; [|apply sbq_no; not_kind].
    cbn [first_split]. unfold split_bullet_list at 1, split_list_section. apply bullet_spec in Hb. rewrite Hb.
    rewrite span_all by assumption. reflexivity.
  Qed.

  Lemma first_split_ordered l more rest :
    ordered_line l -> Forall (fun x => continues_list x = true) more ->
    (forall x r, rest = x :: r -> continues_list x = false) ->
    first_split (SPLITTERS sbq) (l :: more ++ rest) = Ok ((ORDERED_LIST, l :: more), rest).
  Proof.
    intros Hb Hm Hr. assert (S := starts_ordered l Hb). unfold SPLITTERS.
    skip; [|apply one_line_no; not_kind].
    skip; [|apply one_line_no; not_kind].
    skip; [|apply sbq_no; not_kind].
    skip; [|apply list_no; not_kind].
    skip; [|apply fenced_no; not_kind].
    skip; [|apply indented_no; not_kind].
    skip; [|apply lrd_no; eapply no_definition; [exact S|reflexivity]].
    cbn [first_split]. unfold split_ordered_list at 1, split_list_section. apply ordered_spec in Hb. rewrite Hb.
    rewrite span_all by assumption. reflexivity.
  Qed.

  Lemma first_split_quote l more rest : quote_line l ->
    sbq (l :: more ++ rest) = Ok (l :: more, rest) ->
    first_split (SPLITTERS sbq) (l :: more ++ rest) = Ok ((BLOCK_QUOTE, l :: more), rest).
  Proof.
    intros Hq E. assert (S := starts_quote l Hq). unfold SPLITTERS.
    skip; [|apply one_line_no; not_kind].
    skip; [|apply one_line_no; not_kind].
    cbn [first_split]. rewrite E. reflexivity.
  Qed.

  Lemma any_splits_found fs1 f fs2 lines c r :
    Forall (fun g : splitter => exists x, g lines = Ok x) fs1 -> f lines = Ok (c, r) -> c <> [] ->
    any_splits (fs1 ++ f :: fs2) lines = Ok true.
  Proof.
    intros H Ef Hn. induction H as [|g fs1 ((c' & r') & Eg) H IH]; cbn [app any_splits].
    - rewrite Ef. cbn [bind]. destruct c; [congruence|reflexivity].
    - rewrite Eg. cbn [bind]. destruct (nilb c'); [exact IH|reflexivity].
  Qed.

  (** A section of these types does not continue a quote before it. *)
  Lemma bq_stop ty ls next :
    headed (ty, ls) ->
    ~ In ty [PARAGRAPH; SETEXT_HEADING; INDENTED_CODE_BLOCK; LINK_REFERENCE_DEFINITION; BLOCK_QUOTE] ->
    bq_continuation sbq (lines_of ((ty, ls) :: next)) = Ok false.
  Proof.
    intros (l & more & E & H) Ht. cbn [snd fst] in *. subst ls. rewrite lines_of_cons. cbn [app].
    set (rest := more ++ lines_of next).
    unfold bq_continuation. enough (G : any_splits
      (map (fun (f : splitter) l => with_redirect (f l))
        [split_atx_heading; split_blank_line; split_bullet_list; split_fenced_code_block; split_ordered_list;
         split_setext_heading sbq; split_table; split_thematic_break]) (l :: rest) = Ok true)
      by (rewrite G; reflexivity).
    assert (T1 : forall p, exists x, with_redirect (split_one_line p (l :: rest)) = Ok x).
    { intros p. cbn [split_one_line]. destruct (p l); cbn; eauto. }
    assert (T2 : forall p, exists x, with_redirect (split_list_section p (l :: rest)) = Ok x).
    { intros p. cbn [split_list_section]. destruct (p l); [destruct (span _ _)|]; cbn; eauto. }
    assert (T3 : exists x, with_redirect (split_fenced_code_block (l :: rest)) = Ok x).
    { cbn [split_fenced_code_block]. destruct (full_fence l); [destruct (take_fenced _ _)|]; cbn; eauto. }
    assert (T4 : exists x, with_redirect (split_table (l :: rest)) = Ok x).
    { unfold split_table. destruct (table_started _); [destruct (span _ _)|]; cbn; eauto. }
    assert (T5 : is_paragraph_start_line l = false ->
              exists x, with_redirect (split_setext_heading sbq (l :: rest)) = Ok x).
    { intros G. rewrite setext_no by exact G. cbn. eauto. }
    assert (F1 : forall p, p l = true -> with_redirect (split_one_line p (l :: rest)) = Ok ([l], rest)).
    { intros p Hp. cbn [split_one_line]. rewrite Hp. reflexivity. }
    assert (F2 : forall p, p l = true -> exists m r, with_redirect (split_list_section p (l :: rest)) = Ok (l :: m, r)).
    { intros p Hp. cbn [split_list_section]. rewrite Hp. destruct (span _ _). cbn. eauto. }
    cbn [map].
    assert (K : forall n f c r, nth_error (map (fun (f : splitter) l => with_redirect (f l))
        [split_atx_heading; split_blank_line; split_bullet_list; split_fenced_code_block; split_ordered_list;
         split_setext_heading sbq; split_table; split_thematic_break]) n = Some f ->
       f (l :: rest) = Ok (c, r) -> c <> [] -> (5 < n -> is_paragraph_start_line l = false) ->
       any_splits (map (fun (f : splitter) l => with_redirect (f l))
        [split_atx_heading; split_blank_line; split_bullet_list; split_fenced_code_block; split_ordered_list;
         split_setext_heading sbq; split_table; split_thematic_break]) (l :: rest) = Ok true).
    { intros n f c r En Ef Hn Hp. apply nth_error_split in En. destruct En as (fs1 & fs2 & En & Ln).
      rewrite En. eapply any_splits_found; [|exact Ef|exact Hn]. cbn [map] in En.
      assert (G : fs1 = firstn n (map (fun (f : splitter) l => with_redirect (f l))
        [split_atx_heading; split_blank_line; split_bullet_list; split_fenced_code_block; split_ordered_list;
         split_setext_heading sbq; split_table; split_thematic_break])).
      { cbn [map]. rewrite En, <- Ln. rewrite firstn_app, Nat.sub_diag, firstn_all. cbn. rewrite app_nil_r. reflexivity. }
      rewrite G. clear -T1 T2 T3 T4 T5 Hp.
      do 6 (destruct n as [|n]; [repeat (constructor; [first [apply T1|apply T2|exact T3]|]); constructor|]).
      specialize (Hp ltac:(lia)). specialize (T5 Hp).
      do 2 (destruct n as [|n]; [repeat (constructor; [first [apply T1|apply T2|exact T3|exact T5|exact T4]|]); constructor|]).
      repeat (constructor; [first [apply T1|apply T2|exact T3|exact T5|exact T4]|]). destruct n; constructor. }
    destruct ty; try (exfalso; apply Ht; cbn; tauto; fail).
    - apply (K 0 _ _ _ eq_refl (F1 _ (proj2 (atx_spec l) H))); [discriminate|lia].
    - destruct H as [H _]. apply (K 1 _ _ _ eq_refl (F1 _ (proj2 (blank_line_spec l) H))); [discriminate|lia].
    - destruct H as [H _]. destruct (F2 is_bullet_list_start_line (proj2 (bullet_spec l) H)) as (m & r & E).
      apply (K 2 _ _ _ eq_refl E); [discriminate|lia].
    - destruct H as [H _]. apply fence_spec in H.
      assert (E : exists m r, with_redirect (split_fenced_code_block (l :: rest)) = Ok (l :: m, r)).
      { cbn [split_fenced_code_block]. assert (G : full_fence l <> None) by (rewrite full_fence_none; congruence).
        destruct (full_fence l); [|congruence]. destruct (take_fenced _ _). cbn. eauto. }
      destruct E as (m & r & E). apply (K 3 _ _ _ eq_refl E); [discriminate|lia].
    - destruct (F2 is_ordered_list_start_line (proj2 (ordered_spec l) H)) as (m & r & E).
      apply (K 4 _ _ _ eq_refl E); [discriminate|lia].
    - destruct H as [H _].
      assert (E : exists m r, with_redirect (split_table (l :: rest)) = Ok (l :: m, r)).
      { unfold split_table. apply table_started_spec in H. rewrite H. destruct (span _ _). cbn. eauto. }
      destruct E as (m & r & E). apply (K 6 _ _ _ eq_refl E); [discriminate|]. intros _.
      apply Bool.not_true_is_false. intros G. apply paragraph_start_spec in G. unfold paragraph_line in G. tauto.
    - apply (K 7 _ _ _ eq_refl (F1 _ (proj2 (thematic_spec l) H))); [discriminate|]. intros _.
      apply Bool.not_true_is_false. intros G. apply paragraph_start_spec in G. unfold paragraph_line in G. tauto.
  Qed.
End Splits.

Lemma quote_ends_ok lim ls : ls <> [] -> Forall quote_line ls -> Forall steady ls -> Forall quotable ls ->
  2 * size ls + 1 <= lim -> exists b, bq_ends_with_paragraph lim ls = Ok b.
Proof.
  intros Hn Hq Hs Hg Hl. destruct ls as [|l ls]; [congruence|].
  destruct (bq_ends_with_paragraph lim (l :: ls)) as [b|e] eqn:E; [eauto|]. exfalso.
  assert (D := proj2 (nd_block_quote lim) (size (l :: ls)) l ls (conj Hg (le_n _)) Hl (Forall_inv Hq) e E).
  assert (G := proj2 (go_block_quote lim) (l :: ls) Hs e E).
  destruct (block_quote_contract lim) as (_ & _ & _ & C). destruct (C _ e Hn E); contradiction.
Qed.

Lemma quote_split lim ls rest : ls <> [] -> Forall quote_line ls -> Forall steady ls -> Forall quotable ls ->
  2 * size ls + 2 <= lim ->
  (forall l r, rest = l :: r -> ~ quote_line l /\ bq_continuation (split_block_quote (pred lim)) rest = Ok false) ->
  split_block_quote lim (ls ++ rest) = Ok (ls, rest).
Proof.
  intros Hn Hq Hs Hg Hl Hr. destruct lim as [|lim]; [lia|]. cbn [split_block_quote]. cbn [pred] in Hr.
  destruct (quote_ends_ok lim ls Hn Hq Hs Hg ltac:(lia)) as (b & Eb).
  assert (Sp : span is_explicit_block_quote_line (ls ++ rest) = (ls, rest)).
  { apply span_all.
    - eapply Forall_impl; [|exact Hq]. intros l. apply quote_spec.
    - intros x r E. apply Bool.not_true_is_false. rewrite quote_spec. apply (Hr x r E). }
  assert (N : forall n, bq_loop (split_block_quote lim) (bq_ends_with_paragraph lim) n ls rest = Ok (ls, rest)).
  { intros n. destruct rest as [|x r]; [destruct n; reflexivity|].
    assert (E : is_explicit_block_quote_line x = false).
    { apply Bool.not_true_is_false. rewrite quote_spec. apply (Hr x r eq_refl). }
    destruct n; cbn [bq_loop]; rewrite E; reflexivity. }
  destruct ls as [|l ls]; [congruence|]. cbn [app] in *. cbn [length bq_loop].
  assert (E : is_explicit_block_quote_line l = true) by (apply quote_spec; exact (Forall_inv Hq)).
  rewrite E. cbn [negb]. rewrite Sp. cbv beta iota zeta. cbn [app]. rewrite Eb. cbn [bind].
  destruct b; [|reflexivity].
  assert (T : bq_take_continuation (split_block_quote lim) true rest = Ok ([], rest)).
  { destruct rest as [|x r]; [reflexivity|]. cbn [bq_take_continuation].
    rewrite (proj2 (Hr x r eq_refl)). reflexivity. }
  rewrite T. cbn [bind]. rewrite app_nil_r. apply N.
Qed.

(** * Sections with nested text *)

Lemma narrower_exists w n : exists w', narrower w n w'.
Proof. exists (width_sub w n). apply (narrower_sub w 0 n w). apply narrower_refl. Qed.

(** The lines of list entries whose text satisfies [inner]. *)
Definition entry_text (inner : list tree -> list section -> Prop) : Prop :=
  forall ts secs, inner ts secs -> Forall entry_section secs -> Forall entry_line (lines_of secs).

Lemma outdented_entry n rest rest' : Forall2 (outdented n) rest rest' ->
  Forall entry_line rest' -> Forall entry_line rest.
Proof.
  induction 1 as [|x x' rest rest' (ws & -> & Hw & _) _ IH]; intros H; [constructor|].
  inversion H as [|? ? H1 H2]; subst. constructor; [|auto]. apply entry_line_spaces; assumption.
Qed.

Lemma entry_lines ws m inner ls : entry ws m inner ls -> Forall entry_line inner -> Forall entry_line ls.
Proof.
  intros (l & rest & rest' & -> & -> & Hw & Hm & Ho & _) H. inversion H as [|? ? H1 H2]; subst.
  constructor; [apply entry_line_marked; assumption|]. eapply outdented_entry; eassumption.
Qed.

Lemma entries_lines inner n ms tss ls : entry_text inner -> entries inner n ms tss ls -> Forall entry_line ls.
Proof.
  intros Hi. induction 1 as [|n ws m ts secs ls ms tss rest _ He Hs Hes _ IH]; [constructor|].
  apply Forall_app. split; [|exact IH]. eapply entry_lines; [exact He|]. eapply Hi; eassumption.
Qed.

(** The first line of a list. *)
Lemma entries_first inner n m ms tss ls : entry_text inner -> entries inner n (m :: ms) tss ls ->
  exists ws l more, ls = (ws ++ m ++ c_sp :: l) :: more /\ spaces ws /\ length ws <= n /\ marker m
    /\ entry_line l /\ Forall entry_line more.
Proof.
  intros Hi H. assert (L := entries_lines _ _ _ _ _ Hi H).
  inversion H as [|n' ws m' ts secs ls1 ms' tss' rest Hn He Hs Hes Hr]; subst.
  destruct He as (l & r & r' & E & -> & Hw & Hm & _).
  exists ws, l, (r ++ rest). split; [reflexivity|]. split; [exact Hw|]. split; [exact Hn|]. split; [exact Hm|].
  assert (G := Hi ts secs Hs Hes). unfold lines_of in G. rewrite E in G.
  split; [exact (Forall_inv G)|]. cbn [app] in L. exact (Forall_inv_tail L).
Qed.

Definition inner_lines (inner : width -> list tree -> list section -> Prop) : Prop :=
  forall w, entry_text (inner w).

Lemma entry_text_narrower inner w n : inner_lines inner ->
  entry_text (fun ts secs => forall w', narrower w n w' -> inner w' ts secs).
Proof.
  intros Hi ts secs Hs He. destruct (narrower_exists w n) as (w' & Hw). exact (Hi w' ts secs (Hs w' Hw) He).
Qed.

Lemma spaces_repeat k : spaces (repeat c_sp k).
Proof. apply Forall_forall. intros x Hx. apply repeat_spec in Hx. subst x. reflexivity. Qed.

Lemma quoted_line p l' l : In p [lit ">"; lit "> "] -> quoted p l' l -> quote_line l.
Proof.
  intros Hp (k & Hk & H). exists (repeat c_sp k).
  assert (S : spaces (repeat c_sp k)) by apply spaces_repeat.
  assert (L : length (repeat c_sp k) < 4) by (rewrite repeat_length; lia).
  destruct H as [->|[-> ->]].
  - destruct Hp as [<-|[<-|[]]]; cbn [app lit String.list_ascii_of_string]; eexists; repeat split; try exact S; exact L.
  - exists []. auto.
Qed.

Lemma quoting_lines p inner ls : quoting p inner ls -> Forall quote_line ls.
Proof.
  intros (Hp & _ & H & _). induction H as [|x y inner ls H _ IH]; constructor; [|exact IH].
  eapply quoted_line; eassumption.
Qed.

Section Sections.
  Variable inner : width -> list tree -> list section -> Prop.
  Hypothesis inner_ok : inner_lines inner.

  Lemma nblock_block w t ty ls : nblock inner w t ty ls ->
    ty <> BLOCK_QUOTE -> ty <> BULLET_LIST -> ty <> ORDERED_LIST -> block ty ls.
  Proof. destruct ty; cbn [nblock]; intros H; intros; try congruence; tauto. Qed.

  Lemma nblock_headed w t ty ls : nblock inner w t ty ls -> headed (ty, ls).
  Proof.
    intros H. destruct ty; try (apply block_headed; apply H).
    - destruct H as (ts & p & secs & _ & Hq & _). assert (L := quoting_lines _ _ _ Hq).
      destruct Hq as (_ & _ & _ & (q & rest & ->) & _). exists (c_gt :: q), rest.
      split; [reflexivity|]. exact (Forall_inv L).
    - destruct H as (b & tss & ms & _ & Hb & He).
      destruct (entries_first _ _ _ _ _ _ (entry_text_narrower inner w 2 inner_ok) He)
        as (ws & l & more & -> & Hw & Hn & _ & Hl & _).
      exists (ws ++ [b] ++ c_sp :: l), more. split; [reflexivity|]. cbn [fst app]. split.
      + exists ws, b, l. repeat split; auto. lia.
      + intros (c & n & u & u' & E & Hu & Hu' & _ & Hc).
        assert (G : forall x, In x l -> is_space x = false -> x = c).
        { intros x Hx Hs. assert (Hi : In x (ws ++ b :: c_sp :: l)) by (apply in_or_app; right; right; right; exact Hx).
          rewrite E in Hi. apply in_app_or in Hi. destruct Hi as [Hi|Hi].
          - unfold spaces in Hu. rewrite Forall_forall in Hu. specialize (Hu x Hi). congruence.
          - apply in_app_or in Hi. destruct Hi as [Hi|Hi]; [apply repeat_spec in Hi; exact Hi|].
            unfold spaces in Hu'. rewrite Forall_forall in Hu'. specialize (Hu' x Hi). congruence. }
        assert (Ec : b = c).
        { assert (Hi : In b (ws ++ b :: c_sp :: l)) by (apply in_or_app; right; left; reflexivity).
          rewrite E in Hi. assert (Hs : is_space b = false) by (cbn in Hb; intuition (subst; reflexivity)).
          apply in_app_or in Hi. destruct Hi as [Hi|Hi].
          - unfold spaces in Hu. rewrite Forall_forall in Hu. specialize (Hu b Hi). congruence.
          - apply in_app_or in Hi. destruct Hi as [Hi|Hi]; [apply repeat_spec in Hi; exact Hi|].
            unfold spaces in Hu'. rewrite Forall_forall in Hu'. specialize (Hu' b Hi). congruence. }
        destruct Hl as (_ & _ & _ & Hl). destruct (Hl c_dash ltac:(cbn; tauto)) as (x & Hx & Hs & Hne).
        rewrite (G x Hx Hs) in Hne. cbn in Hb, Hc. intuition congruence.
    - destruct H as (ds & tss & ms & first & last & _ & Hd & _ & _ & _ & He).
      destruct (entries_first _ _ _ _ _ _ (entry_text_narrower inner w _ inner_ok) He)
        as (ws & l & more & -> & Hw & Hn & _ & Hl & _).
      exists (ws ++ (ds ++ [c_dot]) ++ c_sp :: l), more. split; [reflexivity|]. cbn [fst].
      exists ws, ds, l. rewrite <- app_assoc. repeat split; auto; try lia; apply Hd.
  Qed.

  Lemma doc_headed w ts secs : doc inner w ts secs -> Forall headed secs.
  Proof. induction 1 as [|t ts ty ls next H _ _ _ IH]; constructor; [eapply nblock_headed; exact H|exact IH]. Qed.

  (** The lines of the sections of list entries. *)
  Lemma doc_inner_lines w : entry_text (doc inner w).
  Proof.
    intros ts secs. induction 1 as [|t ts ty ls next H _ _ _ IH]; intros He; [constructor|].
    inversion He as [|? ? H1 H2]; subst. rewrite lines_of_cons. apply Forall_app. split; [|auto]. clear IH He H2 next.
    cbn in H1. decompose [or] H1; clear H1; try contradiction; subst ty; cbn [nblock] in H.
    - destruct H as ((l & rest & _ & _ & H & _) & _). eapply Forall_impl; [|exact H]. apply ordinary_entry_line.
    - destruct H as ((l & -> & H) & _). constructor; [apply atx_entry_line; exact H|constructor].
    - destruct H as (b & tss & ms & _ & _ & H). eapply entries_lines; [|exact H]. apply entry_text_narrower. exact inner_ok.
    - destruct H as (ds & tss & ms & first & last & _ & _ & _ & _ & _ & H). eapply entries_lines; [|exact H].
      apply entry_text_narrower. exact inner_ok.
    - destruct H as (ts' & p & secs & _ & H & _). apply quoting_lines in H. eapply Forall_impl; [|exact H]. apply quote_entry_line.
  Qed.
End Sections.

(** * Parsing such documents *)

Definition after_quote (ty : section_type) : Prop :=
  ~ In ty [PARAGRAPH; SETEXT_HEADING; INDENTED_CODE_BLOCK; LINK_REFERENCE_DEFINITION; BLOCK_QUOTE].

Lemma headed_no_quote ty l ls : headed (ty, l :: ls) -> after_quote ty -> ~ quote_line l.
Proof.
  intros (x & y & E & H) Ht Q. cbn [snd] in E. injection E as <- <-. apply starts_quote in Q.
  assert (M : forall c, mem [c_gt] c = true -> c = c_gt).
  { intros c Hc. cbn in Hc. apply Bool.orb_true_iff in Hc. destruct Hc as [Hc|Hc]; [|discriminate].
    apply N.eqb_eq in Hc. exact Hc. }
  assert (D : forall b P, starts l b P -> P c_gt = false -> False).
  { intros b P HS HP. eapply starts_disjoint; [exact HS|exact Q|]. intros c H1 H2. apply M in H2. subst c. congruence. }
  destruct ty; cbn [fst] in H; try (exfalso; apply Ht; cbn; tauto; fail).
  - eapply D; [apply starts_atx; exact H|reflexivity].
  - eapply starts_not_blank; [exact Q|apply H].
  - eapply D; [apply starts_bullet; apply H|reflexivity].
  - eapply D; [apply starts_fence; apply H|reflexivity].
  - eapply D; [apply starts_ordered; exact H|reflexivity].
  - eapply D; [apply starts_table; apply H|reflexivity].
  - eapply D; [apply starts_thematic; exact H|reflexivity].
Qed.

Lemma headed_ends_list ty l ls : headed (ty, l :: ls) -> In ty [BLANK_LINE; TABLE; THEMATIC_BREAK] ->
  continues_list l = false.
Proof.
  intros (x & y & E & H) Ht. cbn [snd] in E. injection E as <- <-. unfold continues_list.
  apply Bool.negb_false_iff. cbn in Ht. decompose [or] Ht; clear Ht; try contradiction; subst ty; cbn [fst] in H.
  - rewrite (proj2 (blank_line_spec l) (proj1 H)). reflexivity.
  - rewrite (proj2 (table_spec l) (proj1 H)). apply Bool.orb_true_iff. left. apply Bool.orb_true_r.
  - rewrite (proj2 (thematic_spec l) H). apply Bool.orb_true_r.
Qed.

Section Parse.
  Variable inner : width -> list tree -> list section -> Prop.
  Hypothesis inner_ok : inner_lines inner.
  Variable w : width.

  Lemma doc_quote lim t ls next :
    nblock inner w t BLOCK_QUOTE ls -> nends BLOCK_QUOTE ls next -> Forall headed next ->
    Forall quotable ls -> 2 * size ls + 3 <= lim ->
    split_block_quote lim (ls ++ lines_of next) = Ok (ls, lines_of next).
  Proof.
    intros (ts & p & secs & _ & Hq & _) He Hn Hg Hl.
    assert (L := quoting_lines _ _ _ Hq). destruct Hq as (_ & _ & _ & (q & rest & E) & Hs).
    apply quote_split; auto; [rewrite E; discriminate|lia|].
    destruct Hn as [|[ty ls'] next Hh _]; [intros l r G; discriminate|].
    specialize (He ty ls' next eq_refl). intros l r G. split.
    - assert (Hh' := Hh). destruct Hh' as (x & y & Ex & _). cbn [snd] in Ex. subst ls'.
      rewrite lines_of_cons in G. cbn [app] in G. injection G as -> _.
      eapply headed_no_quote; [exact Hh|exact He].
    - destruct lim as [|[|lim]]; try lia. cbn [pred]. apply bq_stop; auto. apply sbq_no_S.
  Qed.

  Lemma doc_quote_next lim ts next : doc inner w ts next -> Forall quotable (lines_of next) ->
    2 * size (lines_of next) + 3 <= lim -> quote_next (split_block_quote lim) next.
  Proof.
    intros H Hg Hl ls next' ->. inversion H as [|t' ts' ? ? ? Hb Ho He Hd]; subst.
    rewrite lines_of_cons in *. apply Forall_app in Hg. rewrite size_app in Hl.
    assert (Hne := Hb). destruct Hne as (ts & p & secs & _ & (_ & _ & _ & (t & rest & E) & _) & _).
    exists (c_gt :: t), rest, (lines_of next'). rewrite <- E.
    eapply doc_quote; eauto; [|apply Hg|lia]. eapply doc_headed; [exact inner_ok|exact Hd].
  Qed.

  Lemma nsection_ends lim t ts ty ls next :
    nblock inner w t ty ls -> Forall one_line ls -> nends ty ls next -> doc inner w ts next ->
    Forall quotable (ls ++ lines_of next) -> 2 * size (ls ++ lines_of next) + 3 <= lim ->
    first_split (SPLITTERS (split_block_quote lim)) (ls ++ lines_of next) = Ok ((ty, ls), lines_of next).
  Proof.
    intros Hb Ho He Hd Hg Hl. assert (Hh := doc_headed inner inner_ok w ts next Hd).
    apply Forall_app in Hg. destruct Hg as [Hg1 Hg2]. rewrite size_app in Hl.
    assert (No : forall l rest, is_explicit_block_quote_line l = false ->
              split_block_quote lim (l :: rest) = Ok ([], l :: rest)).
    { destruct lim; [lia|]. apply sbq_no_S. }
    assert (El : In ty [BULLET_LIST; ORDERED_LIST] -> forall x r, lines_of next = x :: r -> continues_list x = false).
    { intros Ht x r E. destruct Hh as [|[ty' ls'] next Hh _]; [discriminate|].
      assert (Ht' : In ty' [BLANK_LINE; TABLE; THEMATIC_BREAK]).
      { destruct Ht as [<-|[<-|[]]]; exact (He ty' ls' next eq_refl). }
      assert (Hh' := Hh). destruct Hh' as (y & z & Ey & _). cbn [snd] in Ey. subst ls'.
      rewrite lines_of_cons in E. cbn [app] in E. injection E as -> _. eapply headed_ends_list; eassumption. }
    assert (Q : quote_next (split_block_quote lim) next) by (eapply doc_quote_next; eauto; lia).
    assert (Hh0 := nblock_headed inner inner_ok w t ty ls Hb).
    destruct ty; try (apply section_ends; [apply Hb|exact Ho|exact He|exact Hh|exact No|exact Q]).
    - assert (E : split_block_quote lim (ls ++ lines_of next) = Ok (ls, lines_of next)) by (eapply doc_quote; eauto; lia).
      destruct Hh0 as (l & more & El' & Hq). cbn [snd fst] in *. subst ls. cbn [app].
      apply first_split_quote; assumption.
    - destruct Hb as (b & tss & ms & _ & Hb & He').
      assert (L := entries_lines _ _ _ _ _ (entry_text_narrower inner w 2 inner_ok) He').
      destruct Hh0 as (l & more & El' & Hq). cbn [snd fst] in *. subst ls. cbn [app].
      apply first_split_bullet; [exact No|apply Hq| |apply El; cbn; tauto].
      apply Forall_inv_tail in L. eapply Forall_impl; [|exact L]. apply entry_line_continues.
    - destruct Hb as (ds & tss & ms & first & last & _ & _ & _ & _ & _ & He').
      assert (L := entries_lines _ _ _ _ _ (entry_text_narrower inner w _ inner_ok) He').
      destruct Hh0 as (l & more & El' & Hq). cbn [snd fst] in *. subst ls. cbn [app].
      apply first_split_ordered; [exact No|apply Hq| |apply El; cbn; tauto].
      apply Forall_inv_tail in L. eapply Forall_impl; [|exact L]. apply entry_line_continues.
  Qed.

  Lemma doc_parse lim ts secs : doc inner w ts secs -> Forall quotable (lines_of secs) ->
    2 * size (lines_of secs) + 3 <= lim -> parse_markdown lim (lines_of secs) = Ok secs.
  Proof.
    intros H Hg Hl. unfold parse_markdown, parse_with.
    assert (G : forall n, length (lines_of secs) <= n ->
      parse_loop (split_block_quote lim) n (lines_of secs) = Ok secs); [|apply G, le_n].
    induction H as [|t ts ty ls next Hb Ho He H IH]; intros n Hn; [destruct n; reflexivity|].
    rewrite lines_of_cons in *. assert (E := nsection_ends lim t ts ty ls next Hb Ho He H Hg Hl).
    rewrite app_length in Hn. apply Forall_app in Hg. destruct Hg as [_ Hg]. rewrite size_app in Hl.
    assert (Hne := nblock_headed inner inner_ok w t ty ls Hb). destruct Hne as (l & more & El & _). cbn [snd] in El. subst ls.
    cbn [length app] in *. destruct n as [|n]; [lia|]. cbn [parse_loop]. rewrite E. cbn [bind].
    rewrite IH by (try assumption; lia). reflexivity.
  Qed.
End Parse.

(** * Taking lists apart *)

Lemma outdented_unique n l a b : outdented n l a -> outdented n l b -> a = b.
Proof.
  assert (G : forall u v a b, u ++ a = v ++ b -> spaces u -> spaces v -> length u <= length v -> length v <= n ->
            (length u = n \/ forall c r, a = c :: r -> is_space c = false) -> a = b).
  { clear. intros u v a b E Hu Hv L1 L2 H. apply app_eq_app in E. destruct E as (z & [[E1 E2]|[E1 E2]]).
    - subst u. rewrite app_length in L1. assert (z = []) by (destruct z; [reflexivity|cbn in L1; lia]). subst z. exact (eq_sym E2).
    - subst v a. destruct H as [H|H].
      + rewrite app_length in L2. assert (z = []) by (destruct z; [reflexivity|cbn in L2; lia]). subst z. reflexivity.
      + destruct z as [|c z]; [reflexivity|]. apply Forall_app in Hv. destruct Hv as [_ Hv]. apply Forall_inv in Hv.
        specialize (H c (z ++ b) eq_refl). congruence. }
  intros (u & E & Hu & Lu & Ha) (v & E' & Hv & Lv & Hb). rewrite E in E'.
  destruct (Nat.le_gt_cases (length u) (length v)) as [L|L].
  - eapply G; eauto.
  - symmetry. eapply (G v u); eauto. lia.
Qed.

Lemma entry_dedent ws m inner ls : entry ws m inner ls -> dedent_entry ls = Ok inner.
Proof.
  intros (l & rest & rest' & -> & -> & Hw & Hm & Ho & _).
  assert (M : marked (ws ++ m ++ c_sp :: l) ws m (c_sp :: l)).
  { split; [reflexivity|]. split; [exact Hw|]. split; [exact Hm|]. right. eauto. }
  cbn [dedent_entry]. unfold list_marker_end_pos. rewrite (marker_end_marked _ _ _ _ M). cbn [bind].
  f_equal. f_equal.
  - replace (ws ++ m ++ c_sp :: l) with ((ws ++ m ++ [c_sp]) ++ l) by (rewrite <- !app_assoc; reflexivity).
    replace (length (ws ++ m) + 1) with (length (ws ++ m ++ [c_sp])) by (rewrite !app_length; cbn; lia).
    rewrite skipn_app, skipn_all, Nat.sub_diag. reflexivity.
  - clear M. induction Ho as [|x x' rest rest' H _ IH]; [reflexivity|]. cbn [map]. f_equal; [|exact IH].
    eapply outdented_unique; [apply outdent_spec|exact H].
Qed.

Lemma split_list_other n es e x : Forall no_nl [x] -> entry_line x ->
  (forall ws' m' body, marked x ws' m' body -> n < length ws') ->
  split_list_step (SL false [] n (es ++ [e])) x = Ok (SL false [] n (es ++ [e ++ [x]])).
Proof.
  intros Hx He H. unfold split_list_step.
  assert (F : is_list_fence x = false).
  { apply Bool.not_true_is_false. intros G. apply list_fence_spec in G. destruct G as (run & G).
    exact (entry_line_fence x run He G). }
  rewrite F. cbn [sl_in_code sl_code_end sl_max_indent sl_entries negb andb].
  rewrite append_to_last_snoc. cbn [bind].
  destruct (marker_end x) as [k|] eqn:Em; [|reflexivity].
  apply marker_end_some in Em; [|exact (Forall_inv Hx)]. destruct Em as (ws' & m' & body & Em & _).
  assert (G : (get_indent x <=? n) = false).
  { apply Nat.leb_gt. rewrite (marked_indent _ _ _ _ Em). exact (H _ _ _ Em). }
  rewrite G. reflexivity.
Qed.

Lemma split_list_new n es x ws m body : marked x ws m body -> length ws <= n ->
  split_list_step (SL false [] n es) x = Ok (SL false [] (length (ws ++ m)) (es ++ [[x]])).
Proof.
  intros M Hn. unfold split_list_step.
  assert (F : is_list_fence x = false).
  { apply Bool.not_true_is_false. intros G. apply list_fence_spec in G. destruct G as (run & G).
    exact (marked_not_fence _ _ _ _ run M G). }
  rewrite F. cbn [sl_in_code sl_code_end sl_max_indent sl_entries negb andb].
  rewrite (marker_end_marked _ _ _ _ M). rewrite (marked_indent _ _ _ _ M).
  rewrite (proj2 (Nat.leb_le _ _) Hn). reflexivity.
Qed.

Lemma foldM_app {A S} (f : S -> A -> res S) a b s :
  foldM f (a ++ b) s = (s' <- foldM f a s ;; foldM f b s').
Proof.
  revert s. induction a as [|x a IH]; intros s; [reflexivity|]. cbn [app foldM].
  destruct (f s x); cbn [bind]; [apply IH|reflexivity].
Qed.

Lemma split_list_entry n es ws m inner ls : entry ws m inner ls -> length ws <= n ->
  Forall no_nl ls -> Forall entry_line inner ->
  foldM split_list_step ls (SL false [] n es) = Ok (SL false [] (length (ws ++ m)) (es ++ [ls])).
Proof.
  intros He Hn Hl Hi. assert (L := entry_lines _ _ _ _ He Hi).
  destruct He as (l & rest & rest' & -> & -> & Hw & Hm & _ & Hr).
  assert (M : marked (ws ++ m ++ c_sp :: l) ws m (c_sp :: l)).
  { split; [reflexivity|]. split; [exact Hw|]. split; [exact Hm|]. right. eauto. }
  cbn [foldM]. rewrite (split_list_new _ _ _ _ _ _ M Hn). cbn [bind].
  apply Forall_inv_tail in L, Hl. clear Hi M. set (h := ws ++ m ++ c_sp :: l). clearbody h.
  change (h :: rest) with ([h] ++ rest). generalize [h]. clear h.
  induction rest as [|x rest IH]; intros e; [rewrite app_nil_r; reflexivity|].
  cbn [foldM]. inversion L; subst. inversion Hl; subst. inversion Hr; subst.
  rewrite split_list_other by auto. cbn [bind]. rewrite IH by assumption. rewrite <- app_assoc. reflexivity.
Qed.

(** The entries of a list and the sections in them. *)
Inductive listing (inner : list tree -> list section -> Prop)
  : nat -> list str -> list (list str) -> list (list section) -> list (list tree) -> Prop :=
| listing_end n : listing inner n [] [] [] []
| listing_next n ws m ts secs e ms es secss tss :
    length ws <= n -> entry ws m (lines_of secs) e -> inner ts secs -> Forall entry_section secs ->
    listing inner (length (ws ++ m)) ms es secss tss ->
    listing inner n (m :: ms) (e :: es) (secs :: secss) (ts :: tss).

Lemma entries_listing inner n ms tss ls : entries inner n ms tss ls ->
  exists es secss, ls = concat es /\ listing inner n ms es secss tss.
Proof.
  induction 1 as [n|n ws m ts secs ls ms tss rest Hn He Hs Hes H (es & secss & -> & IH)].
  - exists [], []. split; [reflexivity|constructor].
  - exists (ls :: es), (secs :: secss). split; [reflexivity|]. econstructor; eassumption.
Qed.

Lemma listing_entries inner n ms es secss tss : listing inner n ms es secss tss -> entries inner n ms tss (concat es).
Proof. induction 1; [constructor|]. cbn [concat]. econstructor; eassumption. Qed.

Lemma listing_length inner n ms es secss tss : listing inner n ms es secss tss ->
  length es = length ms /\ length secss = length ms.
Proof. induction 1; cbn; lia. Qed.

Lemma listing_trees inner n ms es secss tss : listing inner n ms es secss tss -> length tss = length secss.
Proof. induction 1; cbn; lia. Qed.

Lemma listing_inner inner n ms es secss tss : listing inner n ms es secss tss ->
  Forall2 (fun ts secs => inner ts secs /\ Forall entry_section secs /\ secs <> []) tss secss.
Proof.
  induction 1 as [|n ws m ts secs e ms es secss tss _ He Hs Hes _ IH]; constructor; [|exact IH].
  split; [exact Hs|]. split; [exact Hes|]. destruct He as (l & r & r' & E & _). intros ->. discriminate.
Qed.

Lemma split_entries inner n ms es secss tss : entry_text inner -> listing inner n ms es secss tss ->
  Forall no_nl (concat es) ->
  forall done, exists k, foldM split_list_step (concat es) (SL false [] n done) = Ok (SL false [] k (done ++ es)).
Proof.
  intros Hi. induction 1 as [n|n ws m ts secs e ms es secss tss Hn He Hs Hes H IH]; intros Hl done.
  - exists n. rewrite app_nil_r. reflexivity.
  - cbn [concat] in *. apply Forall_app in Hl. destruct Hl as [Hl1 Hl2].
    rewrite foldM_app. rewrite (split_list_entry n done ws m _ e He Hn Hl1 (Hi ts secs Hs Hes)).
    cbn [bind]. destruct (IH Hl2 (done ++ [e])) as (k & Ek). exists k. rewrite Ek. rewrite <- app_assoc. reflexivity.
Qed.

Lemma split_list_entries inner n m ms es secss tss : entry_text inner -> listing inner n (m :: ms) es secss tss ->
  Forall no_nl (concat es) ->
  split_list (concat es) = Ok es /\ dedent_entries es = Ok (map lines_of secss).
Proof.
  intros Hi H Hl.
  assert (H0 : exists ws l more, concat es = (ws ++ m ++ c_sp :: l) :: more /\ spaces ws /\ marker m
            /\ listing inner (length (ws ++ m)) (m :: ms) es secss tss).
  { inversion H as [|n' ws m' ts secs e ms' es' secss' tss' Hn He Hs Hes Hr]; subst. assert (He' := He).
    destruct He' as (l & r & r' & E & -> & Hw & Hm & _). exists ws, l, (r ++ concat es').
    split; [reflexivity|]. split; [exact Hw|]. split; [exact Hm|].
    econstructor; try eassumption. rewrite app_length. lia. }
  destruct H0 as (ws & l & more & E & Hw & Hm & H').
  destruct (split_entries _ _ _ _ _ _ Hi H' Hl []) as (k & Ek). split.
  - unfold split_list. rewrite E at 1. unfold list_marker_end_pos.
    rewrite (marker_end_marked _ ws m (c_sp :: l)); [|split; [reflexivity|]; split; [exact Hw|]; split; [exact Hm|]; right; eauto].
    cbn [bind]. rewrite Ek. reflexivity.
  - unfold dedent_entries. clear -H'. induction H' as [|n ws' m' ts secs e ms' es secss tss _ H _ _ _ IH]; [reflexivity|].
    cbn [mapM map]. rewrite (entry_dedent _ _ _ _ H). cbn [bind]. rewrite IH. reflexivity.
Qed.

(** * Putting lists together *)

(** The lines of an entry with the marker [m] and the text at [n]. *)
Definition hang (n : nat) (m : str) (lines : list str) : list str :=
  match lines with
  | [] => []
  | l :: rest => (m ++ c_sp :: l) :: map (fun x => repeat c_sp n ++ x) rest
  end.

(** All lines but the first are indented by [d]. *)
Definition shifted (d : nat) (lines : list str) : list str :=
  match lines with [] => [] | l :: rest => l :: map (fun x => repeat c_sp d ++ x) rest end.

Lemma shifted_0 lines : shifted 0 lines = lines.
Proof. destruct lines as [|l rest]; [reflexivity|]. cbn [shifted repeat app]. rewrite map_id. reflexivity. Qed.

Lemma hang_entry n m lines : marker m -> lines <> [] -> length m + 1 <= n ->
  entry [] m (shifted (n - (length m + 1)) lines) (hang n m lines).
Proof.
  intros Hm Hn Hl. destruct lines as [|l rest]; [congruence|]. cbn [hang shifted].
  exists l, (map (fun x => repeat c_sp n ++ x) rest), (map (fun x => repeat c_sp (n - (length m + 1)) ++ x) rest).
  split; [reflexivity|]. split; [reflexivity|]. split; [constructor|]. split; [exact Hm|]. cbn [app]. split.
  - clear Hn. induction rest as [|x rest IH]; cbn [map]; [constructor|]. constructor; [|exact IH]. exists (repeat c_sp (length m + 1)).
    split; [rewrite app_assoc, <- repeat_app; do 2 f_equal; lia|]. split; [apply spaces_repeat|]. rewrite repeat_length. auto.
  - apply Forall_map, Forall_forall. intros x _ ws' m' body M.
    assert (G := marked_indent _ _ _ _ M). rewrite <- G. unfold get_indent.
    unfold lstrip. rewrite lstrip_by_app by (apply spaces_forallb, spaces_repeat).
    fold (lstrip x). rewrite app_length, repeat_length.
    destruct (lead_decomp x) as (u & E & _). apply (f_equal (@length _)) in E. rewrite app_length in E. lia.
Qed.

Lemma rstrip_nl_lines lines : lines <> [] -> Forall no_nl lines -> Forall (fun l => l <> []) lines ->
  rstrip_by (N.eqb c_nl) (newline_terminated lines) = str_join [c_nl] lines.
Proof.
  intros Hn Hl He. rewrite newline_terminated_join by exact Hn.
  destruct lines as [|x lines _] using rev_ind; [congruence|].
  apply Forall_app in Hl, He. destruct Hl as [_ Hl], He as [_ He]. apply Forall_inv in Hl, He.
  destruct x as [|c x _] using rev_ind; [congruence|]. apply Forall_app in Hl. destruct Hl as [_ Hl]. apply Forall_inv in Hl.
  assert (G : exists s, str_join [c_nl] (lines ++ [x ++ [c]]) = s ++ [c]).
  { destruct lines as [|y lines]; [exists x; reflexivity|]. rewrite str_join_app by discriminate. cbn [str_join].
    exists (str_join [c_nl] (y :: lines) ++ [c_nl] ++ x). rewrite <- !app_assoc. reflexivity. }
  destruct G as (s & ->). rewrite rstrip_by_app by reflexivity. apply rstrip_by_snoc. apply N.eqb_neq. congruence.
Qed.

Lemma format_entry_lines nested m n w e lines :
  lines <> [] -> Forall no_nl lines -> Forall (fun l => l <> []) lines ->
  nested e (width_sub w (Z.of_nat n)) = Ok (newline_terminated lines) ->
  format_entry nested m n w e = Ok (str_join [c_nl] (hang n m lines)).
Proof.
  intros Hn Hl He E. unfold format_entry. rewrite E. cbn [with_redirect bind].
  rewrite rstrip_nl_lines by assumption. rewrite split_on_join by assumption. f_equal.
  destruct lines as [|l rest]; [congruence|]. cbn [hang].
  replace (m ++ c_sp :: l) with ((m ++ [c_sp]) ++ l) by (rewrite <- app_assoc; reflexivity).
  rewrite <- join_indent. destruct rest; cbn [str_join]; rewrite <- !app_assoc; reflexivity.
Qed.
