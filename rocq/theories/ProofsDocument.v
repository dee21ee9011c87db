(** Documents of sections whose formatting is stable. *)
From Coq Require Import String.
From Verif Require Import Py Regex Utils TextWrap Lines Detectors Formatters Base
  SpecLines SpecParser ProofsLines ProofsRegex ProofsParser ProofsShapes ProofsKinds
  SpecFormat ProofsPass ProofsForward PropsLeaf SpecTable ProofsTable PropsTable
  SpecWrap SpecProse ProofsGaps ProofsProse ProofsWrap ProofsTokens ProofsPieces ProofsFilled PropsWrap
  SpecDefinition ProofsDefinition PropsDefinition SpecErrors SpecDocument SpecContent SpecRender ProofsRender.

(** * Words *)

(** The lines are made of consecutive words. *)
Definition word_lines (ws : list str) (lines : list str) : Prop :=
  exists groups, ws = concat groups /\ lines = map (str_join [c_sp]) groups
    /\ Forall (fun g => g <> []) groups.

Lemma line_of_words g : Forall (fun x => x <> []) g ->
  line_of (words_as_pieces g) = str_join [c_sp] g.
Proof.
  induction g as [|x g IH] using rev_ind; intros H; [reflexivity|].
  apply Forall_app in H. destruct H as [Hg Hx]. unfold words_as_pieces in *. rewrite map_app. cbn [map].
  rewrite line_of_snoc, IH by exact Hg. destruct g as [|y g]; [reflexivity|].
  rewrite str_join_app by discriminate. cbn [str_join].
  inversion Hg as [|? ? Hy _]; subst. destruct y as [|c y]; [congruence|]. clear.
  destruct g; reflexivity.
Qed.

Lemma map_eq_concat {A B} (f : A -> B) ws gs rest :
  map f ws = concat gs ++ rest ->
  exists gs' rest', ws = concat gs' ++ rest' /\ gs = map (map f) gs' /\ rest = map f rest'.
Proof.
  revert ws. induction gs as [|g gs IH]; intros ws E.
  - exists [], ws. auto.
  - cbn [concat] in E. rewrite <- app_assoc in E. apply map_eq_app in E.
    destruct E as (w1 & w2 & -> & E1 & E2). apply IH in E2.
    destruct E2 as (gs' & rest' & -> & -> & ->). exists (w1 :: gs'), rest'.
    cbn [concat map]. rewrite E1, app_assoc. auto.
Qed.

Lemma filled_word_lines w ws lines :
  Forall (fun x => x <> []) ws -> filled w (words_as_pieces ws) lines -> word_lines ws lines.
Proof.
  intros Hw (groups & rest & E & Hr & -> & Hne & _). unfold words_as_pieces in E.
  apply map_eq_concat in E. destruct E as (gs & rest' & -> & -> & ->).
  apply Forall_app in Hw. destruct Hw as [Hw Hw']. rewrite Forall_concat in Hw.
  fold (words_as_pieces rest') in Hr. rewrite line_of_words in Hr by exact Hw'.
  assert (rest' = []) as ->.
  { destruct rest' as [|x r]; [reflexivity|]. exfalso. inversion Hw'; subst.
    destruct r; [cbn in Hr; congruence|]. cbn [str_join] in Hr. destruct x; [congruence|discriminate]. }
  exists gs. rewrite app_nil_r. split; [reflexivity|].
  clear -Hw Hne. induction Hw as [|g gs Hg Hw IH]; [auto|].
  cbn [map] in *. inversion Hne as [|? ? H1 H2]; subst. destruct (IH H2) as [E F].
  fold (words_as_pieces g) in H1 |- *. rewrite line_of_words in * by exact Hg.
  rewrite E. split; [reflexivity|]. constructor; [|exact F]. intros ->. apply H1. reflexivity.
Qed.

Lemma word_lines_words ws lines :
  Forall (fun w => w <> [] /\ Forall (fun c => is_space c = false) w) ws ->
  word_lines ws lines ->
  concat (map words lines) = ws
  /\ Forall (fun l => words l <> [] /\ l = str_join [c_sp] (words l)) lines.
Proof.
  intros H (gs & -> & -> & Hn). rewrite Forall_concat in H. rewrite map_map.
  induction gs as [|g gs IH]; [split; constructor|]. inversion Hn as [|? ? Hg0 Hn']; subst.
  inversion H as [|? ? Hg H']; subst. destruct (IH H' Hn') as [E F]. cbn [map concat]. rewrite words_join_words by exact Hg.
  rewrite E. split; [reflexivity|]. constructor; [|exact F].
  rewrite words_join_words by exact Hg. auto.
Qed.

(** * Lines of ordinary words *)

Lemma first_word ws c t : spaces ws -> is_space c = false ->
  words (ws ++ c :: t) = (c :: take_while not_space t) :: words (lstrip_by not_space (c :: t)).
Proof.
  intros Hw Hc. rewrite words_lead by exact Hw. rewrite words_take by exact Hc.
  cbn [take_while]. unfold not_space at 1. rewrite Hc. reflexivity.
Qed.

Lemma take_not_space_app a s : Forall (fun c => is_space c = false) a ->
  take_while not_space (a ++ s) = a ++ take_while not_space s.
Proof.
  intros H. induction H as [|c a Hc H IH]; [reflexivity|]. cbn [app take_while].
  unfold not_space at 1. rewrite Hc. cbn [negb]. rewrite IH. reflexivity.
Qed.

Lemma take_one_or_space c body : Forall (fun x => x = c \/ is_space x = true) body ->
  exists n, take_while not_space body = repeat c n.
Proof.
  intros H. induction H as [|x body Hx H (n & IH)]; [exists 0; reflexivity|].
  cbn [take_while]. unfold not_space at 1. destruct (is_space x) eqn:E; cbn [negb]; [exists 0; reflexivity|].
  destruct Hx as [->|Hx]; [|congruence]. exists (S n). rewrite IH. reflexivity.
Qed.

Lemma spaces_head c t : spaces (c :: t) -> is_space c = true.
Proof. intros H. inversion H. assumption. Qed.

Lemma text_line_kinds l : text_line l -> continuation_line l.
Proof.
  intros (_ & (word & more & Ew & Ho) & _).
  assert (F : forall ws c t, l = ws ++ c :: t -> spaces ws -> is_space c = false ->
            harmless (c :: take_while not_space t)).
  { intros ws c t -> Hw Hc. rewrite first_word in Ew by assumption. injection Ew as <- _. exact Ho. }
  repeat split.
  - intros H. rewrite words_spaces in Ew by exact H. discriminate.
  - intros (ws & body & E & Hw & _). apply F in E; [|exact Hw|reflexivity].
    destruct E as (E & _). eapply E; [|reflexivity]. cbn. auto.
  - intros (ws & body & E & Hw & _). apply F in E; [|exact Hw|reflexivity].
    destruct E as (E & _). eapply E; [|reflexivity]. cbn. auto.
  - intros (ws & b & body & E & Hw & _ & Hb). assert (Hsp := bullet_chars_not_space b Hb).
    apply F in E; [|exact Hw|exact Hsp]. destruct E as (_ & _ & _ & _ & E).
    apply (E b 1); [|reflexivity]. cbn in *. tauto.
  - intros (ws & ds & body & E & Hw & _ & Hd). assert (Hd' := Hd). destruct Hd' as [Hd1 Hd2].
    destruct ds as [|d ds]; [congruence|]. assert (Hd3 := Forall_inv Hd2). assert (Hd4 := Forall_inv_tail Hd2).
    apply F in E; [|exact Hw|apply digit_not_space; exact Hd3].
    destruct E as (_ & _ & _ & E & _). apply (E _ Hd). cbn [app]. f_equal.
    rewrite take_not_space_app; [reflexivity|].
    eapply Forall_impl; [|exact Hd4]. apply digit_not_space.
  - intros (ws & body & E & Hw). apply F in E; [|exact Hw|reflexivity].
    destruct E as (E & _). eapply E; [|reflexivity]. cbn. auto.
  - intros (ws & c & body & E & Hw & Hc).
    assert (Hsp : is_space c = false) by (destruct Hc as [<-|[<-|[]]]; reflexivity).
    apply F in E; [|exact Hw|exact Hsp].
    cbn [app take_while] in E. unfold not_space in E at 1 2. rewrite Hsp in E. cbn [negb] in E.
    destruct E as (_ & E1 & E2 & _). destruct Hc as [<-|[<-|[]]].
    + apply (E2 (take_while not_space body)). reflexivity.
    + apply (E1 (take_while not_space body)). reflexivity.
  - intros (c & ws & body & E & Hw & _ & Hc & Hb & _).
    apply F in E; [|exact Hw|apply thematic_char_not_space; exact Hc].
    destruct E as (_ & _ & _ & _ & E). destruct (take_one_or_space c body Hb) as (n & G).
    apply (E c (S n)); [|rewrite G; reflexivity]. cbn in *. tauto.
  - intros (c & n & ws & ws' & E & Hw & Hw' & _ & Hc). cbn [repeat app] in E.
    apply F in E; [|exact Hw|apply underline_char_not_space; exact Hc].
    destruct E as (_ & _ & _ & _ & E). destruct (take_one_or_space c (repeat c n ++ ws')) as (m & G).
    { apply Forall_app. split; [|eapply Forall_impl; [|exact Hw']; auto].
      apply Forall_forall. intros x Hx. apply repeat_spec in Hx. auto. }
    apply (E c (S m)); [|rewrite G; reflexivity]. cbn in *. tauto.
Qed.

(** No line contains the end of a label. *)
Definition labelless (l : str) : Prop := forall a b, l <> a ++ lit "]:" ++ b.

Lemma labelless_strip l : labelless (strip l) -> labelless l.
Proof.
  intros H a b E. destruct (strip_spec l) as (pre & post & El & Hpre & Hpost). rewrite <- spaces_forallb in Hpre, Hpost.
  assert (G : forall u v x y : str, u ++ v = x ++ y -> (exists e, u = x ++ e /\ y = e ++ v) \/ (exists e, x = u ++ e /\ v = e ++ y)).
  { clear. induction u as [|c u IH]; intros v x y E; [right; exists x; auto|]. destruct x as [|d x]; [left; exists (c :: u); auto|].
    injection E as <- E. destruct (IH _ _ _ E) as [(e & -> & ->)|(e & -> & ->)]; [left|right]; exists e; auto. }
  assert (S : forall c u v ws, spaces ws -> ws = u ++ c :: v -> is_space c = true).
  { intros c u v ws Hw ->. apply Forall_app in Hw. apply (Forall_inv (proj2 Hw)). }
  rewrite El in E. destruct (G _ _ _ _ E) as [(e & -> & E2)|(e & -> & E2)].
  - destruct e as [|c e].
    + cbn [app] in E2. destruct (strip l) as [|x [|y t]].
      * cbn in E2. destruct post as [|x post]; [discriminate|]. injection E2 as <- _. apply Forall_inv in Hpost. discriminate.
      * cbn in E2. destruct post as [|y post]; [discriminate|]. injection E2 as _ <- _. apply Forall_inv in Hpost. discriminate.
      * injection E2 as <- <- _. apply (H [] t). reflexivity.
    + injection E2 as <- _. apply Forall_app in Hpre. destruct Hpre as [_ Hpre]. apply Forall_inv in Hpre. discriminate.
  - destruct (G _ _ _ _ E2) as [(e' & E3 & E4)|(e' & -> & E4)].
    + destruct e' as [|x [|y e']].
      * cbn in E4. destruct post as [|x post]; [discriminate|]. injection E4 as <- _. apply Forall_inv in Hpost. discriminate.
      * injection E4 as <- E4. destruct post as [|z post]; [discriminate|]. injection E4 as <- _. apply Forall_inv in Hpost. discriminate.
      * injection E4 as <- <- _. apply (H e e'). exact E3.
    + rewrite E4 in Hpost. apply Forall_app in Hpost. destruct Hpost as [_ Hpost]. apply Forall_inv in Hpost. discriminate.
Qed.

Lemma text_labelless ls ps : text_pieces ls ps -> Forall labelless ls.
Proof.
  intros H. apply prose_unlabel in H.
  assert (G : forall ms, (forall a b, str_join [c_sp] ms <> a ++ lit "]:" ++ b) -> Forall labelless ms).
  { induction ms as [|m ms IH]; intros G; [constructor|]. constructor.
    - intros a b ->. destruct ms as [|m' ms]; [apply (G a b); reflexivity|].
      apply (G a (b ++ [c_sp] ++ str_join [c_sp] (m' :: ms))). rewrite str_join_cons by discriminate. rewrite <- !app_assoc. reflexivity.
    - destruct ms as [|m' ms]; [constructor|]. apply IH. intros a b E. apply (G ((m ++ [c_sp]) ++ a) b).
      rewrite str_join_cons by discriminate. rewrite E, <- !app_assoc. reflexivity. }
  apply G in H. rewrite Forall_map in H. eapply Forall_impl; [|exact H]. intros l. apply labelless_strip.
Qed.

Lemma labelless_definition l : labelless l -> ~ definition_line l.
Proof.
  intros H (ws & label & body & -> & _). apply (H (ws ++ c_lbr :: label) body). rewrite <- app_assoc. reflexivity.
Qed.

Lemma words_strip_join ls : words (str_join [c_sp] (map strip ls)) = concat (map words ls).
Proof. rewrite words_join, map_map. f_equal. apply map_ext. intros l. apply words_strip. Qed.

(** Prose is wrapped into lines of the same prose, which do not change any more. *)
Lemma wrap_plain ls w ps :
  Forall text_line ls -> ls <> [] -> text_pieces ls ps ->
  exists lines, wrap (str_join [c_sp] (map strip ls)) w = Ok (str_join [c_nl] lines)
    /\ wrap (str_join [c_sp] (map strip lines)) w = Ok (str_join [c_nl] lines)
    /\ lines <> [] /\ Forall text_line lines /\ Forall one_line lines
    /\ Forall (fun l => exists c s, l = c :: s /\ is_space c = false) lines
    /\ Forall (fun l => exists s c, l = s ++ [c] /\ is_space c = false) lines
    /\ text_pieces lines ps /\ filled w ps lines.
Proof.
  intros H Hn Hp. destruct (prose_lines ls ps w Hp) as (lines & E1 & E2 & Hn' & Ho & Hs & H1 & H2 & H3 & Hp' & Hf).
  exists lines. split; [exact E1|]. split; [exact E2|]. split.
  { apply Hn'. intros ->. apply prose_none in Hp. destruct ls as [|l ls]; [congruence|].
    apply Forall_inv in H. destruct H as (_ & (x & m & E & _) & _). apply words_spaces in Hp. rewrite words_strip_join in Hp.
    cbn [map concat] in Hp. rewrite E in Hp. discriminate. }
  split; [|do 4 (split; [assumption|]); exact Hf].
  rewrite Forall_forall in *. intros l Hl. split; [apply Hs, Hl|]. split; [apply H3, Hl|]. intros l' ->.
  destruct (H2 _ Hl) as (s & c & E & Hc). change [c_sp; c_sp] with ([c_sp] ++ [c_sp]) in E. rewrite app_assoc in E.
  apply app_inj_tail in E. destruct E as [_ <-]. discriminate.
Qed.

(** * Parsing *)

Lemma continuation_bools l : continuation_line l ->
  is_atx_heading_line l = false /\ is_blank_line_line l = false
  /\ is_explicit_block_quote_line l = false /\ is_bullet_list_start_line l = false
  /\ is_fenced_code_block_start_line l = false /\ is_ordered_list_start_line l = false
  /\ is_table_start_line l = false /\ is_thematic_break_line l = false
  /\ is_setext_underline l = false.
Proof.
  intros (H1 & H2 & H3 & H4 & H5 & H6 & H7 & H8 & H9).
  rewrite <- blank_line_spec in H1. rewrite <- atx_spec in H2. rewrite <- quote_spec in H3.
  rewrite <- bullet_spec in H4. rewrite <- ordered_spec in H5. rewrite <- table_spec in H6.
  rewrite <- fence_spec in H7. rewrite <- thematic_spec in H8. rewrite <- underline_spec in H9.
  repeat split; apply Bool.not_true_is_false; assumption.
Qed.

Section Parsing.
  Variable sbq : splitter.
  Hypothesis sbq_no : forall l rest,
    is_explicit_block_quote_line l = false -> sbq (l :: rest) = Ok ([], l :: rest).

  Lemma par_continuation_true l rest :
    continuation_line l -> par_continuation sbq (l :: rest) = Ok true.
  Proof.
    intros H. apply continuation_bools in H. destruct H as (H1 & H2 & H3 & H4 & H5 & H6 & H7 & H8 & H9).
    unfold par_continuation.
    assert (E : any_splits [split_atx_heading; split_blank_line; sbq; split_bullet_list;
       split_fenced_code_block; split_ordered_list; split_table; split_thematic_break] (l :: rest) = Ok false).
    { apply any_splits_false. repeat constructor; eexists;
        first [apply one_line_no; assumption|apply sbq_no; assumption|apply list_no; assumption
              |apply fenced_no; assumption|apply table_no; assumption]. }
    rewrite E. cbn [bind]. rewrite H9. reflexivity.
  Qed.

  Lemma par_continuation_false l rest :
    ~ quote_line l -> ~ continuation_line l -> par_continuation sbq (l :: rest) = Ok false.
  Proof.
    intros Hq Hc. unfold par_continuation.
    destruct (any_splits _ (l :: rest)) as [b|e] eqn:E.
    - cbn [bind]. destruct b; [reflexivity|]. destruct (is_setext_underline l) eqn:Eu; [reflexivity|].
      exfalso. apply Hc. apply any_splits_false in E.
      repeat match goal with H : Forall _ (_ :: _) |- _ => inversion H; clear H; subst end.
      repeat match goal with H : exists r, _ |- _ => destruct H as (? & ?) end.
      unfold split_atx_heading, split_blank_line, split_thematic_break, split_bullet_list,
        split_ordered_list, split_list_section, split_table, split_one_line in *.
      repeat split; try exact Hq.
      + rewrite <- blank_line_spec. destruct (is_blank_line_line l); [discriminate|congruence].
      + rewrite <- atx_spec. destruct (is_atx_heading_line l); [discriminate|congruence].
      + rewrite <- bullet_spec. destruct (is_bullet_list_start_line l); [destruct (span continues_list rest); discriminate|congruence].
      + rewrite <- ordered_spec. destruct (is_ordered_list_start_line l); [destruct (span continues_list rest); discriminate|congruence].
      + rewrite <- table_started_spec. destruct (table_started l); [destruct (span table_started rest); discriminate|congruence].
      + rewrite <- fence_spec. intros F. assert (G : full_fence l <> None) by (rewrite full_fence_none; congruence).
        unfold split_fenced_code_block in *.
        destruct (full_fence l); [destruct (take_fenced _ rest); discriminate|congruence].
      + rewrite <- thematic_spec. destruct (is_thematic_break_line l); [discriminate|congruence].
      + rewrite <- underline_spec. congruence.
    - exfalso. apply any_splits_err in E. destruct E as (f & Hin & E).
      rewrite <- quote_spec in Hq. apply Bool.not_true_is_false in Hq.
      cbn in Hin. decompose [or] Hin; subst;
        unfold split_atx_heading, split_blank_line, split_thematic_break, split_bullet_list,
        split_ordered_list, split_list_section, split_table, split_one_line, split_fenced_code_block in *.
      + destruct (is_atx_heading_line l); discriminate.
      + destruct (is_blank_line_line l); discriminate.
      + rewrite sbq_no in E by exact Hq. discriminate.
      + destruct (is_bullet_list_start_line l); [destruct (span continues_list rest)|]; discriminate.
      + destruct (full_fence l); [destruct (take_fenced _ rest)|]; discriminate.
      + destruct (is_ordered_list_start_line l); [destruct (span continues_list rest)|]; discriminate.
      + destruct (table_started l); [destruct (span table_started rest)|]; discriminate.
      + destruct (is_thematic_break_line l); discriminate.
      + contradiction.
  Qed.

  (** A line that no paragraph runs over. *)
  Definition stops (rest : list str) : Prop :=
    forall l r, rest = l :: r -> par_continuation sbq rest = Ok false.

  Lemma text_line_no_break l : text_line l -> endswith [c_sp; c_sp] l = false.
  Proof.
    intros (_ & _ & H). apply Bool.not_true_is_false. intros E. apply endswith_spec in E.
    destruct E as (t & ->). eapply H. reflexivity.
  Qed.

  Lemma par_tail_text ls rest :
    Forall text_line ls -> stops rest -> par_tail sbq (ls ++ rest) = Ok (ls, rest).
  Proof.
    intros H Hr. induction H as [|l ls Hl H IH]; cbn [app par_tail].
    - destruct rest as [|l rest]; [reflexivity|].
      cbn [par_tail]. rewrite (Hr l rest eq_refl). reflexivity.
    - rewrite par_continuation_true by (apply text_line_kinds; exact Hl). cbn [bind].
      rewrite text_line_no_break by exact Hl. rewrite IH. reflexivity.
  Qed.

  Lemma plain_start l : ~ indented_line l -> text_line l -> is_paragraph_start_line l = true.
  Proof.
    intros Hi Ht. apply text_line_kinds in Ht. apply paragraph_start_spec.
    unfold continuation_line in Ht. unfold paragraph_line. tauto.
  Qed.

  Lemma split_plain ls rest :
    plain_lines ls -> stops rest ->
    split_paragraph_ignoring_setext sbq (ls ++ rest) = Ok (ls, rest).
  Proof.
    intros (l & more & -> & Hi & Ht & _) Hr. cbn [app split_paragraph_ignoring_setext].
    inversion Ht as [|? ? Hl Hm]; subst.
    rewrite (plain_start l Hi Hl), text_line_no_break by exact Hl.
    rewrite par_tail_text by assumption. reflexivity.
  Qed.

  Lemma plain_skip l rest :
    ~ indented_line l -> text_line l -> labelless l ->
    first_split (SPLITTERS sbq) (l :: rest)
    = first_split [(PARAGRAPH, split_paragraph sbq); (SETEXT_HEADING, split_setext_heading sbq);
                   (TABLE, split_table); (THEMATIC_BREAK, split_thematic_break)] (l :: rest).
  Proof.
    intros Hi Ht Hd. apply text_line_kinds in Ht as Hc. apply labelless_definition in Hd.
    assert (Hc' := Hc). apply continuation_bools in Hc.
    destruct Hc as (H1 & H2 & H3 & H4 & H5 & H6 & H7 & H8 & H9). unfold SPLITTERS.
    rewrite first_split_skip by (apply one_line_no; assumption).
    rewrite first_split_skip by (apply one_line_no; assumption).
    rewrite first_split_skip by (apply sbq_no; assumption).
    rewrite first_split_skip by (apply list_no; assumption).
    rewrite first_split_skip by (apply fenced_no; assumption).
    rewrite first_split_skip.
    2:{ apply indented_no. rewrite <- indented_spec in Hi. apply Bool.not_true_is_false. exact Hi. }
    rewrite first_split_skip by (apply lrd_no; assumption).
    rewrite first_split_skip by (apply list_no; assumption). reflexivity.
  Qed.

  Lemma first_split_plain ls rest :
    plain_lines ls -> stops rest -> (forall l r, rest = l :: r -> ~ underline_line l) ->
    first_split (SPLITTERS sbq) (ls ++ rest) = Ok ((PARAGRAPH, ls), rest).
  Proof.
    intros Hp Hs Hu. assert (E := split_plain ls rest Hp Hs).
    destruct Hp as (l & more & -> & Hi & Ht & ps & Hps). apply text_labelless in Hps.
    cbn [app] in *. inversion Ht as [|? ? Hl Hm]; subst.
    rewrite (plain_skip l (more ++ rest) Hi Hl (Forall_inv Hps)). cbn [first_split].
    unfold split_paragraph at 1. rewrite E. cbn [bind]. destruct rest as [|r rest]; [reflexivity|].
    specialize (Hu r rest eq_refl). rewrite <- underline_spec in Hu. apply Bool.not_true_is_false in Hu.
    rewrite Hu. reflexivity.
  Qed.

  Lemma underline_stops u rest : underline_line u -> stops (u :: rest).
  Proof.
    intros H l r E. injection E as <- <-. apply par_continuation_false; [|unfold continuation_line; tauto].
    intros Q. destruct H as (c & n & ws & ws' & E & Hw & _ & _ & Hc).
    destruct Q as (v & body & E' & Hv & _). rewrite E in E'. cbn [repeat app] in E'.
    apply first_char_unique in E'; [|assumption|assumption|apply underline_char_not_space; exact Hc|reflexivity].
    destruct E' as (_ & -> & _). cbn in Hc. intuition discriminate.
  Qed.

  Lemma first_split_setext ls u rest :
    plain_lines ls -> underline_line u ->
    first_split (SPLITTERS sbq) (ls ++ u :: rest) = Ok ((SETEXT_HEADING, ls ++ [u]), rest).
  Proof.
    intros Hp Hu. assert (E := split_plain ls (u :: rest) Hp (underline_stops u rest Hu)).
    destruct Hp as (l & more & -> & Hi & Ht & ps & Hps). apply text_labelless in Hps.
    cbn [app] in *. inversion Ht as [|? ? Hl Hm]; subst.
    rewrite (plain_skip l (more ++ u :: rest) Hi Hl (Forall_inv Hps)). cbn [first_split].
    apply underline_spec in Hu.
    unfold split_paragraph at 1. rewrite E. cbn [bind]. rewrite Hu. cbn [negb bind nilb].
    unfold split_setext_heading at 1. rewrite E. cbn [bind nilb negb andb]. rewrite Hu. reflexivity.
  Qed.

  Lemma span_all {A} (p : A -> bool) ls rest :
    Forall (fun x => p x = true) ls -> match rest with [] => True | x :: _ => p x = false end ->
    span p (ls ++ rest) = (ls, rest).
  Proof.
    intros H Hr. induction H as [|x ls Hx H IH]; cbn [app span].
    - destruct rest as [|x rest]; [reflexivity|]. cbn [span]. rewrite Hr. reflexivity.
    - rewrite Hx, IH. reflexivity.
  Qed.

  Lemma first_split_table l ls rest :
    ~ indented_line l -> Forall table_line (l :: ls) ->
    (forall x r, rest = x :: r -> ~ table_line x) ->
    first_split (SPLITTERS sbq) (l :: ls ++ rest) = Ok ((TABLE, l :: ls), rest).
  Proof.
    intros Hi Ht Hr. assert (T := Forall_inv Ht). assert (S := starts_table l T). unfold SPLITTERS.
    assert (Np : is_paragraph_start_line l = false).
    { apply Bool.not_true_is_false. intros E. apply paragraph_start_spec in E.
      unfold paragraph_line in E. tauto. }
    rewrite first_split_skip by (apply one_line_no; not_kind).
    rewrite first_split_skip by (apply one_line_no; not_kind).
    rewrite first_split_skip by (apply sbq_no; not_kind).
    rewrite first_split_skip by (apply list_no; not_kind).
    rewrite first_split_skip by (apply fenced_no; not_kind).
    rewrite first_split_skip by (apply indented_no; not_kind).
    rewrite first_split_skip by (apply lrd_no; eapply no_definition; [exact S|reflexivity]).
    rewrite first_split_skip by (apply list_no; not_kind).
    rewrite first_split_skip by (apply paragraph_no; exact Np).
    rewrite first_split_skip by (apply setext_no; exact Np).
    cbn [first_split]. unfold split_table at 1. assert (T' := proj2 (table_started_spec l) T). rewrite T'.
    rewrite span_all; [reflexivity| |].
    - eapply Forall_impl; [|exact (Forall_inv_tail Ht)]. intros x Hx. apply table_started_spec. exact Hx.
    - destruct rest as [|x r]; [exact I|]. apply Bool.not_true_is_false. rewrite table_started_spec.
      eapply Hr. reflexivity.
  Qed.

  Lemma first_split_lrd content rest :
    definition_whole content rest -> content <> [] ->
    first_split (SPLITTERS sbq) (content ++ rest) = Ok ((LINK_REFERENCE_DEFINITION, content), rest).
  Proof.
    intros Hw Hn. assert (E := split_lrd_recognises content rest Hw).
    destruct content as [|l more]; [congruence|]. cbn [app] in *.
    assert (D : definition_line l).
    { eapply split_lrd_definition; [exact E|discriminate]. }
    assert (S := starts_definition l D). unfold SPLITTERS.
    rewrite first_split_skip by (apply one_line_no; not_kind).
    rewrite first_split_skip by (apply one_line_no; not_kind).
    rewrite first_split_skip by (apply sbq_no; not_kind).
    rewrite first_split_skip by (apply list_no; not_kind).
    rewrite first_split_skip by (apply fenced_no; not_kind).
    rewrite first_split_skip by (apply indented_no; not_kind).
    cbn [first_split]. rewrite E. reflexivity.
  Qed.
End Parsing.

(** * Structured documents are parsed into their sections *)

Lemma block_ne ty ls : block ty ls -> ls <> [].
Proof.
  destruct ty; cbn [block]; try tauto.
  - intros (l & -> & _). discriminate.
  - intros (l & -> & _). discriminate.
  - intros (ws & c & n & info & body & close & -> & _). discriminate.
  - intros (l & more & -> & _). discriminate.
  - intros (l & body & link & -> & _). discriminate.
  - intros (l & rest & -> & _). discriminate.
  - intros (text & u & -> & _). destruct text; discriminate.
  - intros (h & d & b & hs & ds & bss & -> & _). discriminate.
  - intros (l & -> & _). discriminate.
Qed.

Lemma fence_head ws c n info : spaces ws -> In c [c_bt; c_tilde] -> 3 <= n ->
  fence_line (ws ++ repeat c n ++ info).
Proof.
  intros Hw Hc Hn. destruct n as [|[|[|n]]]; try lia. exists ws, c, (repeat c n ++ info). auto.
Qed.

Lemma header_table_line cells line : header_of cells line -> table_line line.
Proof. intros (ws & ws' & -> & Hw & _). exists ws, (str_join [c_bar] cells ++ [c_bar] ++ ws'). auto. Qed.

Lemma row_table_line cells line : row_of cells line -> table_line line.
Proof. intros H. eapply header_table_line, row_header, H. Qed.

Lemma labelled_definition l body : labelled l body -> definition_line l.
Proof. intros (ws & label & -> & Hw & Hl & Hc & Hn). exists ws, label, body. auto 6. Qed.

(** What the first line of a section tells about the end of the section before it. *)
Lemma block_first ty l ls : block ty (l :: ls) ->
  match ty with
  | BLANK_LINE => blank_line l
  | INDENTED_CODE_BLOCK => indented_line l
  | _ => ~ blank_line l /\ ~ indented_line l
  end.
Proof.
  assert (S : forall P, starts l true P -> ~ blank_line l /\ ~ indented_line l).
  { intros P H. split; intros G; [eapply starts_not_blank|eapply starts_not_indented]; eauto. }
  assert (T : forall text more, plain_lines text -> l :: ls = text ++ more ->
              ~ blank_line l /\ ~ indented_line l).
  { intros text more (x & rest & -> & Hi & Ht & _) E. injection E as <- _. split; [|exact Hi].
    apply Forall_inv in Ht. apply text_line_kinds in Ht. destruct Ht as (Ht & _). exact Ht. }
  destruct ty; cbn [block]; try tauto.
  - intros (x & E & H). injection E as <- _. eapply S, starts_atx. exact H.
  - intros (x & E & H). injection E as <- _. exact H.
  - intros (ws & c & n & info & body & close & E & Hw & Hc & Hn & _ & _ & _ & Hi).
    injection E as -> _. split; [|exact Hi]. intros G. eapply starts_not_blank; [|exact G].
    apply starts_fence, fence_head; assumption.
  - intros (x & more & E & H & _). injection E as <- _. exact H.
  - intros (x & body & link & E & H & _). injection E as <- _. eapply S, starts_definition, labelled_definition. exact H.
  - intros H. eapply (T _ []); [exact H|rewrite app_nil_r; reflexivity].
  - intros (text & u & E & H & _). eapply T; eassumption.
  - intros (h & d & b & hs & ds & bss & E & Hi & Hh & _). injection E as <- _. split; [|exact Hi].
    intros G. eapply starts_not_blank; [|exact G]. eapply starts_table, header_table_line. exact Hh.
  - intros (x & E & H & _). injection E as <- _. eapply S, starts_thematic. exact H.
Qed.

(** The first line of a section is one that such a section starts with. *)
Definition headed (s : section) : Prop :=
  exists l ls, snd s = l :: ls /\
  match fst s with
  | ATX_HEADING => atx_line l
  | BLANK_LINE => blank_line l /\ ls = []
  | BLOCK_QUOTE => quote_line l
  | BULLET_LIST => bullet_line l /\ ~ underline_line l
  | FENCED_CODE_BLOCK => fence_line l /\ ~ indented_line l
  | INDENTED_CODE_BLOCK => indented_line l
  | ORDERED_LIST => ordered_line l
  | TABLE => table_line l /\ ~ indented_line l
  | THEMATIC_BREAK => thematic_line l
  | _ => ~ blank_line l /\ ~ indented_line l
  end.

Lemma block_headed ty ls : block ty ls -> headed (ty, ls).
Proof.
  intros H. assert (Hn := block_ne ty ls H). destruct ls as [|l ls]; [congruence|].
  exists l, ls. split; [reflexivity|]. assert (F := block_first ty l ls H).
  destruct ty; cbn [fst block] in *; try tauto.
  - destruct H as (x & E & H). injection E as <- _. exact H.
  - destruct H as (x & E & H). injection E as <- E. auto.
  - destruct H as (ws & c & n & info & body & close & E & Hw & Hc & Hn' & _).
    injection E as -> _. split; [apply fence_head; assumption|tauto].
  - destruct H as (h & d & b & hs & ds & bss & E & Hi & Hh & _). injection E as <- _.
    split; [eapply header_table_line; exact Hh|exact Hi].
  - destruct H as (x & E & H & _). injection E as <- _. exact H.
Qed.

Lemma headed_first ty l ls : headed (ty, l :: ls) ->
  (ty = BLANK_LINE /\ blank_line l /\ ls = []) \/ (ty = INDENTED_CODE_BLOCK /\ indented_line l)
  \/ (~ blank_line l /\ ~ indented_line l).
Proof.
  intros (x & y & E & H). injection E as <- <-.
  assert (S : forall P, starts l true P -> ~ blank_line l /\ ~ indented_line l).
  { intros P HP. split; intros G; [eapply starts_not_blank|eapply starts_not_indented]; eauto. }
  destruct ty; cbn [fst] in H; auto.
  - right. right. eapply S, starts_atx. exact H.
  - right. right. eapply S, starts_quote. exact H.
  - right. right. eapply S, starts_bullet. apply H.
  - right. right. split; [|apply H]. intros G. eapply starts_not_blank; [apply starts_fence; apply H|exact G].
  - right. right. eapply S, starts_ordered. exact H.
  - right. right. split; [|apply H]. intros G. eapply starts_not_blank; [apply starts_table; apply H|exact G].
  - right. right. eapply S, starts_thematic. exact H.
Qed.

Definition lines_of (secs : list section) : list str := concat (map snd secs).

Lemma lines_of_cons ty ls secs : lines_of ((ty, ls) :: secs) = ls ++ lines_of secs.
Proof. reflexivity. Qed.

Lemma not_indented_bool l : ~ blank_line l -> ~ indented_line l -> (4 <=? get_indent l) = false.
Proof.
  intros Hb Hi. rewrite <- indented_spec in Hi. apply Bool.not_true_is_false in Hi.
  unfold is_indented_code_block_start_line in Hi. apply Bool.andb_false_iff in Hi.
  destruct Hi as [Hi|Hi]; [|exact Hi]. exfalso. apply Hb, blank_iff.
  apply Bool.negb_false_iff in Hi. exact Hi.
Qed.

Lemma indented_close_stop secs i c :
  Forall headed secs -> no_code secs -> indented_close (lines_of secs) i c = c.
Proof.
  intros H. revert i. induction H as [|[ty ls] next Hb H IH]; intros i Hc; [reflexivity|].
  rewrite lines_of_cons. destruct ls as [|l ls]; [destruct Hb as (? & ? & E & _); discriminate|].
  cbn [app indented_close].
  destruct (headed_first ty l ls Hb) as [(-> & Hx & ->)|[[-> _]|[F1 F2]]].
  - apply blank_iff in Hx. rewrite Hx.
    apply IH. intros blanks ls after E G. eapply (Hc ((BLANK_LINE, [l]) :: blanks));
      [rewrite E; reflexivity|]. constructor; [reflexivity|exact G].
  - exfalso. apply (Hc [] (l :: ls) next); [reflexivity|constructor].
  - destruct (blank l) eqn:E; [apply blank_iff in E; contradiction|].
    rewrite not_indented_bool by assumption. reflexivity.
Qed.

Lemma indented_close_code more final rest i c :
  Forall (fun x => blank_line x \/ indented_line x) more -> indented_line final ->
  (forall j, indented_close rest j (i + length more) = i + length more) ->
  indented_close (more ++ final :: rest) i c = i + length more.
Proof.
  intros H Hf. revert i c. induction H as [|x more Hx H IH]; intros i c Hr; cbn [app indented_close].
  - cbn [length] in *. rewrite Nat.add_0_r in *.
    destruct (blank final) eqn:E; [apply blank_iff in E; exfalso; eapply indented_not_blank; [exact Hf|exact E]|].
    apply indented_spec in Hf. unfold is_indented_code_block_start_line in Hf.
    rewrite E in Hf. cbn [negb andb] in Hf. rewrite Hf. apply Hr.
  - cbn [length] in *. rewrite Nat.add_succ_r in *. destruct Hx as [Hx|Hx].
    + apply blank_iff in Hx. rewrite Hx. apply (IH (S i)). exact Hr.
    + destruct (blank x) eqn:E; [apply blank_iff in E; exfalso; eapply indented_not_blank; [exact Hx|exact E]|].
      apply indented_spec in Hx. unfold is_indented_code_block_start_line in Hx.
      rewrite E in Hx. cbn [negb andb] in Hx. rewrite Hx. apply (IH (S i)). exact Hr.
Qed.

Lemma underline_starts u : underline_line u -> starts u true (mem [c_eq; c_dash]).
Proof.
  intros (c & n & ws & ws' & -> & Hw & _ & Hl & Hc). exists ws, c, (repeat c n ++ ws').
  repeat split; auto; [apply underline_char_not_space; exact Hc|apply mem_in; exact Hc].
Qed.

(** A block quote that follows is found. *)
Definition quote_next (sbq : splitter) (next : list section) : Prop :=
  forall ls next', next = (BLOCK_QUOTE, ls) :: next' ->
  exists l ls' r, sbq (lines_of next) = Ok (l :: ls', r).

(** What follows a paragraph ends it. *)
Lemma paragraph_end sbq next :
  (forall l rest, is_explicit_block_quote_line l = false -> sbq (l :: rest) = Ok ([], l :: rest)) ->
  Forall headed next -> quote_next sbq next -> ends_before PARAGRAPH [] next ->
  stops sbq (lines_of next) /\ (forall l r, lines_of next = l :: r -> ~ underline_line l).
Proof.
  intros Hq H Hqn He. destruct H as [|[ty ls] next Hb _]; [split; intros l r E; discriminate|].
  destruct (He ty ls next eq_refl) as [Ht Hd]. rewrite lines_of_cons.
  destruct Hb as (x & ls' & El & Hb). cbn [snd fst] in El, Hb. subst ls. rename ls' into ls.
  assert (U : forall b P, starts x b P -> P c_eq = false -> P c_dash = false -> ~ underline_line x).
  { intros b P HS H1 H2 Q. apply underline_starts in Q. eapply starts_disjoint; [exact HS|exact Q|].
    intros c H3 H4. apply mem_in in H4. destruct H4 as [<-|[<-|[]]]; congruence. }
  assert (Q : ty = BLOCK_QUOTE \/ ty <> BLOCK_QUOTE) by (destruct ty; auto; right; discriminate).
  destruct Q as [->|Hty].
  { split; intros l r E; injection E as <- <-.
    - destruct (Hqn _ next eq_refl) as (a & b & r & E). rewrite lines_of_cons in E. cbn [app] in E.
      cbn [app]. unfold par_continuation. cbn [any_splits]. assert (HS := starts_quote x Hb).
      unfold split_atx_heading at 1. rewrite one_line_no by not_kind. cbn [bind nilb negb].
      unfold split_blank_line at 1. rewrite one_line_no by not_kind. cbn [bind nilb negb].
      rewrite E. reflexivity.
    - eapply U; [apply starts_quote; exact Hb|reflexivity|reflexivity]. }
  assert (G : (~ quote_line x /\ ~ continuation_line x) /\ ~ underline_line x).
  2:{ split; intros l r E; injection E as <- _; [apply par_continuation_false; tauto|tauto]. }
  assert (S : forall b P, starts x b P -> P c_gt = false -> ~ quote_line x).
  { intros b P HS HP Q. apply starts_quote in Q. eapply starts_disjoint; [exact HS|exact Q|].
    intros c H1 H2. apply mem_in in H2. destruct H2 as [<-|[]]. congruence. }
  destruct ty; try congruence; try (exfalso; apply Ht; cbn; tauto).
  - rename Hb into Hl. assert (HS := starts_atx x Hl).
    split; [split|].
    + eapply S; [exact HS|reflexivity].
    + unfold continuation_line. tauto.
    + eapply U; [exact HS|reflexivity|reflexivity].
  - destruct Hb as [Hl _].
    split; [split|]; [| |].
    + intros Q. eapply starts_not_blank; [apply starts_quote; exact Q|exact Hl].
    + unfold continuation_line. tauto.
    + intros Q. eapply starts_not_blank; [apply underline_starts; exact Q|exact Hl].
  - destruct Hb as [Hl Hu]. assert (HS := starts_bullet x Hl). split; [split|].
    + eapply S; [exact HS|reflexivity].
    + unfold continuation_line. tauto.
    + exact Hu.
  - destruct Hb as [F Hi].
    assert (HS := starts_fence x F). split; [split|].
    + eapply S; [exact HS|reflexivity].
    + unfold continuation_line. tauto.
    + eapply U; [exact HS|reflexivity|reflexivity].
  - assert (HS := starts_ordered x Hb). split; [split|].
    + eapply S; [exact HS|reflexivity].
    + unfold continuation_line. tauto.
    + eapply U; [exact HS|reflexivity|reflexivity].
  - destruct Hb as [Hh Hi]. assert (HS := starts_table x Hh). split; [split|].
    + eapply S; [exact HS|reflexivity].
    + unfold continuation_line. tauto.
    + eapply U; [exact HS|reflexivity|reflexivity].
  - rename Hb into Hl. assert (HS := starts_thematic x Hl).
    split; [split|].
    + eapply S; [exact HS|reflexivity].
    + unfold continuation_line. tauto.
    + intros Q. apply underline_starts in Q. destruct HS as (ws & c & body & E & Hw & Hc & Hm & _).
      destruct Q as (ws' & c' & body' & E' & Hw' & Hc' & Hm' & _).
      rewrite E in E'. apply first_char_unique in E'; try assumption. destruct E' as (_ & <- & _).
      apply mem_in in Hm. apply mem_in in Hm'. cbn in Hm, Hm'.
      destruct Hm' as [<-|[<-|[]]]; [intuition discriminate|].
      apply (Hd eq_refl). exists ws, body, ls. rewrite E. auto.
Qed.

Lemma take_fenced_closed fence body close rest :
  Forall (fun x => ~ closes fence x) body -> closes fence close ->
  (forall x, str_eqb (strip x) fence = true <-> closes fence x) ->
  take_fenced fence (body ++ close :: rest) = (body ++ [close], rest).
Proof.
  intros Hb Hc Hs. induction Hb as [|x body Hx Hb IH]; cbn [app take_fenced].
  - apply Hs in Hc. rewrite Hc. reflexivity.
  - destruct (str_eqb (strip x) fence) eqn:E; [apply Hs in E; contradiction|]. rewrite IH. reflexivity.
Qed.

Lemma section_ends ty ls next :
  block ty ls -> Forall one_line ls -> ends_before ty ls next -> Forall headed next ->
  forall sbq, (forall l rest, is_explicit_block_quote_line l = false -> sbq (l :: rest) = Ok ([], l :: rest)) ->
  quote_next sbq next ->
  first_split (SPLITTERS sbq) (ls ++ lines_of next) = Ok ((ty, ls), lines_of next).
Proof.
  intros Hb Ho He Hs sbq Hq Hqn. destruct ty; cbn [block] in Hb; try contradiction.
  - destruct Hb as (l & -> & Hl). apply first_split_atx. exact Hl.
  - destruct Hb as (l & -> & Hl). apply first_split_blank. exact Hl.
  - destruct Hb as (ws & c & n & info & body & close & -> & Hw & Hc & Hn & Hi & Hbody & Hclose & Hind).
    assert (Hsp : is_space c = false) by (destruct Hc as [<-|[<-|[]]]; reflexivity).
    cbn [app]. rewrite <- app_assoc. cbn [app].
    apply first_split_fenced with (fence := repeat c n).
    + exact Hq.
    + exists ws, c, n, info. repeat (split; [assumption || reflexivity|]). split; [|reflexivity].
      intros info' ->. apply (Hi [] info'); [reflexivity|constructor].
    + exact Hind.
    + destruct n as [|n]; [lia|]. apply take_fenced_closed; try assumption.
      intros x. rewrite str_eqb_eq. apply closes_spec. exact Hsp.
  - destruct Hb as (l & more & -> & Hi & Hf & Hm). cbn [app].
    destruct (first_split_indented sbq Hq l (more ++ lines_of next) Hi Hf) as (close & Ec & ->).
    assert (close = length (l :: more)) as ->.
    { subst close. destruct He as [[Hl He]|(final & next' & -> & He)].
      - cbn [length] in *. destruct more; [|discriminate]. apply indented_close_stop; assumption.
      - rewrite lines_of_cons. cbn [app length]. inversion Hs as [|? ? Hb' Hs']; subst.
        rewrite indented_close_code; [lia|exact Hm| |].
        + destruct Hb' as (x & ? & E & Hx). injection E as <- _. exact Hx.
        + intros j. apply indented_close_stop; assumption. }
    change (l :: more ++ lines_of next) with ((l :: more) ++ lines_of next).
    rewrite firstn_exact, skipn_exact. reflexivity.
  - destruct Hb as (l & body & link & -> & Hl & Hw).
    apply first_split_lrd; [exact Hq| |discriminate]. right. left.
    exists body, link, [l], []. split; [left; exists l; auto|]. split; [exact Hw|]. split; [reflexivity|].
    left. split; [reflexivity|]. destruct He as (ty' & ls' & next' & -> & Hquote).
    rewrite lines_of_cons. inversion Hs as [|? ? Hb' _]; subst.
    destruct ls' as [|x ls']; [destruct Hb' as (? & ? & E & _); discriminate|].
    exists x, (ls' ++ lines_of next'). split; [reflexivity|]. intros q t -> Hqq.
    apply (Hquote q Hqq). exists [], t, ls'. split; [reflexivity|]. split; [constructor|].
    destruct Hqq as [->| ->]; reflexivity.
  - destruct (paragraph_end sbq next Hq Hs Hqn He) as [H1 H2]. apply first_split_plain; assumption.
  - destruct Hb as (text & u & -> & Hp & Hu). rewrite <- app_assoc. apply first_split_setext; assumption.
  - destruct Hb as (h & d & b & hs & ds & bss & -> & Hi & Hh & Hd & Hbs & _).
    cbn [app]. change (d :: b ++ lines_of next) with ((d :: b) ++ lines_of next).
    apply first_split_table; [exact Hq|exact Hi| |].
    + constructor; [eapply header_table_line; exact Hh|]. constructor; [eapply row_table_line; exact Hd|].
      clear -Hbs. induction Hbs; constructor; [eapply row_table_line; eassumption|assumption].
    + intros x r E (ws & t & -> & Hw). inversion Hs as [|[ty' ls'] next' Hb' Hs']; subst; [discriminate|].
      rewrite lines_of_cons in E. destruct ls' as [|y ls']; [destruct Hb' as (? & ? & E' & _); discriminate|].
      injection E as -> _. apply (He ty' _ next' eq_refl). exists ws, t, ls'. auto.
  - destruct Hb as (l & -> & Hl & Hnb). apply first_split_thematic; assumption.
Qed.

Lemma structured_headed secs : structured secs -> Forall headed secs.
Proof. intros H. induction H; constructor; auto using block_headed. Qed.

Lemma structured_no_quote sbq secs : structured secs -> quote_next sbq secs.
Proof. intros H ls next' ->. inversion H as [|? ? ? Hb _ _ _]; subst. destruct Hb. Qed.

Lemma structured_parse lim secs :
  structured secs -> parse_markdown (S lim) (lines_of secs) = Ok secs.
Proof.
  intros H. unfold parse_markdown, parse_with.
  assert (G : forall n, length (lines_of secs) <= n ->
    parse_loop (split_block_quote (S lim)) n (lines_of secs) = Ok secs); [|apply G, le_n].
  induction H as [|ty ls next Hb Ho He H IH]; intros n Hn; [destruct n; reflexivity|].
  assert (E := section_ends ty ls next Hb Ho He (structured_headed _ H) (split_block_quote (S lim)) (sbq_no_S lim)
    (structured_no_quote _ _ H)).
  rewrite lines_of_cons in *. rewrite app_length in Hn.
  assert (Hne := block_ne ty ls Hb). destruct ls as [|l ls]; [congruence|]. cbn [length app] in *.
  destruct n as [|n]; [lia|]. cbn [parse_loop]. rewrite E. cbn [bind]. rewrite IH by lia. reflexivity.
Qed.

(** * Formatting the sections of a structured document *)

(** No whitespace at the end. *)
Definition tidy (l : str) : Prop := forall s c, l = s ++ [c] -> is_space c = false.

Lemma tidy_snoc s c : is_space c = false -> tidy (s ++ [c]).
Proof. intros H t d E. apply app_inj_tail in E. destruct E as [_ <-]. exact H. Qed.

Lemma tidy_app a b : tidy b -> b <> [] -> tidy (a ++ b).
Proof.
  intros H Hn. destruct b as [|c b _] using rev_ind; [congruence|]. rewrite app_assoc. apply tidy_snoc.
  exact (H b c eq_refl).
Qed.

Lemma tidy_rstrip l : tidy (rstrip l).
Proof. intros s c E. eapply rstrip_by_last. exact E. Qed.

Lemma tidy_id l : tidy l -> rstrip l = l.
Proof.
  intros H. destruct l as [|c l _] using rev_ind; [reflexivity|]. apply rstrip_by_snoc. exact (H l c eq_refl).
Qed.

Lemma tidy_strip l : tidy (strip l).
Proof. unfold strip. apply tidy_rstrip. Qed.

(** A line that does not end in a label and a colon. *)
Definition unlabelled (l : str) : Prop := forall p, l <> p ++ lit "]:".

Lemma unlabelled_last s c : c <> c_colon -> unlabelled (s ++ [c]).
Proof.
  intros H p E. change (lit "]:") with ([c_rbr] ++ [c_colon]) in E. rewrite app_assoc in E.
  apply app_inj_tail in E. destruct E as [_ E]. congruence.
Qed.

Lemma unlabelled_app a b : unlabelled b -> (forall a', a <> a' ++ [c_rbr]) ->
  b <> [] -> unlabelled (a ++ b).
Proof.
  intros Hb Ha Hn p E. destruct b as [|c b _] using rev_ind; [congruence|]. clear Hn.
  change (lit "]:") with ([c_rbr] ++ [c_colon]) in E. rewrite !app_assoc in E.
  apply app_inj_tail in E. destruct E as [E ->].
  destruct b as [|d b _] using rev_ind.
  - rewrite app_nil_r in E. apply (Ha p). exact E.
  - rewrite app_assoc in E. apply app_inj_tail in E. destruct E as [E ->].
    apply (Hb b). rewrite <- app_assoc. reflexivity.
Qed.

Lemma steady_unlabelled a b ws : ~ stops_short (a ++ b ++ ws) -> spaces ws -> unlabelled b.
Proof.
  intros H Hw p ->. apply H. right. exists (a ++ p), ws. split; [rewrite <- !app_assoc; reflexivity|exact Hw].
Qed.

Lemma unlabelled_rstrip l : ~ stops_short l -> unlabelled (rstrip l).
Proof.
  intros H. destruct (rstrip_by_spec is_space l) as (post & E & Hp). fold (rstrip l) in E.
  rewrite E in H. apply (steady_unlabelled [] _ post H). apply spaces_forallb. exact Hp.
Qed.

Lemma tidy_steady l : tidy l -> unlabelled l -> ~ stops_short l.
Proof.
  intros H1 H2 [(p & ->)|(p & ws & -> & Hw)].
  - change (lit "  ") with ([c_sp] ++ [c_sp]) in H1. rewrite app_assoc in H1. specialize (H1 _ _ eq_refl). discriminate.
  - destruct ws as [|c ws _] using rev_ind; [apply (H2 p); rewrite app_nil_r; reflexivity|].
    rewrite !app_assoc in H1. specialize (H1 _ _ eq_refl). apply Forall_app in Hw. destruct Hw as [_ Hw].
    apply Forall_inv in Hw. congruence.
Qed.

Lemma labelless_unlabelled l : labelless l -> unlabelled l.
Proof. intros H p E. apply (H p []). rewrite app_nil_r. exact E. Qed.

Definition in_ink (ls : list str) : Prop :=
  exists c t rest, ls = (c :: t) :: rest /\ is_space c = false.

Lemma begins_unique x ws c t rest :
  spaces ws -> is_space c = false -> begins x ((ws ++ c :: t) :: rest) -> x = c.
Proof.
  intros Hw Hc (v & b & r & E & Hv & Hx). injection E as E _.
  apply first_char_unique in E; try assumption. destruct E as (_ & -> & _). reflexivity.
Qed.

(** What a section says is determined. *)
Lemma run_unique (c : char) n m b b' : repeat c n ++ b = repeat c m ++ b' ->
  (forall t, b <> c :: t) -> (forall t, b' <> c :: t) -> n = m /\ b = b'.
Proof.
  revert m. induction n as [|n IH]; intros [|m] E H H'; cbn [repeat app] in E.
  - auto.
  - exfalso. eapply H. exact E.
  - exfalso. eapply H'. symmetry. exact E.
  - injection E as E. destruct (IH m E H H') as [-> ->]. auto.
Qed.

Lemma trims_unique s r r' : trims s r -> trims s r' -> r = r'.
Proof. intros H H'. apply trims_strip in H, H'. congruence. Qed.

Lemma rtrims_unique s r r' : rtrims s r -> rtrims s r' -> r = r'.
Proof. intros H H'. apply rtrims_rstrip in H, H'. congruence. Qed.

Lemma Forall2_unique {A B} (R : A -> B -> Prop) : (forall a b b', R a b -> R a b' -> b = b') ->
  forall l k k', Forall2 R l k -> Forall2 R l k' -> k = k'.
Proof.
  intros H l k k' F. revert k'. induction F; intros k' F'; inversion F'; subst; [reflexivity|]. f_equal; eauto.
Qed.

Lemma divides_unique d a b : divides d a -> divides d b -> a = b.
Proof.
  intros (t & Ht & H1 & H2) (t' & Ht' & H1' & H2'). assert (E := trims_unique _ _ _ Ht Ht'). subst t'.
  destruct a as [[] []], b as [[] []]; cbn in *; intuition discriminate.
Qed.

Definition sayer (p : saying) : section_type :=
  match p with
  | Blank => BLANK_LINE | Heading _ _ => ATX_HEADING | Rule _ => THEMATIC_BREAK
  | Fenced _ _ _ => FENCED_CODE_BLOCK | Indented _ => INDENTED_CODE_BLOCK | Table _ _ _ => TABLE
  | Link _ _ => LINK_REFERENCE_DEFINITION | Text _ => PARAGRAPH | Title _ _ => SETEXT_HEADING
  end.

Lemma content_kind ty ls p : content ty ls p -> ty = sayer p.
Proof. destruct p; cbn [content sayer]; tauto. Qed.

Lemma content_unique ty ls p p' : content ty ls p -> content ty ls p' -> p = p'.
Proof.
  intros H H'. assert (K := content_kind _ _ _ H). assert (K' := content_kind _ _ _ H').
  destruct p, p'; cbn [sayer] in K, K'; try congruence; subst ty; clear K'; cbn [content] in H, H';
    destruct H as [_ H]; destruct H' as [_ H'].
  - destruct H' as (ws' & body' & E' & Hw' & Hn' & Hb' & Ht'). destruct H as (ws & body & E & Hw & Hn & Hb & Ht).
    rewrite E in E'. injection E' as E'. destruct level as [|n]; [lia|]. destruct level0 as [|n']; [lia|]. cbn [repeat app] in E'.
    apply first_char_unique in E'; [|assumption|assumption|reflexivity|reflexivity]. destruct E' as (_ & _ & E').
    apply run_unique in E'; [|assumption|assumption]. destruct E' as [-> ->]. f_equal. eapply trims_unique; eassumption.
  - destruct H' as (ws & t & rest & -> & Hw & Hc). apply begins_unique in H; [|assumption|assumption]. congruence.
  - destruct H' as (ws' & c' & n' & info' & body' & close' & E' & Ef' & Hw' & Hc' & Hi' & Ht' & Hb').
    destruct H as (ws & c & n & inf & body & close & E & Ef & Hw & Hc & Hi & Ht & Hb).
    rewrite E in E'. injection E' as E1 E2. apply app_inj_tail in E2. destruct E2 as [<- _]. subst fence fence0.
    cbn [repeat app] in E1. apply first_char_unique in E1; try assumption. destruct E1 as (_ & <- & E1).
    apply run_unique in E1; [|assumption|assumption]. destruct E1 as [<- <-]. f_equal; [eapply trims_unique; eassumption|].
    eapply Forall2_unique; [apply rtrims_unique|eassumption|eassumption].
  - f_equal. eapply Forall2_unique; [apply rtrims_unique|eassumption|eassumption].
  - destruct H' as (l' & d' & b' & hs' & ds' & bss' & E' & Hh' & Hd' & Hb' & T1' & T2' & T3').
    destruct H as (l & d & b & hs & ds & bss & E & Hh & Hd & Hb & T1 & T2 & T3).
    rewrite E in E'. injection E' as <- <- <-.
    apply table_cells_header in Hh, Hh'. apply table_cells_row in Hd, Hd'.
    assert (bss' = bss) as ->.
    { clear -Hb Hb'. revert bss' Hb'. induction Hb as [|x y l k Hx _ IH]; intros bss' Hb'; inversion Hb' as [|x' ? l' ? Hx' Hl']; subst; [reflexivity|].
      apply table_cells_row in Hx, Hx'. f_equal; [congruence|auto]. }
    subst hs hs' ds ds'. f_equal.
    + eapply Forall2_unique; [apply trims_unique|eassumption|eassumption].
    + eapply Forall2_unique; [apply divides_unique|eassumption|eassumption].
    + eapply Forall2_unique; [|eassumption|eassumption]. apply Forall2_unique. apply trims_unique.
  - destruct H' as (ws' & body' & E' & Hw' & Hl' & Ht'). destruct H as (ws & body & E & Hw & Hl & Ht).
    rewrite E in E'. injection E' as E'. apply first_char_unique in E'; [|assumption|assumption|reflexivity|reflexivity].
    destruct E' as (_ & _ & E').
    assert (G : label = label0 /\ body = body').
    { clear -E' Hl Hl'. revert label0 E' Hl'. induction Hl as [|x l Hx _ IH]; intros [|y l'] E' Hl'; cbn [app] in E'.
      - injection E' as <-. auto.
      - injection E' as <- _. apply Forall_inv in Hl'. congruence.
      - injection E' as -> _. congruence.
      - injection E' as <- E'. inversion Hl'; subst. destruct (IH l' E') as [-> ->]; auto. }
    destruct G as [<- <-]. congruence.
  - f_equal. eapply prose_unique; eassumption.
  - destruct H' as (text' & u' & E' & Hp' & Hu'). destruct H as (text & u & E & Hp & Hu).
    rewrite E in E'. apply app_inj_tail in E'. destruct E' as [<- <-].
    destruct Hu' as (ws & t & rest & Eu & Hw & Hc). rewrite Eu in Hu. apply begins_unique in Hu; [|assumption|assumption].
    f_equal; [exact Hu|eapply prose_unique; eassumption].
Qed.

Lemma same_content_intro ty ls ls' p : content ty ls p -> content ty ls' p -> same_content ty ls ls'.
Proof.
  intros H H' q. split; intros G.
  - rewrite (content_unique ty ls q p G H). exact H'.
  - rewrite (content_unique ty ls' q p G H'). exact H.
Qed.

Record formatted (lim : nat) (w : width) (ty : section_type) (ls ls' : list str) : Prop := {
  formatted_block : block ty ls';
  formatted_one_line : Forall one_line ls';
  formatted_text : forall i, section_text lim w i ty ls (str_join [c_nl] ls');
  formatted_stable : forall i, section_text lim w i ty ls' (str_join [c_nl] ls');
  formatted_begins : forall x, begins x ls' -> begins x ls;
  formatted_length : ty = INDENTED_CODE_BLOCK -> length ls' = length ls;
  formatted_trim : ty <> ATX_HEADING -> ty <> BLANK_LINE ->
    (ty = INDENTED_CODE_BLOCK -> length ls = 1) ->
    exists front y c, ls' = front ++ [y ++ [c]] /\ is_space c = false;
  formatted_ink : ty <> BLANK_LINE -> ty <> INDENTED_CODE_BLOCK -> in_ink ls';
  formatted_tidy : ty <> ATX_HEADING -> Forall tidy ls';
  formatted_steady : Forall (fun l => ~ stops_short l) ls -> Forall unlabelled ls';
  formatted_content : same_content ty ls ls';
  formatted_lines : exists p, content ty ls p /\ ls' = leaf_lines w p
}.

Lemma begins_of ws c t rest : spaces ws -> is_space c = false -> begins c ((ws ++ c :: t) :: rest).
Proof. intros Hw Hc. exists ws, t, rest. auto. Qed.

Lemma begins_same ws c t rest c' t' rest' x :
  spaces ws -> is_space c = false -> c' = c ->
  begins x ((c' :: t') :: rest') -> begins x ((ws ++ c :: t) :: rest).
Proof.
  intros Hw Hc -> H. apply (begins_unique x [] c t' rest') in H; [|constructor|exact Hc].
  subst x. apply begins_of; assumption.
Qed.

Lemma begins_words x l ls : begins x (l :: ls) <-> exists w more, words l = (x :: w) :: more.
Proof.
  split.
  - intros (ws & t & rest & E & Hw & Hx). injection E as -> _. rewrite first_word by assumption.
    eexists. eexists. reflexivity.
  - intros (w & more & E). destruct (lead_decomp l) as (ws & El & Hw & Hh).
    assert (E' := words_lstrip l). rewrite E in E'.
    destruct (lstrip l) as [|c t] eqn:Es; [discriminate|]. clear Hh.
    assert (Hh := lstrip_by_head is_space l c t Es).
    rewrite words_take in E' by exact Hh. cbn [take_while] in E'. unfold not_space at 1 in E'. rewrite Hh in E'.
    injection E' as -> _ _. rewrite El. exists ws, t, ls. auto.
Qed.

Lemma text_head l ls ps : text_line l -> text_pieces (l :: ls) ps ->
  exists c x f ps', ps = (c :: x, f) :: ps' /\ begins c (l :: ls).
Proof.
  intros (_ & (w & more & Ew & _) & _) Hp. destruct w as [|c w].
  { assert (G := words_nonspace l). rewrite Ew in G. apply Forall_inv in G. destruct G as [G _]. congruence. }
  assert (B : begins c (l :: ls)) by (apply begins_words; eauto). assert (B' := B). destruct B' as (ws & t & rest & E & Hw & Hc).
  injection E as -> _. unfold text_pieces in Hp. cbn [map] in Hp.
  destruct (strip_app_lead ws c t Hw Hc) as (s & Es & _). rewrite Es in Hp.
  assert (Ej : exists t', str_join [c_sp] ((c :: s) :: map strip ls) = c :: t') by (destruct ls; eexists; reflexivity).
  destruct Ej as (t' & Ej). destruct (prose_head _ _ _ c t' Hp Ej Hc) as (x & f & ps' & ->). eauto 6.
Qed.

Lemma begins_text ls ls' ps x : ls <> [] -> ls' <> [] ->
  Forall text_line ls -> Forall text_line ls' ->
  text_pieces ls ps -> text_pieces ls' ps -> begins x ls' -> begins x ls.
Proof.
  intros H1 H2 Ht Ht' Hp Hp' Hb. destruct ls as [|l ls]; [congruence|]. destruct ls' as [|l' ls']; [congruence|].
  destruct (text_head _ _ _ (Forall_inv Ht) Hp) as (c & y & f & ps' & Ep & B).
  destruct (text_head _ _ _ (Forall_inv Ht') Hp') as (c' & y' & f' & ps'' & Ep' & B').
  rewrite Ep in Ep'. injection Ep' as <- _ _ _. destruct B' as (ws & t & rest & E & Hw & Hc). rewrite E in Hb.
  apply begins_unique in Hb; [|assumption|assumption]. subst x. exact B.
Qed.

Lemma format_atx_heading lim w l level text : atx_heading l level text -> one_line l ->
  formatted lim w ATX_HEADING [l] [repeat c_hash level ++ [c_sp] ++ text].
Proof.
  intros H Ho.
  assert (T := fun i => C17_atx_heading lim w i l level text H). cbv zeta in T.
  constructor.
  - exists (repeat c_hash level ++ [c_sp] ++ text). split; [reflexivity|].
    apply atx_line_heading. exists level, text. apply (T 0).
  - constructor; [|constructor]. apply (T 0). exact Ho.
  - intros i. apply (T i).
  - intros i. apply (T i).
  - destruct H as (ws & body & -> & Hw & _ & Hn & _). destruct level as [|n]; [lia|].
    intros x. cbn [repeat app]. apply begins_same; auto.
  - discriminate.
  - congruence.
  - intros _ _. destruct H as (ws & body & -> & Hw & _ & Hn & _). destruct level as [|n]; [lia|].
    exists c_hash, (repeat c_hash n ++ [c_sp] ++ text), []. split; reflexivity.
  - congruence.
  - intros Hs. constructor; [|constructor]. destruct H as (ws & body & -> & _ & _ & _ & _ & Ht).
    apply trims_strip in Ht. apply Forall_inv in Hs. destruct (strip_spec body) as (pre & post & E & _ & Hp).
    rewrite <- Ht in E.
    destruct text as [|c text].
    + rewrite app_assoc, app_nil_r. apply unlabelled_last. discriminate.
    + rewrite app_assoc. apply unlabelled_app; [| |discriminate].
      * rewrite E in Hs. rewrite !app_assoc in Hs. rewrite <- app_assoc in Hs.
        eapply steady_unlabelled; [exact Hs|]. apply spaces_forallb. exact Hp.
      * intros a' Ea. apply app_inj_tail in Ea. destruct Ea as [_ Ea]. discriminate.
  - assert (C : forall l, atx_heading l level text -> content ATX_HEADING [l] (Heading level text)).
    { intros x (ws & body & -> & Hw & _ & Hn & Hb & Ht). split; [reflexivity|]. exists ws, body. auto 6. }
    apply (same_content_intro _ _ _ (Heading level text)); apply C; [exact H|apply (T 0)].
  - exists (Heading level text). split; [|reflexivity]. destruct H as (ws & body & -> & Hw & _ & Hn & Hb & Ht).
    split; [reflexivity|]. exists ws, body. auto 6.
Qed.

Lemma format_atx lim w l : atx_line l -> one_line l ->
  exists r, formatted lim w ATX_HEADING [l] [r].
Proof.
  intros H Ho. apply atx_line_heading in H. destruct H as (level & text & H).
  eexists. apply format_atx_heading; eassumption.
Qed.

Lemma format_blank lim w l : blank_line l -> formatted lim w BLANK_LINE [l] [[]].
Proof.
  intros H. constructor.
  - exists []. split; [reflexivity|constructor].
  - repeat constructor.
  - reflexivity.
  - reflexivity.
  - intros x (ws & t & rest & E & _). destruct ws; discriminate.
  - discriminate.
  - congruence.
  - congruence.
  - intros _. constructor; [|constructor]. intros [|? ?] c E; discriminate.
  - intros _. constructor; [|constructor]. intros [|? ?] E; discriminate.
  - apply (same_content_intro _ _ _ Blank); reflexivity.
  - exists Blank. split; reflexivity.
Qed.

Lemma format_thematic lim w l : wide w -> thematic_line l -> ~ bullet_line l -> one_line l ->
  exists r, formatted lim w THEMATIC_BREAK [l] [r].
Proof.
  intros Hw Ht Hb Ho. assert (T := Ht). destruct T as (c & ws & body & -> & Hs & _ & Hc & _).
  assert (Hsp := thematic_char_not_space c Hc).
  assert (T : thematic (ws ++ c :: body) c) by (split; [exact Ht|exists ws, body; auto]).
  assert (G : exists n, 3 <= n /\ leaf_lines w (Rule c) = [repeat c n] /\ forall i l', thematic l' c ->
             section_text lim w i THEMATIC_BREAK [l'] (repeat c n)).
  { destruct Hw as [->|(z & -> & Hz)].
    - exists 3. split; [lia|]. split; [reflexivity|]. intros i l' H'. apply (C19_thematic_break lim i l' c H').
    - exists (Z.to_nat z). split; [lia|]. split; [reflexivity|]. intros i l' H'. apply (C19_thematic_break lim i l' c H'). }
  destruct G as (n & Hn & Hr & G). exists (repeat c n).
  assert (Tr : thematic (repeat c n) c).
  { split; [apply thematic_line_repeat; assumption|]. destruct n as [|n]; [lia|].
    exists [], (repeat c n). repeat split; auto. constructor. }
  constructor.
  - exists (repeat c n). split; [reflexivity|]. split; [apply Tr|].
    intros (v & b & t & E & Hv & _ & Hb'). destruct n as [|[|n]]; try lia. cbn [repeat] in E.
    change (c :: c :: repeat c n) with ([] ++ c :: c :: repeat c n) in E.
    apply first_char_unique in E; [|constructor|exact Hv|exact Hsp|apply bullet_chars_not_space; exact Hb'].
    destruct E as (_ & _ & E). injection E as E _. subst c. discriminate.
  - constructor; [|constructor]. apply Forall_rep. cbn in Hc. intuition (subst; reflexivity).
  - intros i. cbn [str_join]. apply G. exact T.
  - intros i. cbn [str_join]. apply G. exact Tr.
  - intros x. destruct n as [|n]; [lia|]. cbn [repeat]. apply begins_same; auto.
  - discriminate.
  - intros _ _ _. destruct n as [|n]; [lia|]. exists [], (repeat c n), c. rewrite <- repeat_snoc. auto.
  - intros _ _. destruct n as [|n]; [lia|]. exists c, (repeat c n), []. split; [reflexivity|exact Hsp].
  - intros _. constructor; [|constructor]. destruct n as [|n]; [lia|]. rewrite repeat_snoc. apply tidy_snoc. exact Hsp.
  - intros _. constructor; [|constructor]. destruct n as [|n]; [lia|]. rewrite repeat_snoc. apply unlabelled_last.
    intros ->. cbn in Hc. intuition discriminate.
  - apply (same_content_intro _ _ _ (Rule c)); (split; [reflexivity|]); [apply begins_of; assumption|].
    destruct n as [|n]; [lia|]. apply (begins_of [] c (repeat c n)); [constructor|exact Hsp].
  - exists (Rule c). split; [|symmetry; exact Hr]. split; [reflexivity|]. apply begins_of; assumption.
Qed.

Lemma closes_rstrip c n x : is_space c = false ->
  closes (repeat c (S n)) (rstrip x) -> closes (repeat c (S n)) x.
Proof. intros Hc. rewrite <- !closes_spec by exact Hc. rewrite strip_rstrip. auto. Qed.

Lemma rtrims_map body : Forall2 rtrims body (map rstrip body).
Proof. induction body; cbn [map]; constructor; [apply rtrims_rstrip; reflexivity|assumption]. Qed.

Lemma format_fenced lim w ls : block FENCED_CODE_BLOCK ls -> Forall one_line ls ->
  exists ls', formatted lim w FENCED_CODE_BLOCK ls ls'.
Proof.
  intros (ws & c & n & info & body & close & -> & Hw & Hc & Hn & Hi & Hb & Hcl & Hind) Ho.
  assert (Hsp : is_space c = false) by (destruct Hc as [<-|[<-|[]]]; reflexivity).
  destruct n as [|n]; [lia|]. set (fence := repeat c (S n)) in *.
  assert (Hi0 : forall info', info <> c :: info').
  { intros info' ->. apply (Hi [] info'); [reflexivity|constructor]. }
  assert (Hi' : forall ws' info', strip info = ws' ++ c :: info' -> ~ spaces ws').
  { intros ws' info' E Hws. destruct (strip_spec info) as (pre & post & Ei & Hpre & _).
    apply (Hi (pre ++ ws') (info' ++ post)).
    - rewrite Ei, E, <- !app_assoc. reflexivity.
    - apply Forall_app. split; [apply spaces_forallb; exact Hpre|exact Hws]. }
  assert (E1 : forall v info0 body0 i, spaces v -> (forall t, info0 <> c :: t) ->
    forall close0, closes fence close0 -> Forall one_line ((v ++ fence ++ info0) :: body0 ++ [close0]) ->
    section_text lim w i FENCED_CODE_BLOCK ((v ++ fence ++ info0) :: body0 ++ [close0])
      (str_join [c_nl] ((fence ++ strip info0) :: map rstrip body0 ++ [fence]))).
  { intros v info0 body0 i Hv Hin close0 Hc0 Ho0.
    assert (Hop : opens (v ++ fence ++ info0) fence) by (exists v, c, (S n), info0; auto 8).
    destruct (C15_fenced_code_partial lim w i _ body0 close0 fence Hop Hc0 Ho0)
      as (r & Hr & v' & inf & inf' & body' & El & Hv' & Ht & Hbb & (-> & _)).
    unfold fence in El. cbn [repeat app] in El. apply first_char_unique in El; try assumption.
    destruct El as (_ & _ & El). apply app_inv_head in El. subst inf.
    apply trims_strip in Ht. subst inf'.
    assert (body' = map rstrip body0) as ->; [|exact Hr].
    clear -Hbb. induction Hbb as [|x y l l' H Hbb IH]; [reflexivity|]. cbn. apply rtrims_rstrip in H. congruence. }
  inversion Ho as [|? ? Ho1 Ho2]; subst. apply Forall_app in Ho2. destruct Ho2 as [Hob Hoc].
  apply Forall_app in Ho1. destruct Ho1 as [_ Ho1]. change (one_line (fence ++ info)) in Ho1. unfold one_line in Ho1. apply (proj1 (Forall_app _ fence info)) in Ho1. destruct Ho1 as [Hof Hoi].
  assert (Ho' : Forall one_line ((fence ++ strip info) :: map rstrip body ++ [fence])).
  { constructor; [apply Forall_app; split; [exact Hof|apply Forall_strip; exact Hoi]|].
    apply Forall_app. split; [|constructor; [exact Hof|constructor]].
    clear -Hob. induction Hob; cbn; constructor; auto. apply rstrip_one_line. assumption. }
  assert (Hcf : closes fence fence) by (exists [], []; rewrite app_nil_r; repeat split; constructor).
  exists ((fence ++ strip info) :: map rstrip body ++ [fence]). constructor.
  - exists [], c, (S n), (strip info), (map rstrip body), fence. split; [reflexivity|].
    split; [constructor|]. split; [exact Hc|]. split; [exact Hn|]. split; [exact Hi'|].
    split; [|split; [exact Hcf|]].
    + clear -Hb Hsp. induction Hb as [|x body Hx Hb IH]; cbn; constructor; [|exact IH].
      intros H. apply Hx. apply closes_rstrip; assumption.
    + intros Hx. apply indented_spec in Hx. unfold fence in Hx. cbn [repeat app] in Hx.
      assert (G := not_indented [] c (repeat c n ++ strip info)). cbn [app] in G.
      rewrite G in Hx; [discriminate|constructor|exact Hsp].
  - exact Ho'.
  - intros i. apply E1; assumption.
  - intros i. rewrite <- (strip_idem info) at 2.
    replace (map rstrip body) with (map rstrip (map rstrip body)) at 2
      by (rewrite map_map; apply map_ext; intros x; apply rstrip_by_idem).
    apply (E1 [] (strip info) (map rstrip body) i); try assumption; [constructor|].
    intros t Et. apply (Hi' [] t); [exact Et|constructor].
  - intros x. unfold fence. cbn [repeat app]. apply begins_same; auto.
  - discriminate.
  - intros _ _ _. exists ((fence ++ strip info) :: map rstrip body), (repeat c n), c.
    rewrite <- repeat_snoc. auto.
  - intros _ _. unfold fence. cbn [repeat app]. eexists. eexists. eexists. split; [reflexivity|exact Hsp].
  - intros _. assert (Hf : tidy fence) by (unfold fence; rewrite repeat_snoc; apply tidy_snoc; exact Hsp).
    constructor; [|apply Forall_app; split; [|constructor; [exact Hf|constructor]]].
    + destruct (strip info) eqn:Es; [rewrite app_nil_r; exact Hf|]. rewrite <- Es.
      apply tidy_app; [apply tidy_strip|rewrite Es; discriminate].
    + apply Forall_map. apply Forall_forall. intros x _. apply tidy_rstrip.
  - intros Hs. assert (Hf : unlabelled fence).
    { unfold fence. rewrite repeat_snoc. apply unlabelled_last. intros ->. cbn in Hc. intuition discriminate. }
    inversion Hs as [|? ? Hs1 Hs2]; subst. apply Forall_app in Hs2. destruct Hs2 as [Hs2 _].
    constructor; [|apply Forall_app; split; [|constructor; [exact Hf|constructor]]].
    + destruct (strip info) eqn:Es; [rewrite app_nil_r; exact Hf|]. rewrite <- Es. apply unlabelled_app.
      * destruct (strip_spec info) as (pre & post & E & _ & Hp). 
        apply (steady_unlabelled (ws ++ fence ++ pre) _ post); [rewrite <- !app_assoc, <- E; exact Hs1|]. apply spaces_forallb. exact Hp.
      * intros a'. unfold fence. rewrite repeat_snoc. intros Ea. apply app_inj_tail in Ea. destruct Ea as [_ ->].
        cbn in Hc. intuition discriminate.
      * rewrite Es. discriminate.
    + apply Forall_map. eapply Forall_impl; [|exact Hs2]. intros x. apply unlabelled_rstrip.
  - apply (same_content_intro _ _ _ (Fenced fence (strip info) (map rstrip body))); (split; [reflexivity|]).
    + exists ws, c, n, info, body, close. do 5 (split; [auto|]). split; [apply trims_strip; reflexivity|].
      apply rtrims_map.
    + exists [], c, n, (strip info), (map rstrip body), fence. split; [reflexivity|]. split; [reflexivity|].
      split; [constructor|]. split; [exact Hsp|]. split; [intros t Et; apply (Hi' [] t Et); constructor|].
      split; [apply trims_strip; symmetry; apply strip_idem|].
      replace (map rstrip body) with (map rstrip (map rstrip body)) at 2
        by (rewrite map_map; apply map_ext; intros x; apply rstrip_by_idem).
      apply rtrims_map.
  - exists (Fenced fence (strip info) (map rstrip body)). split; [|reflexivity]. split; [reflexivity|].
    exists ws, c, n, info, body, close. do 5 (split; [auto|]). split; [apply trims_strip; reflexivity|].
    apply rtrims_map.
Qed.

Lemma rstrip_lead ws c t : is_space c = false -> rstrip (ws ++ c :: t) = ws ++ c :: rstrip t.
Proof.
  intros Hc. unfold rstrip.
  assert (G : rstrip_by is_space (c :: t) = c :: rstrip_by is_space t).
  { cbn [rstrip_by]. destruct (rstrip_by is_space t); [rewrite Hc|]; reflexivity. }
  rewrite rstrip_by_app_ne by (rewrite G; discriminate). rewrite G. reflexivity.
Qed.

Lemma indented_rstrip l : indented_line l -> indented_line (rstrip l).
Proof.
  intros (ws & c & t & -> & Hw & Hc & Hl). rewrite rstrip_lead by exact Hc.
  exists ws, c, (rstrip t). auto.
Qed.

Lemma fence_rstrip l : fence_line (rstrip l) -> fence_line l.
Proof.
  intros (ws & c & body & E & Hw & Hin). destruct (rstrip_by_spec is_space l) as (post & El & _).
  fold (rstrip l) in El. rewrite E in El. exists ws, c, (body ++ post). split; [|auto].
  rewrite El, <- !app_assoc. reflexivity.
Qed.

Lemma blank_rstrip l : blank_line l -> rstrip l = [].
Proof. intros H. apply rstrip_by_nil, spaces_forallb. exact H. Qed.

Lemma format_indented lim w ls : block INDENTED_CODE_BLOCK ls -> Forall one_line ls ->
  formatted lim w INDENTED_CODE_BLOCK ls (map rstrip ls).
Proof.
  intros (l & more & -> & Hi & Hf & Hm) Ho. constructor.
  - exists (rstrip l), (map rstrip more). split; [reflexivity|]. split; [apply indented_rstrip; exact Hi|].
    split; [intros G; apply Hf, fence_rstrip; exact G|]. apply Forall_map.
    eapply Forall_impl; [|exact Hm]. intros x [Hx|Hx]; [left|right; apply indented_rstrip; exact Hx].
    unfold blank_line. rewrite blank_rstrip by exact Hx. constructor.
  - apply Forall_map. eapply Forall_impl; [|exact Ho]. intros x. apply rstrip_one_line.
  - reflexivity.
  - intros i. unfold section_text. cbn [reformatted]. unfold fmt_indented_code_block. rewrite map_map.
    do 2 f_equal. apply map_ext. intros x. apply rstrip_by_idem.
  - destruct Hi as (ws & c & t & -> & Hw & Hc & _). intros x. cbn [map]. rewrite rstrip_lead by exact Hc.
    intros H. apply begins_unique in H; [|assumption|assumption]. subst x. apply begins_of; assumption.
  - intros _. apply map_length.
  - intros _ _ L. specialize (L eq_refl). destruct more; [|discriminate]. cbn [map].
    destruct Hi as (ws & c & t & -> & _ & Hc & _).
    destruct (rstrip (ws ++ c :: t)) as [|d y _] eqn:E using rev_ind.
    + rewrite rstrip_lead in E by exact Hc. destruct ws; discriminate.
    + exists [], y, d. split; [reflexivity|]. eapply rstrip_by_last. exact E.
  - congruence.
  - intros _. apply Forall_map. apply Forall_forall. intros x _. apply tidy_rstrip.
  - intros Hs. apply Forall_map. eapply Forall_impl; [|exact Hs]. intros x. apply unlabelled_rstrip.
  - apply (same_content_intro _ _ _ (Indented (map rstrip (l :: more)))); (split; [reflexivity|]).
    + apply rtrims_map.
    + replace (map rstrip (l :: more)) with (map rstrip (map rstrip (l :: more))) at 2
        by (rewrite map_map; apply map_ext; intros x; apply rstrip_by_idem).
      apply rtrims_map.
  - exists (Indented (map rstrip (l :: more))). split; [|reflexivity]. split; [reflexivity|]. apply rtrims_map.
Qed.

Lemma words_none s : words s = [] -> spaces s.
Proof.
  induction s as [|c s IH]; intros H; [constructor|]. destruct (is_space c) eqn:Ec.
  - constructor; [exact Ec|]. apply IH. rewrite words_cons_space in H by exact Ec. exact H.
  - exfalso. rewrite words_take in H by (exact Ec). discriminate.
Qed.

Lemma one_word body link : words body = [link] -> strip body = link.
Proof.
  intros Hw. rewrite <- words_strip in Hw. destruct (strip body) as [|c t] eqn:Es; [discriminate|].
  assert (Hc := strip_head body c t Es). rewrite words_take in Hw by exact Hc.
  assert (E := take_lstrip_by not_space (c :: t)). set (x := take_while not_space (c :: t)) in *.
  set (y := lstrip_by not_space (c :: t)) in *. injection Hw as Hl Hr. rewrite Hl in E. clearbody x y. symmetry in E.
  assert (Hs : spaces y) by (apply words_none; exact Hr).
  destruct y as [|d y _] using rev_ind; [rewrite app_nil_r in E; symmetry; exact E|].
  exfalso. assert (T := tidy_strip body). rewrite Es in T. rewrite <- E, app_assoc in T. specialize (T _ _ eq_refl).
  apply Forall_app in Hs. destruct Hs as [_ Hs]. apply Forall_inv in Hs. congruence.
Qed.

Lemma format_definition lim w ls : block LINK_REFERENCE_DEFINITION ls -> Forall one_line ls ->
  exists r, formatted lim w LINK_REFERENCE_DEFINITION ls [r].
Proof.
  intros (l & body & link & -> & Hl & Hw) Ho.
  destruct Hl as (ws & label & -> & Hs & Hlen & Hlab & Hn).
  set (r := [c_lbr] ++ label ++ [c_rbr; c_colon] ++ [c_sp] ++ link).
  assert (Hlink : link <> [] /\ Forall (fun c => is_space c = false) link).
  { assert (G := words_nonspace body). rewrite Hw in G. exact (Forall_inv G). }
  assert (T : forall v b i, spaces v -> words b = [link] -> one_line (v ++ c_lbr :: label ++ c_rbr :: c_colon :: b) ->
     section_text lim w i LINK_REFERENCE_DEFINITION [v ++ c_lbr :: label ++ c_rbr :: c_colon :: b] r).
  { intros v b i Hv Hb Hob. unfold section_text. cbn [reformatted]. unfold fmt_link_reference_definition.
    rewrite (lrd_parts_spec _ label [link]).
    - cbn [bind hd tl]. destruct link as [|c link]; [exfalso; apply (proj1 Hlink); reflexivity|].
      cbn [nilb nth_line nth_error bind].
      assert (C : contains (c :: link) (v ++ c_lbr :: label ++ c_rbr :: c_colon :: b) = true).
      { apply contains_spec. destruct (word_infix (c :: link) b) as (x & y & E).
        { rewrite Hb. left. reflexivity. }
        exists (v ++ c_lbr :: label ++ c_rbr :: c_colon :: x), y. rewrite E.
        rewrite <- !app_assoc. cbn [app]. rewrite <- !app_assoc. reflexivity. }
      rewrite C. cbn [str_join words]. f_equal. unfold r. rewrite <- !app_assoc. reflexivity.
    - constructor; [exact Hob|constructor].
    - exists v, b, []. repeat (split; [assumption || reflexivity|]). symmetry. exact Hb. }
  assert (Er : r = [] ++ c_lbr :: label ++ c_rbr :: c_colon :: (c_sp :: link)) by reflexivity.
  assert (Hwr : words (c_sp :: link) = [link]).
  { rewrite words_cons_space by reflexivity. apply words_one; apply Hlink. }
  assert (Hor : one_line r).
  { apply Forall_inv in Ho. apply Forall_app in Ho. destruct Ho as [_ Ho]. inversion Ho as [|? ? _ Ho']; subst.
    apply Forall_app in Ho'. destruct Ho' as [Ho' _]. unfold r. constructor; [reflexivity|].
    apply Forall_app. split; [exact Ho'|]. repeat (constructor; [reflexivity|]).
    eapply Forall_impl; [|apply Hlink]. intros c Hc. destruct (is_linebreak c) eqn:Eb; [|reflexivity].
    apply linebreak_space in Eb. congruence. }
  exists r. constructor.
  - exists r, (c_sp :: link), link. split; [reflexivity|]. split; [|exact Hwr].
    exists [], label. rewrite Er. repeat split; auto; try lia; constructor.
  - constructor; [exact Hor|constructor].
  - intros i. cbn [str_join]. apply T; [exact Hs|exact Hw|exact (Forall_inv Ho)].
  - intros i. cbn [str_join]. rewrite Er at 1. apply T; [constructor|exact Hwr|rewrite <- Er; exact Hor].
  - intros x. rewrite Er. cbn [app]. apply begins_same; auto.
  - discriminate.
  - intros _ _ _. destruct Hlink as [Hne Hsp]. destruct link as [|c y _] using rev_ind; [congruence|].
    apply Forall_app in Hsp. destruct Hsp as [_ Hsp]. apply Forall_inv in Hsp.
    exists [], ([c_lbr] ++ label ++ [c_rbr; c_colon] ++ [c_sp] ++ y), c. split; [|exact Hsp].
    unfold r. rewrite <- !app_assoc. reflexivity.
  - intros _ _. exists c_lbr, (label ++ [c_rbr; c_colon] ++ [c_sp] ++ link), []. split; reflexivity.
  - intros _. constructor; [|constructor]. unfold r. rewrite !app_assoc. apply tidy_app; [|apply Hlink].
    intros s c E. destruct Hlink as [_ Hsp]. rewrite E in Hsp. apply Forall_app in Hsp. destruct Hsp as [_ Hsp].
    exact (Forall_inv Hsp).
  - intros Hs'. constructor; [|constructor]. apply Forall_inv in Hs'.
    unfold r. rewrite !app_assoc. apply unlabelled_app; [| |apply Hlink].
    2:{ intros a' E. apply app_inj_tail in E. destruct E as [_ E]. discriminate. }
    assert (B := one_word body link Hw).
    destruct (strip_spec body) as (pre & post & E & _ & Hp). rewrite B in E. rewrite E in Hs'.
    replace (ws ++ c_lbr :: label ++ c_rbr :: c_colon :: pre ++ link ++ post)
      with ((ws ++ c_lbr :: label ++ c_rbr :: c_colon :: pre) ++ link ++ post) in Hs'
      by (rewrite <- !app_assoc; cbn [app]; rewrite <- !app_assoc; reflexivity).
    eapply steady_unlabelled; [exact Hs'|]. apply spaces_forallb. exact Hp.
  - apply (same_content_intro _ _ _ (Link label link)); (split; [reflexivity|]).
    + exists ws, body. auto.
    + exists [], (c_sp :: link). split; [rewrite Er; reflexivity|]. split; [constructor|]. auto.
  - exists (Link label link). split; [|reflexivity]. split; [reflexivity|]. exists ws, body. auto.
Qed.

Lemma no_break_last ls : ls <> [] -> Forall text_line ls ->
  exists l r, rev ls = l :: r /\ endswith [c_sp; c_sp] l = false.
Proof.
  intros Hn H. destruct ls as [|l ls _] using rev_ind; [congruence|].
  rewrite rev_app_distr. exists l, (rev ls). split; [reflexivity|].
  apply Forall_app in H. destruct H as [_ H]. apply text_line_no_break. exact (Forall_inv H).
Qed.

Lemma plain_lines_of lines ps : lines <> [] -> Forall text_line lines ->
  Forall (fun l => exists c s, l = c :: s /\ is_space c = false) lines -> text_pieces lines ps -> plain_lines lines.
Proof.
  intros Hn Ht Hh Hp. destruct lines as [|l lines]; [congruence|]. exists l, lines.
  split; [reflexivity|]. split; [|split; [exact Ht|exists ps; exact Hp]]. apply Forall_inv in Hh. destruct Hh as (c & s & -> & Hc).
  rewrite <- indented_spec. assert (G := not_indented [] c s). cbn [app] in G.
  rewrite G; [discriminate|constructor|exact Hc].
Qed.

Lemma format_paragraph lim w ls : plain_lines ls -> exists ls', formatted lim w PARAGRAPH ls ls'.
Proof.
  intros (l & rest & E & Hi & Ht & ps & Hp). assert (Hn : ls <> []) by (rewrite E; discriminate). clear E.
  destruct (wrap_plain ls w ps Ht Hn Hp) as (lines & E1 & E2 & Hn' & Ht' & Ho' & Hh & Hl & Hp' & Hfl).
  exists lines. constructor.
  - eapply plain_lines_of; eassumption.
  - exact Ho'.
  - intros i. unfold section_text. cbn [reformatted]. unfold fmt_paragraph. rewrite E1. cbn [bind].
    destruct (no_break_last ls Hn Ht) as (x & r & -> & ->). reflexivity.
  - intros i. unfold section_text. cbn [reformatted]. unfold fmt_paragraph. rewrite E2. cbn [bind].
    destruct (no_break_last lines Hn' Ht') as (x & r & -> & ->). reflexivity.
  - intros x. eapply begins_text; eassumption.
  - discriminate.
  - intros _ _ _. destruct lines as [|y front _] using rev_ind; [congruence|]. exists front.
    apply Forall_app in Hl. destruct Hl as [_ Hl]. apply Forall_inv in Hl. destruct Hl as (s & c & -> & Hc).
    exists s, c. auto.
  - intros _ _. destruct Hh as [|x lines (c & s & -> & Hc) _]; [congruence|]. exists c, s, lines. auto.
  - intros _. eapply Forall_impl; [|exact Hl]. intros x (s & c & -> & Hc). apply tidy_snoc. exact Hc.
  - intros _. apply text_labelless in Hp'. eapply Forall_impl; [|exact Hp']. apply labelless_unlabelled.
  - apply (same_content_intro _ _ _ (Text ps)); split; auto.
  - exists (Text ps). split; [split; auto|]. eapply prose_paragraph; eassumption.
Qed.

Lemma max_list_pos l : Forall (fun n => 1 <= n) l -> l <> [] -> exists m, max_list l = Ok (S m).
Proof.
  intros H Hn. destruct H as [|n l Hx H]; [congruence|]. cbn [max_list].
  assert (G : forall l n, n <= fold_left Nat.max l n).
  { clear. induction l as [|a l IH]; intros n; [apply le_n|]. cbn [fold_left]. specialize (IH (Nat.max n a)). lia. }
  specialize (G l n). destruct (fold_left Nat.max l n) as [|m]; [lia|]. eauto.
Qed.

Lemma underline_first u c n ws ws' : u = ws ++ repeat c (S n) ++ ws' -> spaces ws -> is_space c = false ->
  first_char (strip u) = Ok c.
Proof.
  intros -> Hw Hc. cbn [repeat app]. destruct (strip_app_lead ws c (repeat c n ++ ws') Hw Hc) as (s & -> & _).
  reflexivity.
Qed.

Lemma format_setext lim w ls : block SETEXT_HEADING ls ->
  exists ls', formatted lim w SETEXT_HEADING ls ls'.
Proof.
  intros (text & u & -> & (l & rest & E & Hi & Ht & ps & Hp) & Hu).
  assert (Hn : text <> []) by (rewrite E; discriminate). clear E.
  destruct (wrap_plain text w ps Ht Hn Hp) as (lines & E1 & E2 & Hn' & Ht' & Ho' & Hh & Hl & Hp' & Hfl).
  assert (Hne : Forall (fun l => l <> []) lines).
  { eapply Forall_impl; [|exact Hh]. intros x (c & s & -> & _). discriminate. }
  destruct (max_list_pos (map (@length char) lines)) as (m & Hm).
  { apply Forall_map. eapply Forall_impl; [|exact Hne]. intros [|? ?] G; [congruence|cbn; lia]. }
  { destruct lines; [congruence|discriminate]. }
  assert (Hu' := Hu). destruct Hu' as (c & n & ws & ws' & Eu & Hw & Hw' & Hlen & Hc).
  assert (Hsp := underline_char_not_space c Hc).
  set (u' := repeat c (S m)). assert (Hu' : underline_line u').
  { exists c, m, [], []. rewrite app_nil_r. repeat split; auto; try constructor; cbn; lia. }
  assert (T : forall text0 u0 i, text0 <> [] -> first_char (strip u0) = Ok c ->
    wrap (str_join [c_sp] (map strip text0)) w = Ok (str_join [c_nl] lines) ->
    section_text lim w i SETEXT_HEADING (text0 ++ [u0]) (str_join [c_nl] (lines ++ [u']))).
  { intros text0 u0 i Hn0 Hc0 E0. unfold section_text. cbn [reformatted]. unfold fmt_setext_heading.
    assert (L : (length (text0 ++ [u0]) <? 2) = false).
    { apply Nat.ltb_ge. rewrite app_length. destruct text0; [congruence|cbn; lia]. }
    rewrite L, removelast_last, E0. cbn [bind]. rewrite splitlines_join_ne by assumption.
    rewrite Hm. cbn [bind]. rewrite last_last, Hc0. cbn [bind]. f_equal.
    rewrite str_join_app by (assumption || discriminate). reflexivity. }
  exists (lines ++ [u']). constructor.
  - exists lines, u'. split; [reflexivity|]. split; [eapply plain_lines_of; eassumption|exact Hu'].
  - apply Forall_app. split; [exact Ho'|]. constructor; [|constructor]. apply Forall_rep.
    cbn in Hc. intuition (subst; reflexivity).
  - intros i. apply T; [exact Hn| |exact E1]. eapply underline_first; eassumption.
  - intros i. apply T; [exact Hn'| |exact E2].
    eapply (underline_first u' c m [] []); [rewrite app_nil_r; reflexivity|constructor|exact Hsp].
  - intros x Hx. assert (G : forall (a : list str) b, a <> [] -> begins x (a ++ b) <-> begins x a).
    { intros [|y a] b Ha; [congruence|]. cbn [app]. rewrite !begins_words. reflexivity. }
    apply (proj2 (G text [u] Hn)). apply (proj1 (G lines [u'] Hn')) in Hx. eapply begins_text; eassumption.
  - discriminate.
  - intros _ _ _. exists lines, (repeat c m), c. rewrite <- repeat_snoc. auto.
  - intros _ _. destruct Hh as [|x lines (d & s & -> & Hd) _]; [congruence|]. exists d, s, (lines ++ [u']). auto.
  - intros _. apply Forall_app. split.
    + eapply Forall_impl; [|exact Hl]. intros x (s & d & -> & Hd). apply tidy_snoc. exact Hd.
    + constructor; [|constructor]. unfold u'. rewrite repeat_snoc. apply tidy_snoc. exact Hsp.
  - intros _. apply Forall_app. split; [apply text_labelless in Hp'; eapply Forall_impl; [|exact Hp']; apply labelless_unlabelled|].
    constructor; [|constructor]. unfold u'. rewrite repeat_snoc. apply unlabelled_last.
    intros ->. cbn in Hc. intuition discriminate.
  - apply (same_content_intro _ _ _ (Title c ps)); (split; [reflexivity|]).
    + exists text, u. split; [reflexivity|]. split; [exact Hp|]. rewrite Eu. apply begins_of; assumption.
    + exists lines, u'. split; [reflexivity|]. split; [auto|]. apply (begins_of [] c (repeat c m)); [constructor|exact Hsp].
  - exists (Title c ps). split.
    + split; [reflexivity|]. exists text, u. split; [reflexivity|]. split; [exact Hp|]. rewrite Eu. apply begins_of; assumption.
    + cbn [leaf_lines]. rewrite <- (prose_paragraph w _ _ _ _ Hp Hfl), (max_longest _ _ Hm). reflexivity.
Qed.

Lemma same_texts hs hs' : Forall2 same_text hs hs' -> exists ts, Forall2 trims hs ts /\ Forall2 trims hs' ts.
Proof.
  induction 1 as [|h h' hs hs' (t & T1 & T2) _ (ts & H1 & H2)]; [exists []; split; constructor|].
  exists (t :: ts). split; constructor; assumption.
Qed.

Lemma same_dividers ds ds' : Forall2 same_sides ds ds' -> exists sides, Forall2 divides ds sides /\ Forall2 divides ds' sides.
Proof.
  induction 1 as [|d d' ds ds' (t & t' & T1 & T2 & L & R) _ (sides & H1 & H2)]; [exists []; split; constructor|].
  exists ((startswith [c_colon] t, endswith [c_colon] t) :: sides). split; constructor; try assumption.
  - exists t. cbn [fst snd]. rewrite startswith_colon_iff, endswith_colon_iff. tauto.
  - exists t'. cbn [fst snd]. rewrite startswith_colon_iff, endswith_colon_iff. tauto.
Qed.

Lemma format_table lim w ls : block TABLE ls -> Forall one_line ls ->
  exists ls', formatted lim w TABLE ls ls'.
Proof.
  intros (h & d & b & hs & ds & bss & -> & Hi & Hh & Hd & Hb & L1 & L2) Ho.
  assert (W : well_formed (h :: d :: b) hs ds bss).
  { constructor; [exists h, d, b; auto|exact L1|exact L2]. }
  destruct (table_rows_stable lim w _ hs ds bss W) as (out & Eout & T1 & T2 & (hs' & ds' & bss' & W' & Sh & Sd & Sb) & Hbar & Ho').
  destruct W' as [(h' & d' & b' & -> & Hh' & Hd' & Hb') L1' L2'].
  exists (h' :: d' :: b'). assert (Hbars := Hbar). apply Forall_inv in Hbar. destruct Hbar as (t & Eh).
  cbn [app] in Eh. constructor.
  - exists h', d', b', hs', ds', bss'. split; [reflexivity|]. split; [|auto 6].
    rewrite Eh. rewrite <- indented_spec. assert (G := not_indented [] c_bar (t ++ [c_bar])). cbn [app] in G.
    rewrite G; [discriminate|constructor|reflexivity].
  - apply Ho'. exact Ho.
  - exact T1.
  - exact T2.
  - destruct Hh as (ws & ws' & -> & Hw & _). intros x. rewrite Eh. cbn [app]. apply begins_same; auto.
  - discriminate.
  - intros _ _ _. destruct (exists_last (l := h' :: d' :: b')) as (front & y & E); [discriminate|].
    rewrite E in *. apply Forall_app in Hbars. destruct Hbars as [_ Hbars]. apply Forall_inv in Hbars.
    destruct Hbars as (t' & ->). exists front, ([c_bar] ++ t'), c_bar. rewrite <- app_assoc. auto.
  - intros _ _. rewrite Eh. exists c_bar, (t ++ [c_bar]), (d' :: b'). auto.
  - intros _. eapply Forall_impl; [|exact Hbars]. intros x (t' & ->). rewrite app_assoc. apply tidy_snoc. reflexivity.
  - intros _. eapply Forall_impl; [|exact Hbars]. intros x (t' & ->). rewrite app_assoc. apply unlabelled_last. discriminate.
  - apply same_texts in Sh. destruct Sh as (header & H1 & H2). apply same_dividers in Sd. destruct Sd as (sides & S1 & S2).
    assert (R : exists rows, Forall2 (Forall2 trims) bss rows /\ Forall2 (Forall2 trims) bss' rows).
    { clear -Sb. induction Sb as [|x y l k Hx _ (rows & R1 & R2)]; [exists []; split; constructor|].
      apply same_texts in Hx. destruct Hx as (row & X1 & X2). exists (row :: rows). split; constructor; assumption. }
    destruct R as (rows & R1 & R2).
    apply (same_content_intro _ _ _ (Table header sides rows)); (split; [reflexivity|]).
    + exists h, d, b, hs, ds, bss. auto 8.
    + exists h', d', b', hs', ds', bss'. auto 8.
  - assert (Tr : forall hs, Forall2 trims hs (map strip hs)).
    { clear. induction hs; cbn [map]; constructor; [apply trims_strip; reflexivity|assumption]. }
    assert (R : Forall2 (Forall2 trims) bss (map (map strip) bss)) by (clear -Tr; induction bss; cbn [map]; constructor; auto).
    assert (D : exists sides, Forall2 divides ds sides).
    { clear. induction ds as [|d ds (sides & IH)]; [exists []; constructor|].
      exists ((startswith [c_colon] (strip d), endswith [c_colon] (strip d)) :: sides). constructor; [|exact IH].
      exists (strip d). cbn [fst snd]. rewrite startswith_colon_iff, endswith_colon_iff.
      split; [apply trims_strip; reflexivity|tauto]. }
    destruct D as (sides & D). exists (Table (map strip hs) sides (map (map strip) bss)). split.
    + split; [reflexivity|]. exists h, d, b, hs, ds, bss. auto 8.
    + rewrite Eout. apply table_rendering; auto.
Qed.

Lemma block_formats lim w ty ls :
  block ty ls -> Forall one_line ls -> (ty = THEMATIC_BREAK -> wide w) ->
  exists ls', formatted lim w ty ls ls'.
Proof.
  intros Hb Ho Hw. destruct ty; try (destruct Hb; fail).
  - destruct Hb as (l & -> & Hl). destruct (format_atx lim w l Hl (Forall_inv Ho)) as (r & H). eauto.
  - destruct Hb as (l & -> & Hl). exists [[]]. apply format_blank. exact Hl.
  - apply format_fenced; assumption.
  - exists (map rstrip ls). apply format_indented; assumption.
  - destruct (format_definition lim w ls Hb Ho) as (r & H). eauto.
  - apply format_paragraph. exact Hb.
  - apply format_setext. exact Hb.
  - apply format_table; assumption.
  - destruct Hb as (l & -> & Hl & Hnb). destruct (format_thematic lim w l (Hw eq_refl) Hl Hnb (Forall_inv Ho)) as (r & H). eauto.
Qed.

(** Every section says something. *)
Lemma block_content ty ls : block ty ls -> exists p, content ty ls p.
Proof.
  assert (T : forall hs, Forall2 trims hs (map strip hs)).
  { induction hs; cbn [map]; constructor; [apply trims_strip; reflexivity|assumption]. }
  intros Hb. destruct ty; cbn [block] in Hb; try contradiction.
  - destruct Hb as (l & -> & Hl). apply atx_line_heading in Hl. destruct Hl as (level & text & ws & body & -> & Hw & _ & H).
    exists (Heading level text). split; [reflexivity|]. exists ws, body. auto.
  - exists Blank. reflexivity.
  - destruct Hb as (ws & c & n & info & body & close & -> & Hw & Hc & Hn & Hi & _). destruct n as [|n]; [lia|].
    exists (Fenced (repeat c (S n)) (strip info) (map rstrip body)). split; [reflexivity|].
    exists ws, c, n, info, body, close. split; [reflexivity|]. split; [reflexivity|]. split; [exact Hw|].
    split; [destruct Hc as [<-|[<-|[]]]; reflexivity|].
    split; [intros t ->; apply (Hi [] t); [reflexivity|constructor]|].
    split; [apply trims_strip; reflexivity|apply rtrims_map].
  - exists (Indented (map rstrip ls)). split; [reflexivity|apply rtrims_map].
  - destruct Hb as (l & body & link & -> & (ws & label & -> & Hw & _ & Hl & _) & E).
    exists (Link label link). split; [reflexivity|]. exists ws, body. auto.
  - destruct Hb as (l & rest & _ & _ & _ & ps & Hp). exists (Text ps). split; [reflexivity|exact Hp].
  - destruct Hb as (text & u & -> & (l & rest & _ & _ & _ & ps & Hp) & (c & n & ws & ws' & -> & Hw & _ & _ & Hc)).
    exists (Title c ps). split; [reflexivity|]. eexists. eexists. split; [reflexivity|].
    split; [exact Hp|]. apply begins_of; [exact Hw|]. apply underline_char_not_space. exact Hc.
  - destruct Hb as (h & d & b & hs & ds & bss & -> & _ & Hh & Hd & Hb & _).
    exists (Table (map strip hs) (map (fun d => (startswith [c_colon] (strip d), endswith [c_colon] (strip d))) ds) (map (map strip) bss)).
    split; [reflexivity|]. exists h, d, b, hs, ds, bss. do 4 (split; [auto|]). split; [apply T|]. split.
    + clear. induction ds as [|d ds IH]; cbn [map]; constructor; [|exact IH]. exists (strip d). cbn [fst snd].
      rewrite startswith_colon_iff, endswith_colon_iff. split; [apply trims_strip; reflexivity|]. tauto.
    + clear -T. induction bss; cbn [map]; constructor; auto.
  - destruct Hb as (l & -> & (c & ws & body & -> & Hw & _ & Hc & _) & _). exists (Rule c). split; [reflexivity|].
    apply begins_of; [exact Hw|]. apply thematic_char_not_space. exact Hc.
Qed.

Lemma block_repr ty ls : block ty ls -> Forall one_line ls -> repr_check ty ls = Ok tt.
Proof.
  intros Hb Ho. destruct ty; cbn [block] in Hb; try contradiction; try reflexivity.
  - destruct Hb as (l & -> & _). reflexivity.
  - destruct Hb as (ws & c & n & info & body & close & -> & Hw & Hc & Hn & _).
    cbn [repr_check nth_line nth_error].
    assert (G : exists x, (if length ((ws ++ repeat c n ++ info) :: body ++ [close]) =? 2
                then Ok [] else nth_line ((ws ++ repeat c n ++ info) :: body ++ [close]) 1) = Ok x).
    { destruct (_ =? 2); [eauto|]. cbn [nth_line nth_error]. destruct body; cbn; eauto. }
    destruct G as (x & ->). cbn [bind]. destruct n as [|n]; [lia|]. cbn [repeat app].
    assert (Hsp : is_space c = false) by (destruct Hc as [<-|[<-|[]]]; reflexivity).
    destruct (strip_app_lead ws c (repeat c n ++ info) Hw Hsp) as (s & -> & _). reflexivity.
  - destruct Hb as (l & more & -> & _). reflexivity.
  - destruct Hb as (l & body & link & -> & (ws & label & -> & Hs & _ & Hl & Hn) & Hw).
    cbn [repr_check]. rewrite (lrd_parts_spec _ label [link] Ho); [reflexivity|].
    exists ws, body, []. repeat (split; [assumption || reflexivity|]). symmetry. exact Hw.
  - destruct Hb as (text & u & -> & (l & rest & -> & _) & (c & n & ws & ws' & Eu & Hw & _ & _ & Hc)).
    cbn [repr_check]. assert (L : (length ((l :: rest) ++ [u]) <? 2) = false).
    { apply Nat.ltb_ge. rewrite app_length. cbn. lia. }
    rewrite L, last_last. rewrite (underline_first u c n ws ws' Eu Hw (underline_char_not_space c Hc)). reflexivity.
  - destruct Hb as (l & -> & (c & ws & body & -> & Hw & _ & Hc & _) & _). cbn [repr_check nth_line nth_error bind].
    destruct (strip_app_lead ws c body Hw (thematic_char_not_space c Hc)) as (s & -> & _). reflexivity.
Qed.

(** * The whole document *)

Lemma no_code_types secs secs' :
  Forall2 (fun s s' => fst s = fst s') secs secs' -> no_code secs -> no_code secs'.
Proof.
  intros H Hn blanks ls after E Hb. subst secs'.
  apply Forall2_app_inv_r in H. destruct H as (b & r & H1 & H2 & ->). inversion H2 as [|s ? r' ? E' H3]; subst.
  destruct s as [ty c]. cbn in E'. subst ty. eapply Hn; [reflexivity|].
  clear -H1 Hb. induction H1 as [|s s' b b' E H1 IH]; [constructor|]. inversion Hb; subst.
  constructor; [congruence|auto].
Qed.

Definition formatted_section (lim : nat) (w : width) (s s' : section) : Prop :=
  fst s = fst s' /\ formatted lim w (fst s) (snd s) (snd s').

(** Sections that play the same role for the section before them. *)
Definition similar (s s' : section) : Prop :=
  fst s = fst s' /\ (forall x, is_digit x = false -> begins x (snd s') -> begins x (snd s))
  /\ (fst s = INDENTED_CODE_BLOCK -> length (snd s') = length (snd s)).

Lemma formatted_similar lim w s s' : formatted_section lim w s s' -> similar s s'.
Proof.
  intros [E F]. split; [exact E|]. split; [intros x _; apply (formatted_begins _ _ _ _ _ F)|].
  intros H. apply F. exact H.
Qed.

Lemma ends_before_similar ty ls ls' next next' :
  similar (ty, ls) (ty, ls') -> Forall2 similar next next' ->
  ends_before ty ls next -> ends_before ty ls' next'.
Proof.
  intros (_ & F1 & F2) H He. cbn [fst snd] in *. destruct ty; cbn [ends_before] in *; auto.
  - assert (T : Forall2 (fun s s' => fst s = fst s') next next').
    { clear -H. induction H as [|s s' l l' [E _] H IH]; constructor; assumption. }
    destruct He as [[Hl He]|(final & n & -> & He)].
    + left. rewrite (F2 eq_refl). split; [exact Hl|]. eapply no_code_types; eassumption.
    + right. inversion H as [|? s' ? n' Hs Hn]; subst. destruct s' as [ty' ls'']. destruct Hs as (Et & _ & L).
      cbn in Et, L. subst ty'. specialize (L eq_refl).
      destruct ls'' as [|final' [|? ?]]; try discriminate. exists final', n'. split; [reflexivity|].
      eapply no_code_types; [|exact He]. inversion T; assumption.
  - destruct He as (ty' & ls'' & n & -> & He). inversion H as [|? s' ? n' Hs Hn]; subst.
    destruct s' as [ty'' l'']. destruct Hs as (Et & Fs & _). cbn in Et, Fs. subst ty''.
    exists ty', l'', n'. split; [reflexivity|]. intros q Hq Hb. apply (He q Hq).
    apply Fs; [|exact Hb]. destruct Hq as [->| ->]; reflexivity.
  - intros ty' l'' n' ->. inversion H as [|s ? n ? Hs Hn]; subst. destruct s as [ty'' c].
    destruct Hs as (Et & Fs & _). cbn in Et, Fs. subst ty''. destruct (He ty' c n eq_refl) as [H1 H2].
    split; [exact H1|]. intros E Hb. apply (H2 E). apply Fs; [reflexivity|exact Hb].
  - intros ty' l'' n' ->. inversion H as [|s ? n ? Hs Hn]; subst. destruct s as [ty'' c].
    destruct Hs as (Et & Fs & _). cbn in Et, Fs. subst ty''. intros Hb. apply (He ty' c n eq_refl).
    apply Fs; [reflexivity|exact Hb].
Qed.

Lemma structured_formats lim w secs :
  structured secs -> (forall ls, In (THEMATIC_BREAK, ls) secs -> wide w) ->
  exists secs', Forall2 (formatted_section lim w) secs secs' /\ structured secs'.
Proof.
  intros H. induction H as [|ty ls next Hb Ho He H IH]; intros Hw.
  - exists []. split; constructor.
  - destruct IH as (next' & F & S). { intros l Hl. apply (Hw l). right. exact Hl. }
    destruct (block_formats lim w ty ls Hb Ho) as (ls' & G).
    { intros ->. apply (Hw ls). left. reflexivity. }
    exists ((ty, ls') :: next'). split; [constructor; [split; [reflexivity|exact G]|exact F]|].
    constructor; [apply G|apply G| |exact S]. eapply ends_before_similar; [| |exact He].
    + apply (formatted_similar lim w (ty, ls) (ty, ls')). split; [reflexivity|exact G].
    + clear -F. induction F; constructor; [eapply formatted_similar; eassumption|assumption].
Qed.

Lemma structured_blocks secs : structured secs ->
  Forall (fun s => block (fst s) (snd s) /\ Forall one_line (snd s)) secs.
Proof. intros H. induction H; constructor; auto. Qed.

Lemma separated_structured last secs texts :
  structured secs -> last <> Some BLOCK_QUOTE -> length texts = length secs ->
  separated last (combine (map fst secs) texts) = texts.
Proof.
  intros H. revert last texts. induction H as [|ty ls next Hb Ho He H IH]; intros last texts Hl L.
  - destruct texts; [reflexivity|discriminate].
  - destruct texts as [|t texts]; [discriminate|]. cbn [map fst combine separated].
    rewrite IH; [|intros E; injection E as ->; destruct Hb|cbn in L; lia].
    destruct last as [[]|]; try reflexivity. congruence.
Qed.

Lemma pass_texts lim w secs secs' :
  structured secs -> secs <> [] ->
  (forall i, section_texts lim w i secs (map (fun s => str_join [c_nl] (snd s)) secs')) ->
  structured secs' -> length secs' = length secs -> 1 <= lim ->
  reformat_pass (S lim) (document secs) w = Ok (document secs').
Proof.
  intros H Hn Ht H' L Hlim. destruct lim as [|lim]; [lia|].
  assert (Ho : Forall one_line (lines_of secs)).
  { unfold lines_of. rewrite Forall_concat. apply Forall_map. eapply Forall_impl; [|apply structured_blocks; exact H].
    cbn. tauto. }
  rewrite (reformat_pass_ok (S lim) (document secs) w secs (map (fun s => str_join [c_nl] (snd s)) secs')).
  - f_equal. rewrite separated_structured; [|exact H|discriminate|rewrite map_length; exact L].
    rewrite finish_pass_ne; [|destruct secs'; [destruct secs; [congruence|discriminate]|discriminate]].
    unfold document. clear -H'. induction H' as [|ty ls next Hb _ _ _ IH]; [reflexivity|].
    cbn [map snd concat]. rewrite newline_terminated_app, <- IH.
    change (?a :: ?b) with ([a] ++ b) at 1. rewrite newline_terminated_app.
    rewrite newline_terminated_one_join by (eapply block_ne; exact Hb). reflexivity.
  - unfold document. fold (lines_of secs). rewrite splitlines_newline_terminated by exact Ho.
    apply structured_parse. exact H.
  - eapply Forall_impl; [|apply structured_blocks; exact H]. intros [ty ls] [Hb Hol]. apply block_repr; assumption.
  - apply Ht.
Qed.

(** One pass over a structured document gives one with the same sections, and a second
    pass does not change it. *)
Lemma structured_pass lim w secs :
  structured secs -> secs <> [] -> (forall ls, In (THEMATIC_BREAK, ls) secs -> wide w) -> 1 <= lim ->
  exists secs', structured secs' /\ Forall2 (formatted_section lim w) secs secs'
    /\ reformat_pass (S lim) (document secs) w = Ok (document secs')
    /\ reformat_pass (S lim) (document secs') w = Ok (document secs').
Proof.
  intros H Hn Hw Hlim. destruct (structured_formats lim w secs H Hw) as (secs' & F & S).
  assert (L : length secs' = length secs) by (clear -F; induction F; cbn; congruence).
  exists secs'. split; [exact S|]. split; [exact F|]. split; apply pass_texts; auto.
  - clear -F. induction F as [|[ty ls] [ty' ls'] secs secs' [E G] F IH]; intros i; cbn [map snd]; [constructor|].
    constructor; [apply G|apply IH].
  - destruct secs'; [destruct secs; [congruence|discriminate]|discriminate].
  - clear -F. induction F as [|[ty ls] [ty' ls'] secs secs' [E G] F IH]; intros i; cbn [map snd]; [constructor|].
    cbn in E. subst ty'. constructor; [apply G|apply IH].
Qed.

(** * Trimming the end of the document *)

Lemma atx_heading_rstrip r level text : atx_heading r level text -> atx_heading (rstrip r) level text.
Proof.
  intros (ws & body & -> & Hw & Hl & Hn & Hb & Ht). destruct level as [|n]; [lia|].
  cbn [repeat app]. rewrite rstrip_lead by reflexivity. exists ws, (rstrip body).
  assert (E : rstrip (repeat c_hash n ++ body) = repeat c_hash n ++ rstrip body).
  { destruct n as [|n]; [reflexivity|]. apply rstrip_run. reflexivity. }
  rewrite E. split; [reflexivity|]. split; [exact Hw|]. split; [exact Hl|]. split; [exact Hn|]. split.
  - intros b Eb. destruct (rstrip_by_spec is_space body) as (post & E' & _). fold (rstrip body) in E'.
    rewrite Eb in E'. eapply Hb. exact E'.
  - apply trims_strip. rewrite strip_rstrip. apply trims_strip. exact Ht.
Qed.

Lemma no_code_app a b : no_code (a ++ b) -> no_code a.
Proof.
  intros H blanks ls after -> Hb. eapply (H blanks ls (after ++ b)); [rewrite <- app_assoc; reflexivity|exact Hb].
Qed.

Lemma structured_front front blanks :
  structured (front ++ blanks) -> Forall (fun s => fst s = BLANK_LINE) blanks ->
  (forall f ls, front <> f ++ [(LINK_REFERENCE_DEFINITION, ls)]) -> structured front.
Proof.
  intros H Hb. induction front as [|[ty ls] front IH]; intros Hl; [constructor|].
  cbn [app] in H. inversion H as [|? ? ? Hbl Ho He Hs]; subst. constructor; [exact Hbl|exact Ho| |].
  - destruct ty; cbn [ends_before] in *; auto.
    + destruct He as [[L He]|(final & next' & E & He)].
      * left. split; [exact L|]. eapply no_code_app. exact He.
      * destruct front as [|s front].
        -- cbn [app] in E. subst blanks. apply Forall_inv in Hb. discriminate.
        -- injection E as -> <-. right. exists final, front. split; [reflexivity|]. eapply no_code_app. exact He.
    + destruct front as [|s front]; [exfalso; apply (Hl [] ls); reflexivity|].
      destruct He as (ty' & ls' & n & E & He). injection E as -> _. exists ty', ls', front. auto.
    + intros ty' ls' n ->. eapply He. reflexivity.
    + intros ty' ls' n ->. eapply He. reflexivity.
  - apply IH; [exact Hs|]. intros f l ->. apply (Hl ((ty, ls) :: f) l). reflexivity.
Qed.

Lemma split_blanks (secs : list section) : exists front blanks, secs = front ++ blanks
  /\ Forall (fun s => fst s = BLANK_LINE) blanks
  /\ (front = [] \/ exists f s, front = f ++ [s] /\ fst s <> BLANK_LINE).
Proof.
  induction secs as [|s secs (front & blanks & -> & Hb & Hf)].
  - exists [], []. split; [reflexivity|]. split; [constructor|auto].
  - destruct Hf as [->|(f & x & -> & Hx)].
    + destruct (section_type_eqb (fst s) BLANK_LINE) eqn:E.
      * exists [], (s :: blanks). split; [reflexivity|]. split; [|auto]. constructor; [|exact Hb].
        destruct (fst s); discriminate || reflexivity.
      * exists [s], blanks. split; [reflexivity|]. split; [exact Hb|]. right. exists [], s. split; [reflexivity|].
        intros G. rewrite G in E. discriminate.
    + exists (s :: f ++ [x]), blanks. split; [reflexivity|]. split; [exact Hb|]. right. exists (s :: f), x. auto.
Qed.

Lemma document_app a b : document (a ++ b) = document a ++ document b.
Proof. unfold document. rewrite map_app, concat_app. apply newline_terminated_app. Qed.

Lemma document_blanks secs : structured secs -> Forall (fun s => fst s = BLANK_LINE) secs ->
  spaces (document secs).
Proof.
  intros H Hb. induction H as [|ty ls next Hbl Ho He H IH]; [constructor|].
  inversion Hb as [|? ? E Hb']; subst. cbn in E. subst ty. destruct Hbl as (l & -> & Hl).
  unfold document in *. cbn [map snd concat app].
  change (newline_terminated (l :: ?x)) with ((l ++ [c_nl]) ++ newline_terminated x).
  apply Forall_app. split; [|apply IH; exact Hb']. apply Forall_app. split; [exact Hl|repeat constructor].
Qed.

Lemma structured_app_r a b : structured (a ++ b) -> structured b.
Proof. induction a as [|s a IH]; [auto|]. intros H. inversion H; subst. auto. Qed.

Lemma document_snoc f ty front y : document (f ++ [(ty, front ++ [y])])
  = (document f ++ newline_terminated front ++ y) ++ [c_nl].
Proof.
  rewrite document_app. unfold document at 2. cbn [map snd concat]. rewrite app_nil_r, newline_terminated_app.
  unfold newline_terminated at 2. cbn [map concat]. rewrite app_nil_r, <- !app_assoc. reflexivity.
Qed.

Lemma rstrip_nl s c : is_space c = false -> rstrip ((s ++ [c]) ++ [c_nl]) = s ++ [c].
Proof.
  intros Hc. unfold rstrip. rewrite rstrip_by_app by reflexivity. apply rstrip_by_snoc. exact Hc.
Qed.

Lemma Forall2_snoc_r {A B} (R : A -> B -> Prop) l f s :
  Forall2 R l (f ++ [s]) -> exists l' x, l = l' ++ [x] /\ Forall2 R l' f /\ R x s.
Proof.
  intros H. apply Forall2_app_inv_r in H. destruct H as (l' & r & H1 & H2 & ->).
  inversion H2 as [|x ? ? ? Hx H3]; subst. inversion H3; subst. exists l', x. auto.
Qed.

Lemma structured_similar_last f ty ls ls' :
  structured (f ++ [(ty, ls)]) -> similar (ty, ls) (ty, ls') -> block ty ls' -> Forall one_line ls' ->
  structured (f ++ [(ty, ls')]).
Proof.
  intros H Hs Hb Ho. induction f as [|[t l] f IH]; cbn [app] in *.
  - inversion H as [|? ? ? _ _ He _]; subst. constructor; [exact Hb|exact Ho| |constructor].
    eapply ends_before_similar; [exact Hs|constructor|exact He].
  - inversion H as [|? ? ? Hb' Ho' He Hn]; subst. constructor; [exact Hb'|exact Ho'| |apply IH; exact Hn].
    eapply ends_before_similar; [|  |exact He].
    + split; [reflexivity|]. split; auto.
    + apply Forall2_app; [|constructor; [exact Hs|constructor]].
      clear. induction f as [|x f IH]; constructor; [|exact IH]. split; [reflexivity|]. split; auto.
Qed.

Lemma section_texts_join lim w i a b ta tb :
  section_texts lim w i a ta -> (forall j, section_texts lim w j b tb) -> section_texts lim w i (a ++ b) (ta ++ tb).
Proof. intros H Hb. induction H; cbn [app]; [apply Hb|]. constructor; assumption. Qed.

Lemma document_rstrip secs f ty front y c blanks :
  secs = (f ++ [(ty, front ++ [y ++ [c]])]) ++ blanks -> is_space c = false -> spaces (document blanks) ->
  rstrip (document secs) ++ [c_nl] = document (f ++ [(ty, front ++ [y ++ [c]])]).
Proof.
  intros -> Hc Hb. rewrite document_app. unfold rstrip. rewrite rstrip_by_app.
  2:{ apply forallb_forall. apply Forall_forall. exact Hb. }
  rewrite document_snoc, !app_assoc. fold rstrip. rewrite rstrip_nl by exact Hc. reflexivity.
Qed.

(** The sections are formatted to themselves. *)
Definition fixed (lim : nat) (w : width) (s : section) : Prop :=
  forall i, section_text lim w i (fst s) (snd s) (str_join [c_nl] (snd s)).

Lemma fixed_texts lim w secs : Forall (fixed lim w) secs ->
  forall i, section_texts lim w i secs (map (fun s => str_join [c_nl] (snd s)) secs).
Proof.
  intros H. induction H as [|[ty ls] secs Hs H IH]; intros i; cbn [map snd]; [constructor|].
  constructor; [apply Hs|apply IH].
Qed.

Lemma blank_fixed lim w : fixed lim w (BLANK_LINE, [[]]).
Proof. intros i. apply (format_blank lim w []). constructor. Qed.

Lemma trimmed_output lim w secs :
  structured secs -> secs <> [] -> Forall (fixed lim w) secs -> 1 <= lim ->
  (forall a ls b, secs = a ++ (LINK_REFERENCE_DEFINITION, ls) :: b -> exists s, In s b /\ fst s <> BLANK_LINE) ->
  (forall a ty ls b, secs = a ++ (ty, ls) :: b -> Forall (fun s => fst s = BLANK_LINE) b ->
     ty <> ATX_HEADING -> ty <> BLANK_LINE ->
     exists front y c, ls = front ++ [y ++ [c]] /\ is_space c = false) ->
  (forall a ls b, secs = a ++ (ATX_HEADING, ls) :: b ->
     exists level text, ls = [repeat c_hash level ++ [c_sp] ++ text]
       /\ atx_heading (repeat c_hash level ++ [c_sp] ++ text) level text) ->
  let out := rstrip (document secs) ++ [c_nl] in
  reformat_markdown_text (S lim) out w = Ok out
  /\ exists secs' n, structured secs' /\ document secs' = out
       /\ map fst secs = map fst secs' ++ repeat BLANK_LINE n.
Proof.
  intros H Hne Hfix Hlim Hlrd Htrim Hatx out.
  destruct (split_blanks secs) as (front & blanks & E & Hb & Hf).
  assert (Sb : spaces (document blanks)).
  { apply document_blanks; [|exact Hb]. eapply structured_app_r. rewrite <- E. exact H. }
  assert (Go : forall front0 front1, structured front0 -> structured front1 -> front1 <> [] ->
    length front0 = length front1 -> Forall (fixed lim w) front1 ->
    (forall i, section_texts lim w i front0 (map (fun s => str_join [c_nl] (snd s)) front1)) ->
    document front0 = out -> rstrip (document front1) ++ [c_nl] = out ->
    (exists n, map fst secs = map fst front0 ++ repeat BLANK_LINE n) ->
    reformat_markdown_text (S lim) out w = Ok out
    /\ exists secs' n, structured secs' /\ document secs' = out
         /\ map fst secs = map fst secs' ++ repeat BLANK_LINE n).
  { intros front0 front1 S0 S1 N1 L F1 T0 D0 D1 (n & Tn). split; [|exists front0, n; auto].
    unfold reformat_markdown_text. rewrite <- D0.
    rewrite (pass_texts lim w front0 front1); auto.
    2:{ destruct front0; [destruct front1; [congruence|discriminate]|discriminate]. }
    cbn [bind]. rewrite (pass_texts lim w front1 front1); auto.
    2:{ apply fixed_texts. exact F1. }
    cbn [bind]. rewrite str_eqb_refl, D1, D0. reflexivity. }
  assert (Tb : exists n, map fst blanks = repeat BLANK_LINE n /\ n = length blanks).
  { exists (length blanks). split; [|reflexivity]. clear -Hb. induction Hb as [|s l E _ IH]; [reflexivity|].
    cbn [map length repeat]. rewrite E, IH. reflexivity. }
  destruct Tb as (nb & Tb & Lb).
  destruct Hf as [->|(f & [ty ls] & -> & Ht)].
  - assert (Eo : out = [c_nl]).
    { unfold out. rewrite E. cbn [app]. unfold rstrip. rewrite <- (app_nil_l (document blanks)).
      rewrite rstrip_by_app; [reflexivity|]. apply forallb_forall. apply Forall_forall. exact Sb. }
    assert (Sl : structured [(BLANK_LINE, [[]])]).
    { constructor; [exists []; split; [reflexivity|constructor]| |exact I|constructor].
      constructor; constructor. }
    apply (Go [(BLANK_LINE, [[]])] [(BLANK_LINE, [[]])]); auto.
    + discriminate.
    + constructor; [apply blank_fixed|constructor].
    + apply fixed_texts. constructor; [apply blank_fixed|constructor].
    + cbn [app] in E. destruct nb as [|nb]; [destruct blanks; [congruence|discriminate]|].
      exists nb. rewrite E, Tb. reflexivity.
  - cbn [fst] in Ht. assert (Sf : structured (f ++ [(ty, ls)])).
    { assert (H0 := H). rewrite E in H0. apply (structured_front _ blanks); [exact H0|exact Hb|]. intros f' ls' G.
      apply app_inj_tail in G. destruct G as [<- G]. injection G as -> ->.
      rewrite <- app_assoc in E. cbn [app] in E. destruct (Hlrd _ _ _ E) as (s & Hi & Hs).
      rewrite Forall_forall in Hb. apply Hs. apply Hb. exact Hi. }
    assert (Ff : Forall (fixed lim w) (f ++ [(ty, ls)])).
    { rewrite E in Hfix. apply Forall_app in Hfix. apply Hfix. }
    assert (E' := E). rewrite <- app_assoc in E'. cbn [app] in E'.
    destruct (section_type_eqb ty ATX_HEADING) eqn:Ea.
    + assert (ty = ATX_HEADING) by (destruct ty; discriminate || reflexivity). subst ty. clear Ea Ht.
      destruct (Hatx _ _ _ E') as (level & text & -> & Ha).
      set (r := repeat c_hash level ++ [c_sp] ++ text) in *.
      assert (Hl : 1 <= level) by (destruct Ha as (? & ? & _ & _ & _ & Hl & _); exact Hl).
      assert (Ha' := atx_heading_rstrip _ _ _ Ha).
      assert (Er : exists y c, rstrip r = y ++ [c] /\ is_space c = false).
      { assert (Nr : rstrip r <> []).
        { intros G. rewrite G in Ha'. destruct Ha' as (ws & body & G' & _). destruct ws, level; discriminate || lia. }
        destruct (exists_last Nr) as (y & x & G). exists y, x. split; [exact G|].
        eapply (rstrip_by_last is_space). exact G. }
      destruct Er as (y & c & Er & Hc).
      assert (So : Forall one_line [rstrip r]).
      { constructor; [|constructor]. apply structured_blocks in Sf. apply Forall_app in Sf. destruct Sf as [_ Sf].
        apply Forall_inv in Sf. destruct Sf as [_ Sf]. apply Forall_inv in Sf.
        destruct (rstrip_by_spec is_space r) as (post & G & _). fold (rstrip r) in G. rewrite G in Sf.
        apply Forall_app in Sf. apply Sf. }
      apply (Go (f ++ [(ATX_HEADING, [rstrip r])]) (f ++ [(ATX_HEADING, [r])])); auto.
      * eapply structured_similar_last; [exact Sf| | |exact So].
        -- split; [reflexivity|]. split; [|discriminate]. intros x _ (ws & t & rest & G & Hw & Hx).
           injection G as G <-. destruct (rstrip_by_spec is_space r) as (post & G' & _). fold (rstrip r) in G'.
           exists ws, (t ++ post), []. split; [|auto]. f_equal. rewrite G', G, <- app_assoc. reflexivity.
        -- exists (rstrip r). split; [reflexivity|]. apply atx_line_heading. eauto.
      * destruct f; discriminate.
      * rewrite !app_length. reflexivity.
      * intros i. rewrite map_app. apply section_texts_join.
        -- apply fixed_texts. apply Forall_app in Ff. apply Ff.
        -- intros j. cbn [map snd str_join]. constructor; [|constructor].
           apply (C17_atx_heading lim w j _ _ _ Ha').
      * unfold out. symmetry. rewrite E, document_app. unfold rstrip. rewrite rstrip_by_app.
        2:{ apply forallb_forall. apply Forall_forall. exact Sb. }
        assert (D := fun x => document_snoc f ATX_HEADING [] x).
        change (newline_terminated []) with (@nil N) in D. cbn [app] in D. rewrite !D.
        rewrite rstrip_by_app by reflexivity. rewrite rstrip_by_app_ne; [reflexivity|].
        fold (rstrip r). rewrite Er. destruct y; discriminate.
      * unfold out. rewrite E, (document_app _ blanks). unfold rstrip. rewrite rstrip_by_app.
        2:{ apply forallb_forall. apply Forall_forall. exact Sb. }
        reflexivity.
      * exists nb. rewrite E, map_app. f_equal; [rewrite !map_app; reflexivity|exact Tb].
    + assert (Ta : ty <> ATX_HEADING) by (intros ->; discriminate).
      destruct (Htrim _ _ _ _ E' Hb Ta Ht) as (fr & y & c & -> & Hc).
      apply (Go (f ++ [(ty, fr ++ [y ++ [c]])]) (f ++ [(ty, fr ++ [y ++ [c]])])); auto.
      * destruct f; discriminate.
      * apply fixed_texts. exact Ff.
      * unfold out. symmetry. eapply document_rstrip; eauto.
      * unfold out. transitivity (document (f ++ [(ty, fr ++ [y ++ [c]])])).
        -- eapply (document_rstrip _ f ty fr y c []); [symmetry; apply app_nil_r|exact Hc|constructor].
        -- symmetry. eapply document_rstrip; eauto.
      * exists nb. rewrite E, map_app. f_equal. exact Tb.
Qed.

Lemma formatted_output lim w secs secs' :
  structured secs -> structured secs' -> secs <> [] -> Forall2 (formatted_section lim w) secs secs' ->
  1 <= lim ->
  (forall a ls b, secs = a ++ (LINK_REFERENCE_DEFINITION, ls) :: b -> exists s, In s b /\ fst s <> BLANK_LINE) ->
  let out := rstrip (document secs') ++ [c_nl] in
  reformat_markdown_text (S lim) out w = Ok out
  /\ exists secs'' n, structured secs'' /\ document secs'' = out
       /\ map fst secs' = map fst secs'' ++ repeat BLANK_LINE n.
Proof.
  intros H H' Hn F Hlim Hlrd. apply trimmed_output; auto.
  - destruct F; [congruence|discriminate].
  - clear -F. induction F as [|[ty ls] [ty' ls'] secs secs' [E G] F IH]; constructor; [|exact IH].
    cbn in E. subst ty'. exact (formatted_stable _ _ _ _ _ G).
  - intros a ls b E. rewrite E in F. apply Forall2_app_inv_r in F. destruct F as (a0 & r & F1 & F2 & ->).
    inversion F2 as [|[ty ls0] ? b0 ? [Et _] F3]; subst. cbn in Et. subst ty.
    destruct (Hlrd a0 ls0 b0 eq_refl) as (s & Hi & Hs).
    clear -F3 Hi Hs. induction F3 as [|x y l l' [Exy _] F3 IH]; [destruct Hi|].
    destruct Hi as [<-|Hi].
    + exists y. split; [left; reflexivity|]. rewrite <- Exy. exact Hs.
    + destruct (IH Hi) as (z & Hz & Hz'). exists z. split; [right; exact Hz|exact Hz'].
  - intros a ty ls b E Hb Ta Tb. rewrite E in F. apply Forall2_app_inv_r in F. destruct F as (a0 & r & F1 & F2 & ->).
    inversion F2 as [|[ty0 ls0] ? b0 ? [Et G] F3]; subst. cbn in Et, G. subst ty0.
    apply (formatted_trim _ _ _ _ _ G); auto. intros ->.
    apply structured_app_r in H. inversion H as [|? ? ? _ _ He _]; subst. cbn [ends_before] in He.
    destruct He as [[He _]|(final & n' & -> & _)]; [exact He|].
    inversion F3 as [|? ? ? ? [Ex _] _]; subst. apply Forall_inv in Hb. cbn in Ex. congruence.
  - intros a ls b E. rewrite E in F. apply Forall2_app_inv_r in F. destruct F as (a0 & r & F1 & F2 & ->).
    inversion F2 as [|[ty0 ls0] ? b0 ? [Et G] F3]; subst. cbn in Et, G. subst ty0.
    destruct (formatted_block _ _ _ _ _ G) as (l & -> & Hl). apply atx_line_heading in Hl.
    destruct Hl as (level & text & Ha).
    destruct (C17_atx_heading lim w 0 l level text Ha) as (T1 & Hr & _). cbv zeta in *.
    assert (T2 := formatted_stable _ _ _ _ _ G 0). unfold section_text in T1, T2. rewrite T1 in T2.
    apply ok_inj in T2. cbn [str_join] in T2. subst l. exists level, text. split; [reflexivity|exact Hr].
Qed.

Lemma document_lines secs : structured secs -> splitlines (document secs) = lines_of secs.
Proof.
  intros H. apply splitlines_newline_terminated. unfold lines_of. rewrite Forall_concat. apply Forall_map.
  eapply Forall_impl; [|apply structured_blocks; exact H]. cbn. tauto.
Qed.

(** * Greedy filling *)

Lemma filled_greedy w ws lines :
  Forall (fun x => x <> [] /\ Forall (fun c => is_space c = false) x) ws ->
  Forall (fun x => forall a z b, In z markup -> x <> a ++ z ++ b) ws ->
  filled w (words_as_pieces ws) lines ->
  Forall (fun l => fits w (length l) \/ words l = [l]) lines
  /\ (forall before l l' after x more, lines = before ++ l :: l' :: after -> words l' = x :: more ->
        ~ fits w (length l + 1 + length x)).
Proof.
  intros Hw Hm (groups & rest & E & Hr & -> & Hne & Hfit & Hg & _). unfold words_as_pieces in E.
  apply map_eq_concat in E. destruct E as (gs & rest' & -> & -> & ->).
  apply Forall_app in Hw. destruct Hw as [Hw _]. rewrite Forall_concat in Hw.
  apply Forall_app in Hm. destruct Hm as [Hm _]. rewrite Forall_concat in Hm.
  assert (L : Forall (fun g => line_of (@map str piece (fun x => (x, true)) g) = str_join [c_sp] g
                        /\ words (str_join [c_sp] g) = g) gs).
  { eapply Forall_impl; [|exact Hw]. intros g Hx. split; [|apply words_join_words; exact Hx].
    apply line_of_words. eapply Forall_impl; [|exact Hx]. cbn. tauto. }
  rewrite map_map in *. split.
  - rewrite Forall_map in *. clear Hg. rewrite Forall_forall in *. intros g Hi.
    destruct (L _ Hi) as [L1 L2]. destruct (Hfit _ Hi) as [Hf|(p & Hp & Ep)]; [left; exact Hf|right].
    apply in_map_iff in Hp. destruct Hp as (x & <- & Hx). cbn [fst] in Ep.
    assert (Hc := Hw _ Hi). rewrite Forall_forall in Hc. destruct (Hc _ Hx) as [Hx1 Hx2].
    rewrite Ep. apply words_one; assumption.
  - intros before l l' after x more Es Hx.
    apply map_eq_app in Es. destruct Es as (g1 & g2 & -> & <- & Es).
    destruct g2 as [|g [|g' g3]]; try discriminate. injection Es as <- <- <-.
    assert (Hi : In g (g1 ++ g :: g' :: g3) /\ In g' (g1 ++ g :: g' :: g3)).
    { split; apply in_or_app; right; [left|right; left]; reflexivity. }
    destruct Hi as [Hi Hi']. rewrite Forall_forall in L. destruct (L _ Hi) as [L1 _]. destruct (L _ Hi') as [L1' L2'].
    rewrite L1' in Hx. rewrite L2' in Hx. subst g'. rewrite map_app in Hg. cbn [map] in Hg.
    destruct (Hg _ _ _ _ eq_refl) as [(ps & p & Ep & (tag & t & Et & Ht))|(p & q & Ep & Hf)].
    + exfalso. apply map_eq_app in Ep. destruct Ep as (a & b & -> & _ & Eb).
      destruct b as [|y [|? ?]]; try discriminate. injection Eb as <-. cbn [fst] in Et. subst y.
      rewrite Forall_forall in Hm. specialize (Hm _ Hi). apply Forall_app in Hm. destruct Hm as [_ Hm].
      apply Forall_inv in Hm. cbn in Ht.
      destruct Ht as [<-|[<-|[<-|[<-|[]]]]]; eapply (Hm [] (lit "<br") _); try reflexivity; vm_compute; tauto.
    + cbn [map] in Ep. injection Ep as <- _. rewrite Forall_map, Forall_forall in Hne. specialize (Hne _ Hi).
      destruct (line_of (@map str piece (fun x => (x, true)) g)) as [|c s] eqn:El; [congruence|].
      cbn [put] in Hf. rewrite !app_length in Hf. cbn [length] in Hf |- *.
      replace (S (length s) + 1 + length x) with (S (length s) + (1 + length x)) by lia. exact Hf.
Qed.

