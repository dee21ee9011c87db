(** Each splitter returns lines of the shape its section type promises. *)
From Verif Require Import Py Regex Utils Lines Detectors Base SpecLines SpecParser
  ProofsLines ProofsRegex ProofsParser.

(** ** Where a section stands in the document *)

Lemma parsed_section sbq lines before ty content after :
  parsed sbq lines (before ++ (ty, content) :: after) ->
  exists prev f next, SPLITTERS sbq = prev ++ (ty, f) :: next
    /\ f (content ++ concat (map snd after)) = Ok (content, concat (map snd after))
    /\ content <> []
    /\ Forall (fun tf => snd tf (content ++ concat (map snd after))
                         = Ok ([], content ++ concat (map snd after))) prev.
Proof.
  assert (Hc : forall ls secs, parsed sbq ls secs -> ls = concat (map snd secs)).
  { intros ls secs H. induction H; [reflexivity|]. cbn [map concat snd]. congruence. }
  revert lines. induction before as [|[t c] before IH]; intros lines H; cbn [app] in H.
  - inversion H as [|lines' ty' content' rem secs prev f next E Hf Hn El Hp Hrem]; subst.
    rewrite <- (Hc _ _ Hrem). exists prev, f, next. auto.
  - inversion H; subst. eapply IH; eauto.
Qed.

(** The splitter of each section type. *)
Definition splitter_of (sbq : splitter) (ty : section_type) : splitter :=
  match ty with
  | ATX_HEADING => split_atx_heading
  | BLANK_LINE => split_blank_line
  | BLOCK_QUOTE => sbq
  | BULLET_LIST => split_bullet_list
  | FENCED_CODE_BLOCK => split_fenced_code_block
  | INDENTED_CODE_BLOCK => split_indented_code_block
  | LINK_REFERENCE_DEFINITION => split_link_reference_definition
  | ORDERED_LIST => split_ordered_list
  | PARAGRAPH => split_paragraph sbq
  | SETEXT_HEADING => split_setext_heading sbq
  | TABLE => split_table
  | THEMATIC_BREAK => split_thematic_break
  end.

Lemma splitter_of_in sbq prev ty f next :
  SPLITTERS sbq = prev ++ (ty, f) :: next -> f = splitter_of sbq ty.
Proof.
  intros E. assert (H : In (ty, f) (SPLITTERS sbq)).
  { rewrite E. apply in_or_app. right. left. reflexivity. }
  clear E. cbn in H.
  repeat (destruct H as [H|H]; [injection H as <- <-; reflexivity|]). destruct H.
Qed.

Lemma section_split lim lines before ty content after :
  parse_markdown lim lines = Ok (before ++ (ty, content) :: after) ->
  splitter_of (split_block_quote lim) ty (content ++ concat (map snd after))
    = Ok (content, concat (map snd after))
  /\ content <> [].
Proof.
  intros H. apply parse_markdown_parsed in H. apply parsed_section in H.
  destruct H as (prev & f & next & E & Hf & Hn & _). split; [|exact Hn].
  apply splitter_of_in in E. subst f. exact Hf.
Qed.

(** ** Fences *)

Lemma lstrip_by_repeat c n s :
  (forall s', s <> c :: s') -> lstrip_by (N.eqb c) (repeat c n ++ s) = s.
Proof.
  intros H. rewrite lstrip_by_app.
  - destruct s as [|d s]; [reflexivity|]. cbn. destruct (N.eqb_spec c d); [|reflexivity].
    subst d. exfalso. eapply H. reflexivity.
  - clear H. induction n; cbn; [reflexivity|]. rewrite N.eqb_refl. exact IHn.
Qed.

Lemma run_decomp (c : char) (s : str) :
  exists (n : nat) (t : str), s = repeat c n ++ t /\ (forall t', t <> c :: t').
Proof.
  induction s as [|d s (n & t & -> & H)].
  - exists 0, []. split; [reflexivity|discriminate].
  - destruct (N.eqb_spec d c) as [->|Hd].
    + exists (S n), t. auto.
    + exists 0, (d :: repeat c n ++ t). split; [reflexivity|]. congruence.
Qed.

Lemma run_length (c : char) n (s : str) :
  (forall s', s <> c :: s') ->
  length (repeat c n ++ s) - length (lstrip_by (N.eqb c) (repeat c n ++ s)) = n.
Proof. intros H. rewrite lstrip_by_repeat by auto. rewrite app_length, repeat_length. lia. Qed.

Lemma some_inj {A} (a b : A) : Some a = Some b -> a = b.
Proof. congruence. Qed.

Lemma full_fence_spec l fence : full_fence l = Some fence <-> opens l fence.
Proof.
  assert (G : forall c ws body, is_space c = false -> spaces ws ->
    exists n info, ws ++ [c; c; c] ++ body = ws ++ repeat c n ++ info /\ 3 <= n
      /\ (forall info', info <> c :: info')
      /\ length (lstrip (ws ++ [c; c; c] ++ body))
         - length (lstrip_by (N.eqb c) (lstrip (ws ++ [c; c; c] ++ body))) = n).
  { intros c ws body Hc Hw. destruct (run_decomp c body) as (n & info & -> & Hi).
    exists (3 + n), info. split; [reflexivity|]. split; [lia|]. split; [exact Hi|].
    cbn [app]. rewrite lstrip_app by auto.
    change (c :: c :: c :: repeat c n ++ info) with (repeat c (3 + n) ++ info).
    apply run_length. exact Hi. }
  unfold full_fence, opens. split.
  - destruct (startswith (rep c_bt 3) (strip l)) eqn:E1.
    + apply startswith3_strip in E1; [|reflexivity]. destruct E1 as (ws & body & -> & Hw).
      intros H. apply some_inj in H. subst fence.
      destruct (G c_bt ws body eq_refl Hw) as (n & info & El & Hn & Hi & Hlen).
      rewrite Hlen. exists ws, c_bt, n, info. repeat split; auto. cbn. auto.
    + destruct (startswith (rep c_tilde 3) (strip l)) eqn:E2; [|discriminate].
      apply startswith3_strip in E2; [|reflexivity]. destruct E2 as (ws & body & -> & Hw).
      intros H. apply some_inj in H. subst fence.
      destruct (G c_tilde ws body eq_refl Hw) as (n & info & El & Hn & Hi & Hlen).
      rewrite Hlen. exists ws, c_tilde, n, info. repeat split; auto. cbn. auto.
  - intros (ws & c & n & info & -> & Hw & Hc & Hn & Hi & ->).
    destruct n as [|[|[|n]]]; try lia.
    assert (Hsp : is_space c = false) by (destruct Hc as [<-|[<-|[]]]; reflexivity).
    assert (Hst : startswith (rep c 3) (strip (ws ++ repeat c (S (S (S n))) ++ info)) = true).
    { apply startswith3_strip; [exact Hsp|]. exists ws, (repeat c n ++ info). auto. }
    assert (Hlen : length (lstrip (ws ++ repeat c (S (S (S n))) ++ info))
       - length (lstrip_by (N.eqb c) (lstrip (ws ++ repeat c (S (S (S n))) ++ info)))
       = S (S (S n))).
    { cbn [repeat app]. rewrite lstrip_app by auto.
      change (c :: c :: c :: repeat c n ++ info) with (repeat c (3 + n) ++ info).
      apply run_length. exact Hi. }
    destruct Hc as [<-|[<-|[]]].
    + rewrite Hst, Hlen. reflexivity.
    + destruct (startswith (rep c_bt 3) (strip (ws ++ repeat c_tilde (S (S (S n))) ++ info)))
        eqn:E.
      * apply startswith3_strip in E; [|reflexivity]. destruct E as (ws' & body & E & Hw').
        exfalso. clear -E Hw Hw'. cbn [repeat app] in E.
        revert ws' E Hw'. induction ws as [|x ws IH]; intros [|y ws'] E Hw'.
        -- discriminate.
        -- injection E as <- _. inv Hw'. discriminate.
        -- injection E as -> _. inv Hw. discriminate.
        -- injection E as <- E. inv Hw. inv Hw'. eapply IH; eauto.
      * rewrite Hst, Hlen. reflexivity.
Qed.

Lemma opens_fence l fence :
  opens l fence -> exists c n, fence = repeat c (S n) /\ is_space c = false.
Proof.
  intros (ws & c & n & info & _ & _ & Hc & Hn & _ & ->).
  exists c, (pred n). split; [f_equal; lia|].
  destruct Hc as [<-|[<-|[]]]; reflexivity.
Qed.

Lemma closes_spec c n l :
  is_space c = false -> strip l = repeat c (S n) <-> closes (repeat c (S n)) l.
Proof.
  intros Hc. unfold closes. split.
  - intros E. destruct (strip_spec l) as (pre & post & El & Hpre & Hpost).
    exists pre, post. rewrite E in El. split; [exact El|].
    split; apply spaces_forallb; assumption.
  - intros (ws & ws' & -> & Hw & Hw'). apply strip_repeat; auto.
Qed.

(** ** Link reference definitions *)

Lemma not_indented_lstrip l :
  get_indent l < 4 -> exists ws, l = ws ++ lstrip l /\ spaces ws /\ length ws < 4.
Proof.
  intros H. unfold get_indent, lstrip in *.
  destruct (lstrip_by_spec is_space l) as (ws & E & Hw).
  exists ws. split; [exact E|]. split; [apply spaces_forallb; exact Hw|].
  apply (f_equal (@length _)) in E. rewrite app_length in E. lia.
Qed.

Lemma definition_match s e :
  rmatch LINK_REFERENCE_DEFINITION_FIRST_ELEMENT_REGEX s = Some e ->
  exists label body, s = c_lbr :: label ++ c_rbr :: c_colon :: body
    /\ Forall (fun c => c <> c_rbr) label /\ 1 <= length label <= 999
    /\ e = length label + 3.
Proof.
  intros H. apply rmatch_den in H. destruct H as [Hl H].
  unfold LINK_REFERENCE_DEFINITION_FIRST_ELEMENT_REGEX, Is in H. cbn [den] in H.
  destruct H as (c1 & s1 & E1 & H1 & c2 & s2 & -> & H2 & a & b & -> & Ha & Hk
                 & c3 & s3 & -> & H3 & c4 & s4 & -> & H4 & ->).
  apply N.eqb_eq in H1, H3, H4. subst c1 c3 c4.
  exists (c2 :: a), (skipn e s).
  assert (E : firstn e s ++ skipn e s = s) by apply firstn_skipn.
  assert (Hlen : length (firstn e s) = e) by (apply firstn_length_le; exact Hl).
  rewrite E1 in Hlen, E. cbn [length app] in *. rewrite app_length in Hlen. cbn in Hlen.
  split; [|split; [|split; lia]].
  - rewrite <- E at 1. cbn. rewrite <- app_assoc. reflexivity.
  - constructor.
    + apply negb_true_iff, N.eqb_neq in H2. exact H2.
    + eapply Forall_impl; [|exact Ha]. intros x Hx. cbn in Hx.
      apply negb_true_iff, N.eqb_neq in Hx. exact Hx.
Qed.

Lemma split_lrd_definition l rest s r :
  split_link_reference_definition (l :: rest) = Ok (s, r) -> s <> [] -> definition_line l.
Proof.
  unfold split_link_reference_definition.
  destruct (4 <=? get_indent l) eqn:Ei; [intros H; injection H; congruence|].
  apply Nat.leb_gt in Ei.
  destruct (rmatch LINK_REFERENCE_DEFINITION_FIRST_ELEMENT_REGEX (lstrip l)) as [e|] eqn:E;
    [|intros H; injection H; congruence].
  intros _ _. apply definition_match in E. destruct E as (label & body & E & Hl & Hn & _).
  destruct (not_indented_lstrip l Ei) as (ws & El & Hw & Hk).
  rewrite E in El. exists ws, label, body. auto.
Qed.

(** ** Indented code *)

Lemma indented_close_lines lines index close :
  close <= index ->
  Forall (fun x => blank_line x \/ indented_line x)
    (firstn (indented_close lines index close - index) lines).
Proof.
  revert index close. induction lines as [|l rest IH]; intros index close H;
    cbn [indented_close]; [rewrite firstn_nil; constructor|].
  destruct (blank l) eqn:Eb.
  - specialize (IH (S index) close ltac:(lia)).
    destruct (indented_close rest (S index) close - index) as [|k] eqn:Ek; [constructor|].
    cbn [firstn]. constructor; [left; apply blank_iff; exact Eb|].
    replace k with (indented_close rest (S index) close - S index) by lia. exact IH.
  - destruct (4 <=? get_indent l) eqn:Ei.
    + specialize (IH (S index) index ltac:(lia)).
      destruct (indented_close rest (S index) index - index) as [|k] eqn:Ek; [constructor|].
      cbn [firstn]. constructor.
      * right. apply indented_spec. unfold is_indented_code_block_start_line.
        rewrite Eb, Ei. reflexivity.
      * replace k with (indented_close rest (S index) index - S index) by lia. exact IH.
    + replace (close - index) with 0 by lia. constructor.
Qed.

(** ** Paragraph lines *)

Section Lines.
  Variable sbq : splitter.
  Hypothesis sbq_explicit : forall l rest s r,
    is_explicit_block_quote_line l = true -> sbq (l :: rest) = Ok (s, r) -> s <> [].

  Lemma par_continuation_line l rest :
    par_continuation sbq (l :: rest) = Ok true -> continuation_line l.
  Proof.
    intros H. apply par_continuation_true in H; [|exact sbq_explicit].
    destruct H as (H1 & H2 & H3 & H4 & H5 & H6 & H7 & H8 & H9).
    unfold continuation_line.
    repeat split;
      first [ apply (not_true_iff _ _ (blank_line_spec l)); assumption
            | apply (not_true_iff _ _ (atx_spec l)); assumption
            | apply (not_true_iff _ _ (quote_spec l)); assumption
            | apply (not_true_iff _ _ (bullet_spec l)); assumption
            | apply (not_true_iff _ _ (ordered_spec l)); assumption
            | apply (not_true_iff _ _ (table_spec l)); assumption
            | apply (not_true_iff _ _ (fence_spec l)); assumption
            | apply (not_true_iff _ _ (thematic_spec l)); assumption
            | apply (not_true_iff _ _ (underline_spec l)); assumption ].
  Qed.

  Lemma par_tail_lines tail s r :
    par_tail sbq tail = Ok (s, r) -> Forall continuation_line s.
  Proof.
    revert s r. induction tail as [|t rest IH]; intros s r H; cbn [par_tail] in H.
    - inv H. constructor.
    - bind_inv H. destruct a; [|inv H; constructor].
      apply par_continuation_line in E.
      destruct (endswith [c_sp; c_sp] t).
      + destruct rest; [discriminate|]. inv H. auto.
      + bind_inv H. destruct a as [more rem]. inv H. constructor; eauto.
  Qed.

  Lemma spis_lines lines s r :
    split_paragraph_ignoring_setext sbq lines = Ok (s, r) -> s <> [] ->
    exists l rest, s = l :: rest /\ paragraph_line l /\ Forall continuation_line rest.
  Proof.
    destruct lines as [|l rest]; cbn [split_paragraph_ignoring_setext]; [discriminate|].
    destruct (is_paragraph_start_line l) eqn:Hp; [|intros H; inv H; congruence].
    apply paragraph_start_spec in Hp. intros H _. destruct (endswith [c_sp; c_sp] l).
    - inv H. exists l, []. auto.
    - bind_inv H. destruct a as [more rem]. inv H. exists l, more.
      eauto using par_tail_lines.
  Qed.
End Lines.

Lemma lazy_line_spec l : lazy_line_b l -> lazy_line l.
Proof.
  intros (H1 & H2 & H3 & H4 & H5 & H6 & H7 & H8). unfold lazy_line.
  repeat split;
    first [ apply (not_true_iff _ _ (blank_line_spec l)); assumption
          | apply (not_true_iff _ _ (atx_spec l)); assumption
          | apply (not_true_iff _ _ (bullet_spec l)); assumption
          | apply (not_true_iff _ _ (ordered_spec l)); assumption
          | apply (not_true_iff _ _ (table_spec l)); assumption
          | apply (not_true_iff _ _ (fence_spec l)); assumption
          | apply (not_true_iff _ _ (thematic_spec l)); assumption
          | apply (not_true_iff _ _ (underline_spec l)); assumption ].
Qed.

(** ** Block quotes *)

Lemma split_block_quote_ok lim lines s r :
  split_block_quote lim lines = Ok (s, r) ->
  lines = s ++ r
  /\ (s <> [] -> exists l rest, s = l :: rest /\ quote_line l
        /\ Forall (fun x => quote_line x \/ lazy_line x) rest)
  /\ (s = [] -> forall l rest, lines = l :: rest -> ~ quote_line l).
Proof.
  destruct lim as [|lim]; [discriminate|]. cbn [split_block_quote]. intros H.
  apply bq_loop_ok in H. destruct H as (more & E & El & Hm & Hfirst). cbn [app] in E.
  subst more. split; [exact El|]. split.
  - intros Hn. destruct lines as [|l rest]; [congruence|].
    destruct (is_explicit_block_quote_line l) eqn:Eq; [|congruence].
    destruct Hfirst as (more' & ->). exists l, more'. split; [reflexivity|].
    split; [apply quote_spec; exact Eq|]. inv Hm. eapply Forall_impl; [|eassumption].
    cbn. intros x [Hx|Hx]; [left; apply quote_spec; exact Hx|right].
    apply lazy_line_spec. exact Hx.
  - intros -> l rest ->. destruct (is_explicit_block_quote_line l) eqn:Eq.
    + destruct Hfirst as (? & ?). discriminate.
    + apply (not_true_iff _ _ (quote_spec l)). exact Eq.
Qed.

(** ** All shapes *)

Lemma continues_list_spec l : continues_list l = true <-> list_line l.
Proof.
  unfold continues_list, list_line. rewrite negb_true_iff, !orb_false_iff.
  rewrite (not_true_iff _ _ (blank_line_spec l)), (not_true_iff _ _ (table_spec l)),
    (not_true_iff _ _ (thematic_spec l)). tauto.
Qed.

Lemma list_shape start l rest s r :
  split_list_section start (l :: rest) = Ok (s, r) -> s <> [] ->
  exists more, s = l :: more /\ start l = true /\ rest = more ++ r
    /\ Forall list_line more
    /\ (forall x r', r = x :: r' -> ~ list_line x).
Proof.
  intros H Hn. apply split_list_section_ok in H.
  destruct H as [(Hs & more & -> & -> & Hm & Hr)|(_ & -> & _)]; [|congruence].
  exists more. split; [auto|]. split; [auto|]. split; [auto|]. split.
  - eapply Forall_impl; [|exact Hm]. cbn. intros x. apply continues_list_spec.
  - intros x r' ->. apply (not_true_iff _ _ (continues_list_spec x)). exact Hr.
Qed.

Lemma fenced_shape lines s r :
  split_fenced_code_block lines = Ok (s, r) -> s <> [] ->
  exists l rest fence, s = l :: rest /\ opens l fence
    /\ ((Forall (fun x => ~ closes fence x) rest /\ r = [])
        \/ exists body close, rest = body ++ [close] /\ closes fence close
             /\ Forall (fun x => ~ closes fence x) body).
Proof.
  intros H Hn. apply split_fenced_ok in H. destruct lines as [|l rest]; [tauto|].
  destruct H as [(fence & more & Hf & -> & Ht)|(_ & -> & _)]; [|congruence].
  apply full_fence_spec in Hf. exists l, more, fence. split; [auto|]. split; [auto|].
  destruct (opens_fence _ _ Hf) as (c & n & -> & Hc).
  apply take_fenced_spec in Ht. destruct Ht as (_ & [(body & close & -> & Hcl & Hb)|(-> & Hb)]).
  - right. exists body, close. split; [auto|]. split; [apply closes_spec; auto|].
    eapply Forall_impl; [|exact Hb]. cbn. intros x Hx G. apply Hx, closes_spec; auto.
  - left. split; [|auto]. eapply Forall_impl; [|exact Hb]. cbn.
    intros x Hx G. apply Hx, closes_spec; auto.
Qed.

Lemma splitter_shape lim ty lines s r :
  splitter_of (split_block_quote lim) ty lines = Ok (s, r) -> s <> [] ->
  section_shape ty s.
Proof.
  destruct (block_quote_contract lim) as (Hl & _ & Hx & _).
  intros H Hn. destruct ty; cbn [splitter_of] in H; cbn [section_shape].
  - apply split_one_line_ok in H. destruct lines; [tauto|].
    destruct H as [(E & -> & _)|(_ & -> & _)]; [|congruence]. eexists. split; [reflexivity|].
    apply atx_spec. exact E.
  - apply split_one_line_ok in H. destruct lines; [tauto|].
    destruct H as [(E & -> & _)|(_ & -> & _)]; [|congruence]. eexists. split; [reflexivity|].
    apply blank_line_spec. exact E.
  - apply split_block_quote_ok in H. destruct H as (_ & H & _). auto.
  - destruct lines as [|l rest]; [discriminate|]. apply list_shape in H; [|exact Hn].
    destruct H as (more & -> & Hs & _ & Hm & _). exists l, more.
    split; [auto|]. split; [apply bullet_spec|]; auto.
  - apply fenced_shape in H; [|exact Hn].
    destruct H as (l & rest & fence & -> & Ho & H). exists l, rest, fence.
    split; [auto|]. split; [auto|]. destruct H as [[H _]|H]; auto.
  - apply split_indented_ok in H. destruct lines as [|l rest]; [tauto|].
    destruct H as [(E & Es & _)|(_ & -> & _)]; [|congruence].
    assert (G := indented_close_ge rest 1 1 (le_n 1)).
    assert (Hf := indented_close_lines rest 1 1 (le_n 1)).
    destruct (indented_close rest 1 1) as [|k]; [lia|]. cbn [firstn] in Es.
    exists l, (firstn k rest). split; [auto|]. split; [apply indented_spec; exact E|].
    replace (S k - 1) with k in Hf by lia. exact Hf.
  - destruct lines as [|l rest]; [discriminate|].
    assert (Hd := split_lrd_definition _ _ _ _ H Hn). apply lossless_lrd in H.
    destruct s as [|l' s]; [congruence|]. injection H as <- _. eauto.
  - destruct lines as [|l rest]; [discriminate|]. apply list_shape in H; [|exact Hn].
    destruct H as (more & -> & Hs & _ & Hm & _). exists l, more.
    split; [auto|]. split; [apply ordered_spec|]; auto.
  - apply split_paragraph_ok in H.
    destruct H as [[-> _]|(_ & H & _)]; [congruence|].
    apply spis_lines in H; auto.
  - apply split_setext_ok in H. destruct H as [[-> _]|(p & u & -> & Hp & Hu & H)]; [congruence|].
    apply spis_lines in H; auto. destruct H as (l & rest & -> & H1 & H2).
    exists l, rest, u. split; [reflexivity|]. split; [auto|]. split; [auto|].
    apply underline_spec. exact Hu.
  - apply split_table_ok in H. destruct lines as [|l rest]; [tauto|].
    destruct H as [(E & more & -> & _ & Hm & _)|(_ & -> & _)]; [|congruence].
    constructor; [apply table_started_spec; exact E|].
    eapply Forall_impl; [|exact Hm]. cbn. intros x. apply table_started_spec.
  - apply split_one_line_ok in H. destruct lines; [tauto|].
    destruct H as [(E & -> & _)|(_ & -> & _)]; [|congruence]. eexists. split; [reflexivity|].
    apply thematic_spec. exact E.
Qed.
