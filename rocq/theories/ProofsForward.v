(** Which section the parser finds at a line of a given kind. *)
From Verif Require Import Py Regex Utils Lines Detectors Base SpecLines SpecParser
  ProofsLines ProofsRegex ProofsParser ProofsShapes ProofsKinds.

(** A line is not of the other kinds decided by its first non-blank character. *)
Ltac not_kind :=
  let E := fresh in
  apply Bool.not_true_is_false; intros E;
  first [ apply atx_spec in E | apply blank_line_spec in E | apply quote_spec in E
        | apply bullet_spec in E | apply fence_spec in E | apply indented_spec in E
        | apply ordered_spec in E | apply table_spec in E | apply thematic_spec in E
        | apply paragraph_start_spec in E ];
  exclude_kind E
with exclude_kind E :=
  first
  [ match goal with
    | H : starts ?l ?b ?P |- _ =>
        first
        [ eapply starts_not_blank; [exact H|exact E]
        | eapply starts_not_indented; [exact H|exact E]
        | starts_of E; eapply starts_disjoint; [exact H|exact E|chars_differ] ]
    end
  | tauto ].

Section Forward.
  Variable sbq : splitter.
  Hypothesis sbq_no : forall l rest,
    is_explicit_block_quote_line l = false -> sbq (l :: rest) = Ok ([], l :: rest).

  Lemma fenced_no l rest :
    is_fenced_code_block_start_line l = false ->
    split_fenced_code_block (l :: rest) = Ok ([], l :: rest).
  Proof.
    intros H. apply full_fence_none in H. cbn [split_fenced_code_block]. rewrite H. reflexivity.
  Qed.

  Lemma indented_no l rest :
    is_indented_code_block_start_line l = false ->
    split_indented_code_block (l :: rest) = Ok ([], l :: rest).
  Proof.
    unfold is_indented_code_block_start_line, split_indented_code_block. intros ->. reflexivity.
  Qed.

  Lemma table_no l rest :
    is_table_start_line l = false -> split_table (l :: rest) = Ok ([], l :: rest).
  Proof.
    unfold is_table_start_line, split_table, table_started. intros ->. reflexivity.
  Qed.

  Lemma paragraph_no l rest :
    is_paragraph_start_line l = false ->
    split_paragraph sbq (l :: rest) = Ok ([], l :: rest).
  Proof.
    intros H. unfold split_paragraph, split_paragraph_ignoring_setext. rewrite H. cbn [bind].
    destruct (negb (is_setext_underline l)); reflexivity.
  Qed.

  Lemma setext_no l rest :
    is_paragraph_start_line l = false ->
    split_setext_heading sbq (l :: rest) = Ok ([], l :: rest).
  Proof.
    intros H. unfold split_setext_heading, split_paragraph_ignoring_setext. rewrite H.
    reflexivity.
  Qed.

  (** A line that does not look like [\[label\]:] is no link reference definition. *)
  Lemma lrd_no l rest :
    ~ definition_line l ->
    split_link_reference_definition (l :: rest) = Ok ([], l :: rest).
  Proof.
    intros H. unfold split_link_reference_definition.
    destruct (4 <=? get_indent l) eqn:Ei; [reflexivity|].
    destruct (rmatch _ (lstrip l)) as [e|] eqn:Er; [|reflexivity]. exfalso. apply H.
    apply Nat.leb_gt in Ei. apply not_indented_lstrip in Ei.
    destruct Ei as (ws & E & Hw & Hl). apply definition_match in Er.
    destruct Er as (label & body & Er & Hlab & Hlen & _). rewrite Er in E.
    exists ws, label, body. auto.
  Qed.

  Lemma no_definition l b P :
    starts l b P -> P c_lbr = false -> ~ definition_line l.
  Proof.
    intros H HP G. apply starts_definition in G. eapply starts_disjoint; [exact H|exact G|].
    intros c Hc Hm. apply mem_in in Hm. cbn in Hm. destruct Hm as [<-|[]]. congruence.
  Qed.

  Ltac skip := rewrite first_split_skip.

  Lemma first_split_atx l rest :
    atx_line l -> first_split (SPLITTERS sbq) (l :: rest) = Ok ((ATX_HEADING, [l]), rest).
  Proof.
    intros H. apply atx_spec in H. unfold SPLITTERS. cbn [first_split]. unfold split_atx_heading.
    cbn [split_one_line]. rewrite H. reflexivity.
  Qed.

  Lemma first_split_blank l rest :
    blank_line l -> first_split (SPLITTERS sbq) (l :: rest) = Ok ((BLANK_LINE, [l]), rest).
  Proof.
    intros H. assert (Ha : is_atx_heading_line l = false).
    { apply Bool.not_true_is_false. intros E. apply atx_spec, starts_atx in E.
      eapply starts_not_blank; eauto. }
    apply blank_line_spec in H. unfold SPLITTERS. skip; [|apply one_line_no; exact Ha].
    cbn [first_split]. unfold split_blank_line. cbn [split_one_line]. rewrite H. reflexivity.
  Qed.

  Lemma first_split_thematic l rest :
    thematic_line l -> ~ bullet_line l ->
    first_split (SPLITTERS sbq) (l :: rest) = Ok ((THEMATIC_BREAK, [l]), rest).
  Proof.
    intros T Nb. assert (Et := T). apply thematic_spec in Et.
    assert (S := starts_thematic l T). unfold SPLITTERS.
    skip; [|apply one_line_no; not_kind].
    skip; [|apply one_line_no; not_kind].
    skip; [|apply sbq_no; not_kind].
    skip; [|apply list_no; not_kind].
    skip; [|apply fenced_no; not_kind].
    skip; [|apply indented_no; not_kind].
    skip; [|apply lrd_no; eapply no_definition; [exact S|reflexivity]].
    skip; [|apply list_no; not_kind].
    assert (Np : is_paragraph_start_line l = false).
    { apply Bool.not_true_is_false. intros E. apply paragraph_start_spec in E.
      unfold paragraph_line in E. tauto. }
    skip; [|apply paragraph_no; exact Np].
    skip; [|apply setext_no; exact Np].
    skip; [|apply table_no; not_kind].
    cbn [first_split]. unfold split_thematic_break. cbn [split_one_line]. rewrite Et. reflexivity.
  Qed.

  Lemma first_split_fenced l rest fence more r :
    opens l fence -> ~ indented_line l -> take_fenced fence rest = (more, r) ->
    first_split (SPLITTERS sbq) (l :: rest) = Ok ((FENCED_CODE_BLOCK, l :: more), r).
  Proof.
    intros Ho Hi Et. assert (S := starts_fence l (opens_fence_line l fence Ho)).
    unfold SPLITTERS.
    skip; [|apply one_line_no; not_kind].
    skip; [|apply one_line_no; not_kind].
    skip; [|apply sbq_no; not_kind].
    skip; [|apply list_no; not_kind].
    cbn [first_split]. unfold split_fenced_code_block at 1.
    apply full_fence_spec in Ho. rewrite Ho, Et. reflexivity.
  Qed.

  Lemma first_split_indented l rest :
    indented_line l -> ~ fence_line l ->
    exists close, close = indented_close rest 1 1 /\
    first_split (SPLITTERS sbq) (l :: rest)
    = Ok ((INDENTED_CODE_BLOCK, firstn close (l :: rest)), skipn close (l :: rest)).
  Proof.
    intros Hi Hf. exists (indented_close rest 1 1). split; [reflexivity|].
    assert (Na : is_atx_heading_line l = false).
    { apply Bool.not_true_is_false. intros E. apply atx_spec, starts_atx in E.
      eapply starts_not_indented; eauto. }
    assert (Nb : is_blank_line_line l = false).
    { apply Bool.not_true_is_false. intros E. apply blank_line_spec in E.
      eapply indented_not_blank; eauto. }
    assert (Nq : is_explicit_block_quote_line l = false).
    { apply Bool.not_true_is_false. intros E. apply quote_spec, starts_quote in E.
      eapply starts_not_indented; eauto. }
    assert (Nl : is_bullet_list_start_line l = false).
    { apply Bool.not_true_is_false. intros E. apply bullet_spec, starts_bullet in E.
      eapply starts_not_indented; eauto. }
    assert (Nf : is_fenced_code_block_start_line l = false).
    { apply Bool.not_true_is_false. intros E. apply fence_spec in E. auto. }
    unfold SPLITTERS.
    skip; [|apply one_line_no; exact Na].
    skip; [|apply one_line_no; exact Nb].
    skip; [|apply sbq_no; exact Nq].
    skip; [|apply list_no; exact Nl].
    skip; [|apply fenced_no; exact Nf].
    cbn [first_split]. unfold split_indented_code_block at 1.
    apply indented_spec in Hi. unfold is_indented_code_block_start_line in Hi. rewrite Hi.
    cbn [bind]. assert (G := indented_close_ge rest 1 1 (le_n 1)).
    destruct (indented_close rest 1 1) as [|k]; [lia|]. reflexivity.
  Qed.
End Forward.

Lemma sbq_no_S lim l rest :
  is_explicit_block_quote_line l = false ->
  split_block_quote (S lim) (l :: rest) = Ok ([], l :: rest).
Proof. apply block_quote_no. Qed.
