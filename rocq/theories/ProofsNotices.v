(** Lemmas on the records of the detectors and of the parser. *)
From Coq Require Import String.
From Verif Require Import Py Regex Utils TextWrap Lines Detectors Formatters Logging Records Notices Base
  SpecLines SpecParser SpecFormat SpecList SpecQuote SpecDefinition SpecErrors SpecWidth SpecRecords SpecNotices
  ProofsLines ProofsShapes ProofsList ProofsPass ProofsParser ProofsDefinition ProofsLimit ProofsErrors PropsParser PropsLeaf PropsList PropsQuote PropsDefinition PropsLocal
  ProofsRecords.
Local Open Scope nat_scope.

(** * Records do not change results *)

Definition erases (f : splitter_log) (g : splitter) : Prop :=
  forall off lines, snd (f off lines) = g lines.

Lemma erases_silent f : erases (silent f) f.
Proof. intros off lines. reflexivity. Qed.

Lemma take_fenced_snd fence i index off lines :
  snd (take_fenced_log fence i index off lines) = Ok (take_fenced fence lines).
Proof.
  revert index. induction lines as [|l rest IH]; intros index; [reflexivity|]. cbn [take_fenced_log take_fenced].
  destruct (str_eqb (strip l) fence).
  - rewrite snd_lbind. destruct (3 + i <? get_indent l); reflexivity.
  - rewrite snd_lbind, IH. cbn [bind]. destruct (take_fenced fence rest); reflexivity.
Qed.

Lemma erases_fenced : erases split_fenced_code_block_log split_fenced_code_block.
Proof.
  intros off lines. unfold split_fenced_code_block_log, split_fenced_code_block.
  destruct lines as [|l rest]; [reflexivity|]. destruct (full_fence l) as [f|]; [|reflexivity].
  rewrite snd_lbind, take_fenced_snd. cbn [bind]. destruct (take_fenced f rest); reflexivity.
Qed.

Lemma erases_definition : erases split_link_reference_definition_log split_link_reference_definition.
Proof.
  intros off lines. unfold split_link_reference_definition_log, split_link_reference_definition.
  destruct lines as [|l gen]; [reflexivity|]. destruct (4 <=? get_indent l); [reflexivity|].
  destruct (rmatch _ _) as [e|]; [|reflexivity].
  destruct (split_max1 _) as [|x [|y [|z ?]]]; try reflexivity; destruct gen as [|l1 gen1]; try reflexivity;
    (destruct (startswith [c_lbr] l1 || blank l1); [reflexivity|]);
    destruct (split_max1 l1) as [|x1 [|y1 ?]]; try reflexivity; destruct gen1; reflexivity.
Qed.

Lemma any_splits_snd fs gs off lines : Forall2 erases fs gs ->
  snd (any_splits_log fs off lines) = any_splits gs lines.
Proof.
  induction 1 as [|f g fs gs Hf _ IH]; [reflexivity|]. cbn [any_splits_log any_splits].
  rewrite snd_lbind, Hf. destruct (g lines) as [[s r]|]; [|reflexivity]. cbn [bind].
  destruct (nilb s); [exact IH|reflexivity].
Qed.

Section WithBlockQuote.
  Variable sbq : splitter_log.
  Variable sbq' : splitter.
  Hypothesis same : erases sbq sbq'.

  Lemma par_continuation_snd off lines :
    snd (par_continuation_log sbq off lines) = par_continuation sbq' lines.
  Proof.
    unfold par_continuation_log, par_continuation. rewrite snd_lbind.
    rewrite (any_splits_snd _ [split_atx_heading; split_blank_line; sbq'; split_bullet_list;
       split_fenced_code_block; split_ordered_list; split_table; split_thematic_break]).
    - destruct (any_splits _ lines) as [b|]; [|reflexivity]. cbn [bind]. destruct b; [reflexivity|]. destruct lines; reflexivity.
    - repeat apply Forall2_cons; try apply Forall2_nil; try apply erases_silent; [exact same|apply erases_fenced].
  Qed.

  Lemma par_tail_snd off tail : snd (par_tail_log sbq off tail) = par_tail sbq' tail.
  Proof.
    revert off. induction tail as [|t rest IH]; intros off; [reflexivity|]. cbn [par_tail_log par_tail].
    rewrite snd_lbind, par_continuation_snd. destruct (par_continuation sbq' (t :: rest)) as [b|]; [|reflexivity].
    cbn [bind]. destruct b; [|reflexivity]. destruct (endswith _ t); [destruct rest; reflexivity|].
    rewrite snd_lbind, IH. destruct (par_tail sbq' rest) as [[? ?]|]; reflexivity.
  Qed.

  Lemma erases_spis : erases (split_paragraph_ignoring_setext_log sbq) (split_paragraph_ignoring_setext sbq').
  Proof.
    intros off lines. unfold split_paragraph_ignoring_setext_log, split_paragraph_ignoring_setext.
    destruct lines as [|l rest]; [reflexivity|]. destruct (is_paragraph_start_line l); [|reflexivity].
    destruct (endswith _ l); [reflexivity|]. rewrite snd_lbind, par_tail_snd.
    destruct (par_tail sbq' rest) as [[? ?]|]; reflexivity.
  Qed.

  Lemma erases_paragraph : erases (split_paragraph_log sbq) (split_paragraph sbq').
  Proof.
    intros off lines. unfold split_paragraph_log, split_paragraph. rewrite snd_lbind, erases_spis.
    destruct (split_paragraph_ignoring_setext sbq' lines) as [[p r]|]; [|reflexivity]. cbn [bind].
    destruct r as [|x r]; [reflexivity|]. destruct (negb _); reflexivity.
  Qed.

  Lemma erases_setext : erases (split_setext_heading_log sbq) (split_setext_heading sbq').
  Proof.
    intros off lines. unfold split_setext_heading_log, split_setext_heading. rewrite snd_lbind, erases_spis.
    destruct (split_paragraph_ignoring_setext sbq' lines) as [[p r]|]; [|reflexivity]. cbn [bind].
    destruct r as [|x r]; [reflexivity|]. destruct (negb (nilb p) && _); reflexivity.
  Qed.

  Lemma bq_continuation_snd off lines :
    snd (bq_continuation_log sbq off lines) = bq_continuation sbq' lines.
  Proof.
    unfold bq_continuation_log, bq_continuation. rewrite snd_lbind.
    rewrite (any_splits_snd _ (map (fun (f : splitter) l => with_redirect (f l))
        [split_atx_heading; split_blank_line; split_bullet_list; split_fenced_code_block;
         split_ordered_list; split_setext_heading sbq'; split_table; split_thematic_break])).
    - destruct (any_splits _ lines) as [b|]; [|reflexivity]. cbn [bind]. destruct b; [reflexivity|]. destruct lines; reflexivity.
    - assert (G : forall f g, erases f g -> erases (fun o l => redirect_log (f o l)) (fun l => with_redirect (g l))).
      { intros f g H off' l. rewrite snd_redirect, H. reflexivity. }
      cbn [map]. repeat apply Forall2_cons; try apply Forall2_nil; apply G; try apply erases_silent;
        [apply erases_fenced|apply erases_setext].
  Qed.

  Lemma bq_take_snd first off lines :
    snd (bq_take_continuation_log sbq first off lines) = bq_take_continuation sbq' first lines.
  Proof.
    revert first off. induction lines as [|l rest IH]; intros first off; [reflexivity|].
    cbn [bq_take_continuation_log bq_take_continuation]. rewrite snd_lbind, bq_continuation_snd.
    destruct (bq_continuation sbq' (l :: rest)) as [b|]; [|reflexivity]. cbn [bind]. destruct b; [|reflexivity].
    destruct (first && _ && _); [reflexivity|]. rewrite snd_lbind, IH.
    destruct (bq_take_continuation sbq' false rest) as [[? ?]|]; reflexivity.
  Qed.

  Lemma bq_loop_snd ewp ewp' n off bq lines : (forall l, snd (ewp l) = ewp' l) ->
    snd (bq_loop_log sbq ewp n off bq lines) = bq_loop sbq' ewp' n bq lines.
  Proof.
    intros He. revert off bq lines. induction n as [|n IH]; intros off bq lines; destruct lines as [|l lines]; try reflexivity;
      cbn [bq_loop_log bq_loop]; (destruct (negb _); [reflexivity|]); [reflexivity|].
    destruct (span is_explicit_block_quote_line (l :: lines)) as [run rem]. rewrite snd_lbind, He.
    destruct (ewp' (bq ++ run)) as [b|]; [|reflexivity]. cbn [bind]. destruct b; [|reflexivity].
    rewrite snd_lbind, bq_take_snd. destruct (bq_take_continuation sbq' true rem) as [[c r]|]; [|reflexivity].
    cbn [bind]. apply IH.
  Qed.

  Lemma erases_SPLITTERS :
    Forall2 (fun x y => fst x = fst y /\ erases (snd x) (snd y)) (SPLITTERS_log sbq) (SPLITTERS sbq').
  Proof.
    unfold SPLITTERS_log, SPLITTERS. repeat apply Forall2_cons; try apply Forall2_nil; cbn [fst snd]; (split; [reflexivity|]);
      try apply erases_silent; [exact same|apply erases_fenced|apply erases_definition|apply erases_paragraph|apply erases_setext].
  Qed.

  Lemma first_split_snd fs gs lines : Forall2 (fun x y => fst x = fst y /\ erases (snd x) (snd y)) fs gs ->
    snd (first_split_log fs lines) = first_split gs lines.
  Proof.
    intros H. revert lines. induction H as [|[ty f] [ty' g] fs gs [Ht Hf] _ IH]; intros lines; [reflexivity|].
    cbn in Ht, Hf. subst ty'. cbn [first_split_log first_split]. rewrite snd_lbind, Hf.
    destruct (g lines) as [[c r]|]; [|reflexivity]. cbn [bind]. destruct (nilb c); [apply IH|reflexivity].
  Qed.

  Lemma parse_loop_snd n k lines : snd (parse_loop_log sbq n k lines) = parse_loop sbq' n lines.
  Proof.
    revert k lines. induction n as [|n IH]; intros k lines; destruct lines as [|l lines]; try reflexivity.
    cbn [parse_loop_log parse_loop]. rewrite snd_lbind, (first_split_snd _ _ _ erases_SPLITTERS).
    destruct (first_split (SPLITTERS sbq') (l :: lines)) as [[[ty c] r]|]; [|reflexivity]. cbn [bind].
    rewrite snd_lbind. cbn [emit snd bind]. rewrite snd_lbind, IH. destruct (parse_loop sbq' n r); reflexivity.
  Qed.
End WithBlockQuote.

Lemma block_quote_snd lim :
  erases (split_block_quote_log lim) (split_block_quote lim)
  /\ forall l, snd (bq_ends_with_paragraph_log lim l) = bq_ends_with_paragraph lim l.
Proof.
  induction lim as [|lim [IH1 IH2]]; [split; [intros ? ?|intros ?]; reflexivity|]. split.
  - intros off lines. cbn [split_block_quote_log split_block_quote]. apply bq_loop_snd; assumption.
  - intros l. cbn [bq_ends_with_paragraph_log bq_ends_with_paragraph]. rewrite snd_lbind, snd_redirect.
    unfold parse_with_log, parse_with. rewrite (parse_loop_snd _ _ IH1).
    destruct (with_redirect _) as [secs|]; [|reflexivity]. cbn [bind].
    destruct (rev secs) as [|[ty c] ?]; [reflexivity|]. destruct ty; try reflexivity. apply IH2.
Qed.

Lemma parse_snd lim lines : snd (parse_markdown_log lim lines) = parse_markdown lim lines.
Proof.
  unfold parse_markdown_log, parse_markdown, parse_with_log, parse_with.
  apply parse_loop_snd. apply block_quote_snd.
Qed.

Lemma pass_all_snd R lim info text w : snd (reformat_pass_all R lim info text w) = reformat_pass lim text w.
Proof.
  revert info text w. induction lim as [|lim IH]; intros info text w; [reflexivity|].
  cbn [reformat_pass_all reformat_pass]. rewrite snd_lbind, parse_snd.
  destruct (parse_markdown lim (splitlines text)) as [secs|]; [|reflexivity]. cbn [bind].
  rewrite snd_lbind, build_snd. destruct (build_formatters 0 None secs) as [fs|]; [|reflexivity]. cbn [bind].
  rewrite snd_lbind.
  match goal with |- context [mapL ?f fs] => assert (E := snd_mapL f fs); destruct (mapL f fs) as [rs x] end.
  cbn [snd] in E |- *. rewrite E. f_equal. f_equal. apply mapM_ext. intros [[ty i] ls] _.
  apply reformatted_snd. intros l w'. apply IH.
Qed.

(** * The records of the other loggers *)

Definition own (r : record) : bool :=
  match r_logger r with LReformat | LAtx => true | _ => false end.

(** [x] makes the records of [y] that are by the formatters. *)
Definition tracks {A} (x y : logged A) : Prop :=
  snd x = snd y /\ fst x = filter own (fst y).

Lemma tracks_quietly {A} (x : res A) : tracks (quietly x) (quietly x).
Proof. split; reflexivity. Qed.

Lemma tracks_emit r : own r = true -> tracks (emit r) (emit r).
Proof. intros H. split; [reflexivity|]. cbn. rewrite H. reflexivity. Qed.

Lemma tracks_lbind {A B} (x y : logged A) (f g : A -> logged B) :
  tracks x y -> (forall a, snd x = Ok a -> tracks (f a) (g a)) -> tracks (lbind x f) (lbind y g).
Proof.
  intros [E1 E2] H. destruct x as [rs [a|e]]; destruct y as [rs' y]; cbn in E1, E2; subst y rs.
  - specialize (H a eq_refl). destruct H as [F1 F2]. cbn. destruct (f a) as [r1 z1], (g a) as [r2 z2].
    cbn in F1, F2. subst. split; [reflexivity|]. cbn. rewrite filter_app. reflexivity.
  - split; reflexivity.
Qed.

Lemma tracks_redirect {A} (x y : logged A) : tracks x y -> tracks (redirect_log x) (redirect_log y).
Proof. intros [E1 E2]. split; cbn; [rewrite E1; reflexivity|exact E2]. Qed.

Lemma tracks_mapL {A B} (f g : A -> logged B) l : (forall a, tracks (f a) (g a)) -> tracks (mapL f l) (mapL g l).
Proof.
  intros H. induction l as [|a l IH]; [apply tracks_quietly|]. cbn [mapL]. apply tracks_lbind; [apply H|].
  intros b _. apply tracks_lbind; [exact IH|]. intros bs _. apply tracks_quietly.
Qed.

Lemma tracks_build R info i last secs :
  tracks (build_formatters_log R info i last secs) (build_formatters_log R info i last secs).
Proof.
  revert i last. induction secs as [|[ty content] secs IH]; intros i last; [apply tracks_quietly|].
  cbn [build_formatters_log]. apply tracks_lbind; [apply tracks_quietly|]. intros d _.
  apply tracks_lbind; [apply tracks_emit; reflexivity|]. intros _ _.
  apply tracks_lbind.
  { unfold setext_blank. destruct ty; try apply tracks_quietly. destruct last as [[]|]; try apply tracks_quietly.
    apply tracks_lbind; [apply tracks_emit; reflexivity|]. intros _ _. apply tracks_quietly. }
  intros x _. apply tracks_lbind; [apply IH|]. intros fs _. apply tracks_quietly.
Qed.

Section TracksNested.
  Variables n1 n2 : list str -> width -> logged str.
  Hypothesis same : forall l w, tracks (n1 l w) (n2 l w).

  Lemma tracks_entry p n w e : tracks (format_entry_log n1 p n w e) (format_entry_log n2 p n w e).
  Proof.
    unfold format_entry_log. apply tracks_lbind; [do 2 apply tracks_redirect; apply same|].
    intros t _. apply tracks_quietly.
  Qed.

  Lemma tracks_reformatted ty i lines w :
    tracks (reformatted_log n1 ty i lines w) (reformatted_log n2 ty i lines w).
  Proof.
    destruct ty; try apply tracks_quietly; cbn [reformatted_log].
    - unfold fmt_atx_heading_log. destruct lines as [|l lines]; [apply tracks_quietly|].
      apply tracks_lbind; [destruct (startswith _ _); [apply tracks_quietly|apply tracks_emit; reflexivity]|].
      intros _ _. apply tracks_quietly.
    - unfold fmt_block_quote_log. apply tracks_lbind; [apply tracks_quietly|]. intros l0 _.
      apply tracks_lbind; [apply tracks_redirect; apply same|]. intros t _. apply tracks_quietly.
    - unfold fmt_bullet_list_log. do 4 (apply tracks_lbind; [apply tracks_quietly|]; intros ? _).
      apply tracks_lbind; [apply tracks_mapL; intros e; apply tracks_entry|]. intros t _. apply tracks_quietly.
    - unfold fmt_ordered_list_log. do 4 (apply tracks_lbind; [apply tracks_quietly|]; intros ? _).
      apply tracks_lbind; [apply tracks_mapL; intros [m e]; apply tracks_entry|]. intros t _. apply tracks_quietly.
  Qed.
End TracksNested.

Lemma Forall_lbind {A B} (Q : record -> Prop) (x : logged A) (f : A -> logged B) :
  Forall Q (fst x) -> (forall a, snd x = Ok a -> Forall Q (fst (f a))) -> Forall Q (fst (lbind x f)).
Proof.
  intros H1 H2. destruct (snd x) as [a|e] eqn:E.
  - rewrite (fst_lbind_ok _ _ _ E). apply Forall_app. auto.
  - rewrite (fst_lbind_err _ _ _ E). exact H1.
Qed.

Lemma Forall_quietly {A} (Q : record -> Prop) (x : res A) : Forall Q (fst (quietly x)).
Proof. constructor. Qed.
