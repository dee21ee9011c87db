(** Contracts of the splitters and of the parser. *)
From Verif Require Import Py Regex Utils Lines Detectors Base SpecLines ProofsLines.

(** ** Contracts *)

Definition lossless (f : splitter) : Prop :=
  forall lines s r, f lines = Ok (s, r) -> lines = s ++ r.

(** The exceptions that the parser can raise on a non-empty list of lines. *)
Definition parser_exn (e : exn) : Prop :=
  exn_base e = StopIteration \/ exn_base e = RecursionError.

Definition safe (f : splitter) : Prop :=
  forall lines e, lines <> [] -> f lines = Err e -> parser_exn e.

Lemma parser_exn_redirected e : parser_exn e -> parser_exn (Redirected e).
Proof. exact (fun H => H). Qed.

Lemma lossless_nil f lines r : lossless f -> f lines = Ok ([], r) -> r = lines.
Proof. intros H E. apply H in E. symmetry. exact E. Qed.

Lemma span_spec {A} (p : A -> bool) l x y :
  span p l = (x, y) ->
  l = x ++ y /\ Forall (fun a => p a = true) x
  /\ match y with [] => True | a :: _ => p a = false end.
Proof.
  revert x y. induction l as [|a l IH]; intros x y H; cbn in H.
  - inv H. repeat constructor.
  - destruct (p a) eqn:Ha.
    + destruct (span p l) as [x' y'] eqn:E. inv H.
      destruct (IH x' y eq_refl) as (-> & Hs1 & Hs2). repeat split; auto.
    + inv H. repeat split; auto.
Qed.

Lemma split_one_line_ok p lines s r :
  split_one_line p lines = Ok (s, r) ->
  match lines with
  | [] => False
  | l :: rest => (p l = true /\ s = [l] /\ r = rest) \/ (p l = false /\ s = [] /\ r = lines)
  end.
Proof.
  destruct lines as [|l rest]; cbn; [discriminate|].
  destruct (p l) eqn:Hp; intros H; inv H; auto.
Qed.

Lemma lossless_one_line p : lossless (split_one_line p).
Proof.
  intros lines s r H. apply split_one_line_ok in H. destruct lines as [|l rest]; [tauto|].
  destruct H as [(_ & -> & ->)|(_ & -> & ->)]; reflexivity.
Qed.

Lemma safe_one_line p : safe (split_one_line p).
Proof.
  intros [|l rest] e Hn H; [congruence|]. cbn in H. destruct (p l); discriminate.
Qed.

Lemma split_list_section_ok start lines s r :
  split_list_section start lines = Ok (s, r) ->
  match lines with
  | [] => False
  | l :: rest =>
      (start l = true /\ exists more, s = l :: more /\ rest = more ++ r
         /\ Forall (fun x => continues_list x = true) more
         /\ match r with [] => True | x :: _ => continues_list x = false end)
      \/ (start l = false /\ s = [] /\ r = lines)
  end.
Proof.
  destruct lines as [|l rest]; cbn; [discriminate|].
  destruct (start l) eqn:Hp.
  - destruct (span continues_list rest) as [more rem] eqn:E. intros H. inv H.
    apply span_spec in E. destruct E as (E & Hs1 & Hs2). left. split; [auto|].
    exists more. auto.
  - intros H. inv H. auto.
Qed.

Lemma lossless_list start : lossless (split_list_section start).
Proof.
  intros lines s r H. apply split_list_section_ok in H. destruct lines; [tauto|].
  destruct H as [(_ & more & -> & -> & _)|(_ & -> & ->)]; reflexivity.
Qed.

Lemma safe_list start : safe (split_list_section start).
Proof.
  intros [|l rest] e Hn H; [congruence|]. cbn in H.
  destruct (start l); [destruct (span continues_list rest)|]; discriminate.
Qed.

Lemma split_table_ok lines s r :
  split_table lines = Ok (s, r) ->
  match lines with
  | [] => False
  | l :: rest =>
      (table_started l = true /\ exists more, s = l :: more /\ rest = more ++ r
         /\ Forall (fun x => table_started x = true) more
         /\ match r with [] => True | x :: _ => table_started x = false end)
      \/ (table_started l = false /\ s = [] /\ r = lines)
  end.
Proof.
  unfold split_table. destruct lines as [|l rest]; [discriminate|].
  destruct (table_started l) eqn:Hp.
  - destruct (span table_started rest) as [more rem] eqn:E. intros H. inv H.
    apply span_spec in E. destruct E as (E & Hs1 & Hs2). left. split; [auto|].
    exists more. auto.
  - intros H. inv H. auto.
Qed.

Lemma lossless_table : lossless split_table.
Proof.
  intros lines s r H. apply split_table_ok in H. destruct lines; [tauto|].
  destruct H as [(_ & more & -> & -> & _)|(_ & -> & ->)]; reflexivity.
Qed.

Lemma safe_table : safe split_table.
Proof.
  intros [|l rest] e Hn H; [congruence|]. unfold split_table in H.
  destruct (table_started l); [destruct (span table_started rest)|]; discriminate.
Qed.

(** Lines up to and including the first one that, stripped, equals the fence. *)
Lemma take_fenced_spec fence lines x y :
  take_fenced fence lines = (x, y) ->
  lines = x ++ y
  /\ ((exists body close, x = body ++ [close] /\ strip close = fence
         /\ Forall (fun l => strip l <> fence) body)
      \/ (y = [] /\ Forall (fun l => strip l <> fence) x)).
Proof.
  revert x y. induction lines as [|l rest IH]; intros x y H; cbn in H.
  - inv H. split; [auto|]. right. auto.
  - destruct (str_eqb (strip l) fence) eqn:E.
    + inv H. apply str_eqb_eq in E. split; [auto|]. left. exists [], l. auto.
    + apply str_eqb_neq in E. destruct (take_fenced fence rest) as [x' y'] eqn:Et. inv H.
      destruct (IH x' y eq_refl) as (-> & [(body & close & -> & Hc & Hb)|(-> & Hb)]).
      * split; [auto|]. left. exists (l :: body), close. auto.
      * split; [auto|]. right. auto.
Qed.

Lemma split_fenced_ok lines s r :
  split_fenced_code_block lines = Ok (s, r) ->
  match lines with
  | [] => False
  | l :: rest =>
      (exists fence more, full_fence l = Some fence /\ s = l :: more
         /\ take_fenced fence rest = (more, r))
      \/ (full_fence l = None /\ s = [] /\ r = lines)
  end.
Proof.
  destruct lines as [|l rest]; cbn; [discriminate|].
  destruct (full_fence l) as [fence|] eqn:Hp.
  - destruct (take_fenced fence rest) as [more rem] eqn:E. intros H. inv H.
    left. exists fence, more. auto.
  - intros H. inv H. auto.
Qed.

Lemma lossless_fenced : lossless split_fenced_code_block.
Proof.
  intros lines s r H. apply split_fenced_ok in H. destruct lines; [tauto|].
  destruct H as [(fence & more & _ & -> & H)|(_ & -> & ->)]; [|reflexivity].
  apply take_fenced_spec in H. destruct H as [-> _]. reflexivity.
Qed.

Lemma safe_fenced : safe split_fenced_code_block.
Proof.
  intros [|l rest] e Hn H; [congruence|]. cbn in H.
  destruct (full_fence l); [destruct (take_fenced l0 rest)|]; discriminate.
Qed.

Lemma split_indented_ok lines s r :
  split_indented_code_block lines = Ok (s, r) ->
  match lines with
  | [] => False
  | l :: rest =>
      (is_indented_code_block_start_line l = true
       /\ s = firstn (indented_close rest 1 1) lines
       /\ r = skipn (indented_close rest 1 1) lines
       /\ lines = s ++ r)
      \/ (is_indented_code_block_start_line l = false /\ s = [] /\ r = lines)
  end.
Proof.
  unfold split_indented_code_block. destruct lines as [|l rest]; [discriminate|].
  fold (is_indented_code_block_start_line l). cbv zeta.
  destruct (is_indented_code_block_start_line l) eqn:E; intros H; inv H.
  - left. split; [auto|]. split; [auto|]. split; [auto|]. symmetry. apply firstn_skipn.
  - right. auto.
Qed.

Lemma lossless_indented : lossless split_indented_code_block.
Proof.
  intros lines s r H. apply split_indented_ok in H. destruct lines; [tauto|].
  destruct H as [(_ & _ & _ & ->)|(_ & -> & ->)]; reflexivity.
Qed.

Lemma indented_close_ge lines index close :
  close <= index -> close <= indented_close lines index close.
Proof.
  revert index close. induction lines as [|l rest IH]; intros index close H; cbn [indented_close]; [lia|].
  destruct (blank l); [apply IH; lia|].
  destruct (4 <=? get_indent l); [|lia].
  transitivity index; [lia|]. apply IH. lia.
Qed.

Lemma safe_indented : safe split_indented_code_block.
Proof.
  intros [|l rest] e Hn H; [congruence|]. unfold split_indented_code_block in H.
  destruct (negb (blank l) && _); discriminate.
Qed.

(** ** Link reference definitions *)

Lemma lrd_finish_lossless lines index title gen c s r :
  lrd_finish lines index title gen c = (s, r) -> lines = s ++ r.
Proof.
  unfold lrd_finish.
  destruct (match title with
            | [] => (index, c)
            | q :: title_rest => if negb (blank title) && (N.eqb q c_squote || N.eqb q c_dquote)
                                 then lrd_close q index title_rest gen c else (index, c)
            end) as [i b].
  destruct b; intros H; inv H; [symmetry; apply firstn_skipn|reflexivity].
Qed.

Lemma ok_inj {A} (a b : A) : Ok a = Ok b -> a = b.
Proof. congruence. Qed.

Lemma lossless_lrd : lossless split_link_reference_definition.
Proof.
  intros lines s r H. unfold split_link_reference_definition in H.
  destruct lines as [|line gen]; [discriminate|].
  destruct (4 <=? get_indent line); [inv H; reflexivity|].
  destruct (rmatch LINK_REFERENCE_DEFINITION_FIRST_ELEMENT_REGEX (lstrip line)) as [e|];
    [|inv H; reflexivity].
  destruct (split_max1 (skipn e (lstrip line))) as [|a [|b [|c t]]].
  - destruct gen as [|l1 gen1]; [inv H; reflexivity|].
    destruct (startswith [c_lbr] l1 || blank l1); [inv H; reflexivity|].
    destruct (split_max1 l1) as [|x [|y t]]; [discriminate| |].
    + destruct gen1 as [|l2 gen2]; [discriminate|]. apply ok_inj in H.
      apply lrd_finish_lossless in H. exact H.
    + apply ok_inj in H. apply lrd_finish_lossless in H. exact H.
  - destruct gen as [|l1 gen1]; apply ok_inj in H; apply lrd_finish_lossless in H; exact H.
  - apply ok_inj in H. apply lrd_finish_lossless in H. exact H.
  - destruct gen as [|l1 gen1]; [inv H; reflexivity|].
    destruct (startswith [c_lbr] l1 || blank l1); [inv H; reflexivity|].
    destruct (split_max1 l1) as [|x [|y u]]; [discriminate| |].
    + destruct gen1 as [|l2 gen2]; [discriminate|]. apply ok_inj in H.
      apply lrd_finish_lossless in H. exact H.
    + apply ok_inj in H. apply lrd_finish_lossless in H. exact H.
Qed.

Lemma split_max1_nil s : split_max1 s = [] <-> blank s = true.
Proof.
  rewrite blank_spec, <- lstrip_by_nil. fold (lstrip s). unfold split_max1.
  destruct (lstrip s) as [|c t]; [tauto|].
  destruct (nilb (lstrip (lstrip_by not_space (c :: t)))); split; discriminate.
Qed.

Lemma split_max1_len s : length (split_max1 s) <= 2.
Proof.
  unfold split_max1. destruct (lstrip s) as [|c t]; [cbn; lia|].
  destruct (nilb (lstrip (lstrip_by not_space (c :: t)))); cbn; lia.
Qed.

Lemma safe_lrd : safe split_link_reference_definition.
Proof.
  intros [|line gen] e Hn H; [congruence|]. unfold split_link_reference_definition in H.
  destruct (4 <=? get_indent line); [discriminate|].
  destruct (rmatch LINK_REFERENCE_DEFINITION_FIRST_ELEMENT_REGEX (lstrip line)) as [k|];
    [|discriminate].
  assert (G : forall r, (match gen with
      | [] => Ok ([line], gen)
      | l1 :: gen1 =>
          if startswith [c_lbr] l1 || blank l1 then Ok ([line], gen)
          else match split_max1 l1 with
               | [] => Err IndexError
               | [_] => match gen1 with
                        | [] => Err StopIteration
                        | l2 :: gen2 => Ok (lrd_finish (line :: gen) 2 l2 gen2 true)
                        end
               | _ :: title_text :: _ => Ok (lrd_finish (line :: gen) 1 title_text gen1 false)
               end
      end) = r -> r = Err e -> parser_exn e).
  { intros r Hr He. subst r. destruct gen as [|l1 gen1]; [discriminate|].
    destruct (startswith [c_lbr] l1 || blank l1) eqn:Eb; [discriminate|].
    destruct (split_max1 l1) as [|x [|y t]] eqn:Es; [| |discriminate].
    - apply split_max1_nil in Es. rewrite Es, orb_true_r in Eb. discriminate.
    - destruct gen1; [|discriminate]. inv He. left. reflexivity. }
  destruct (split_max1 (skipn k (lstrip line))) as [|a [|b [|c t]]].
  - eapply G; eauto.
  - destruct gen; discriminate.
  - discriminate.
  - eapply G; eauto.
Qed.

(** ** Sequences of splitters *)

Lemma any_splits_err fs lines e :
  any_splits fs lines = Err e -> exists f, In f fs /\ f lines = Err e.
Proof.
  induction fs as [|f fs IH]; cbn; [discriminate|]. intros H.
  apply bind_err in H. destruct H as [H|([s r] & Ef & H)].
  - exists f. auto.
  - destruct (nilb s); [|discriminate]. destruct (IH H) as (g & Hg & E). exists g. auto.
Qed.

Lemma any_splits_false fs lines :
  any_splits fs lines = Ok false <-> Forall (fun f => exists r, f lines = Ok ([], r)) fs.
Proof.
  induction fs as [|f fs IH]; cbn.
  - split; [constructor|reflexivity].
  - rewrite bind_ok. split.
    + intros ([s r] & Ef & H). destruct s as [|l s]; cbn in H; [|discriminate].
      constructor; [eauto|]. apply IH. exact H.
    + intros H. inv H. destruct H2 as (r & Ef). exists ([], r). split; [exact Ef|].
      cbn. apply IH. exact H3.
Qed.

Lemma any_splits_true fs lines :
  any_splits fs lines = Ok true -> exists f s r, In f fs /\ f lines = Ok (s, r) /\ s <> [].
Proof.
  induction fs as [|f fs IH]; cbn; [discriminate|].
  rewrite bind_ok. intros ([s r] & Ef & H). destruct s as [|l s]; cbn in H.
  - destruct (IH H) as (g & s & r' & Hin & Hg & Hn). exists g, s, r'. auto.
  - exists f, (l :: s), r. repeat split; auto. discriminate.
Qed.

Lemma first_split_ok fs lines ty content rem :
  Forall (fun tf => lossless (snd tf)) fs ->
  first_split fs lines = Ok ((ty, content), rem) ->
  exists before f after, fs = before ++ (ty, f) :: after
    /\ f lines = Ok (content, rem) /\ content <> []
    /\ Forall (fun tf => snd tf lines = Ok ([], lines)) before.
Proof.
  intros Hl. revert lines. induction Hl as [|[ty' f] fs Hf Hl IH]; intros lines H;
    cbn in H; [discriminate|].
  apply bind_ok in H. destruct H as ([s r] & Ef & H). cbn in Hf.
  destruct s as [|l s]; cbn in H.
  - assert (r = lines) as -> by (eapply lossless_nil; eauto).
    destruct (IH lines H) as (before & g & after & -> & Hg & Hn & Hb).
    exists ((ty', f) :: before), g, after. repeat split; auto.
  - inv H. exists [], f, fs. repeat split; auto. discriminate.
Qed.

Lemma first_split_err fs lines e :
  Forall (fun tf => lossless (snd tf)) fs ->
  first_split fs lines = Err e ->
  (exists ty f, In (ty, f) fs /\ f lines = Err e)
  \/ (e = RuntimeError UnknownSection
      /\ Forall (fun tf => snd tf lines = Ok ([], lines)) fs).
Proof.
  intros Hl. revert lines. induction Hl as [|[ty f] fs Hf Hl IH]; intros lines H;
    cbn in H; [inv H; auto|].
  apply bind_err in H. destruct H as [H|([s r] & Ef & H)].
  - left. exists ty, f. cbn. auto.
  - destruct s as [|l s]; cbn in H; [|discriminate].
    assert (r = lines) as -> by (eapply lossless_nil; eauto).
    destruct (IH lines H) as [(ty' & g & Hin & Hg)|[-> Hall]].
    + left. exists ty', g. cbn. auto.
    + right. split; [auto|]. constructor; auto.
Qed.

(** Read off, from splitters that recognised nothing, that the line predicates fail. *)
Ltac not_recognised :=
  match goal with
  | H : split_atx_heading _ = Ok ([], _) |- is_atx_heading_line _ = false =>
      apply split_one_line_ok in H
  | H : split_blank_line _ = Ok ([], _) |- is_blank_line_line _ = false =>
      apply split_one_line_ok in H
  | H : split_thematic_break _ = Ok ([], _) |- is_thematic_break_line _ = false =>
      apply split_one_line_ok in H
  | H : split_bullet_list _ = Ok ([], _) |- is_bullet_list_start_line _ = false =>
      apply split_list_section_ok in H
  | H : split_ordered_list _ = Ok ([], _) |- is_ordered_list_start_line _ = false =>
      apply split_list_section_ok in H
  | H : split_table _ = Ok ([], _) |- is_table_start_line _ = false =>
      apply split_table_ok in H
  | H : split_fenced_code_block _ = Ok ([], _)
    |- is_fenced_code_block_start_line _ = false =>
      apply full_fence_none; apply split_fenced_ok in H
  end;
  match goal with
  | H : _ \/ (?p = _ /\ _ = _ /\ _ = _) |- _ =>
      let G := fresh in destruct H as [H|(G & _ & _)]; [|exact G];
      repeat match goal with
             | H : exists _, _ |- _ => destruct H as [? H]
             | H : _ /\ _ |- _ => destruct H
             end; discriminate
  end.

(** ** Paragraphs and everything that depends on block quotes *)

Section WithBlockQuote.
  Variable sbq : splitter.
  Hypothesis sbq_lossless : lossless sbq.
  Hypothesis sbq_safe : safe sbq.
  Hypothesis sbq_explicit : forall l rest s r,
    is_explicit_block_quote_line l = true -> sbq (l :: rest) = Ok (s, r) -> s <> [].

  Lemma par_continuation_err lines e :
    lines <> [] -> par_continuation sbq lines = Err e -> parser_exn e.
  Proof.
    intros Hn H. unfold par_continuation in H. apply bind_err in H.
    destruct H as [H|(b & Eb & H)].
    - apply any_splits_err in H. destruct H as (f & Hin & Hf).
      cbn in Hin.
      destruct Hin as [<-|[<-|[<-|[<-|[<-|[<-|[<-|[<-|[]]]]]]]]]; revert Hn Hf;
        [apply safe_one_line|apply safe_one_line|apply sbq_safe|apply safe_list
        |apply safe_fenced|apply safe_list|apply safe_table|apply safe_one_line].
    - destruct b; [discriminate|]. destruct lines; [congruence|discriminate].
  Qed.

  (** What a continuation line of a paragraph is not. *)
  Lemma par_continuation_true l rest :
    par_continuation sbq (l :: rest) = Ok true ->
    is_atx_heading_line l = false /\ is_blank_line_line l = false
    /\ is_explicit_block_quote_line l = false /\ is_bullet_list_start_line l = false
    /\ is_fenced_code_block_start_line l = false /\ is_ordered_list_start_line l = false
    /\ is_table_start_line l = false /\ is_thematic_break_line l = false
    /\ is_setext_underline l = false.
  Proof.
    unfold par_continuation. intros H. apply bind_ok in H. destruct H as (b & Eb & H).
    destruct b; [discriminate|]. injection H as H. apply negb_true_iff in H.
    apply any_splits_false in Eb.
    repeat match goal with H : Forall _ (_ :: _) |- _ => inv H end.
    repeat match goal with H : exists _, _ |- _ =>
      let r := fresh "r" in destruct H as (r & H) end.
    repeat split; try exact H; try not_recognised.
    destruct (is_explicit_block_quote_line l) eqn:E; [|auto]. exfalso.
    match goal with Hs : sbq _ = _ |- _ =>
      apply (sbq_explicit l rest _ _ E Hs); reflexivity end.
  Qed.

  Lemma par_tail_ok tail s r : par_tail sbq tail = Ok (s, r) -> tail = s ++ r.
  Proof.
    revert s r. induction tail as [|t rest IH]; intros s r H; cbn [par_tail] in H.
    - inv H. reflexivity.
    - bind_inv H. destruct a; [|inv H; reflexivity].
      destruct (endswith [c_sp; c_sp] t).
      + destruct rest; [discriminate|]. inv H. reflexivity.
      + bind_inv H. destruct a as [more rem]. inv H. rewrite (IH more r); auto.
  Qed.

  Lemma par_tail_err tail e : par_tail sbq tail = Err e -> parser_exn e.
  Proof.
    induction tail as [|t rest IH]; intros H; cbn [par_tail] in H; [discriminate|].
    apply bind_err in H. destruct H as [H|(b & Eb & H)].
    - eapply par_continuation_err; [|exact H]. discriminate.
    - destruct b; [|discriminate]. destruct (endswith [c_sp; c_sp] t).
      + destruct rest; inv H. left. reflexivity.
      + apply bind_err in H. destruct H as [H|([more rem] & _ & H)]; [auto|discriminate].
  Qed.

  Lemma spis_ok lines s r :
    split_paragraph_ignoring_setext sbq lines = Ok (s, r) ->
    match lines with
    | [] => False
    | l :: rest =>
        (is_paragraph_start_line l = true /\ exists more, s = l :: more /\ rest = more ++ r)
        \/ (is_paragraph_start_line l = false /\ s = [] /\ r = lines)
    end.
  Proof.
    destruct lines as [|l rest]; cbn [split_paragraph_ignoring_setext]; [discriminate|].
    destruct (is_paragraph_start_line l) eqn:Hp.
    - intros H. left. split; [auto|]. destruct (endswith [c_sp; c_sp] l).
      + inv H. exists []. auto.
      + bind_inv H. destruct a as [more rem]. inv H. exists more. split; [auto|].
        apply par_tail_ok. auto.
    - intros H. inv H. auto.
  Qed.

  Lemma spis_err lines e :
    lines <> [] -> split_paragraph_ignoring_setext sbq lines = Err e -> parser_exn e.
  Proof.
    intros Hn H. destruct lines as [|l rest]; [congruence|].
    cbn [split_paragraph_ignoring_setext] in H.
    destruct (is_paragraph_start_line l); [|discriminate].
    destruct (endswith [c_sp; c_sp] l); [discriminate|].
    apply bind_err in H. destruct H as [H|([more rem] & _ & H)]; [|discriminate].
    eapply par_tail_err; eauto.
  Qed.

  Lemma lossless_spis : lossless (split_paragraph_ignoring_setext sbq).
  Proof.
    intros lines s r H. apply spis_ok in H. destruct lines; [tauto|].
    destruct H as [(_ & more & -> & ->)|(_ & -> & ->)]; reflexivity.
  Qed.

  Lemma split_paragraph_ok lines s r :
    split_paragraph sbq lines = Ok (s, r) ->
    (s = [] /\ r = lines)
    \/ (s <> [] /\ split_paragraph_ignoring_setext sbq lines = Ok (s, r)
        /\ match r with [] => True | x :: _ => is_setext_underline x = false end).
  Proof.
    unfold split_paragraph. intros H. bind_inv H. destruct a as [p rem].
    destruct rem as [|x rem].
    - inv H. assert (G := lossless_spis _ _ _ E). rewrite app_nil_r in G. subst s.
      destruct lines as [|l rest]; [apply spis_ok in E; tauto|].
      right. repeat split; auto. discriminate.
    - destruct (is_setext_underline x) eqn:Ex; cbn in H; inv H; [auto|].
      destruct s as [|l s]; [left|right; repeat split; auto; discriminate].
      split; [auto|]. apply lossless_spis in E. auto.
  Qed.

  Lemma lossless_paragraph : lossless (split_paragraph sbq).
  Proof.
    intros lines s r H. apply split_paragraph_ok in H.
    destruct H as [[-> ->]|(_ & H & _)]; [reflexivity|]. apply lossless_spis. exact H.
  Qed.

  Lemma safe_paragraph : safe (split_paragraph sbq).
  Proof.
    intros lines e Hn H. unfold split_paragraph in H. apply bind_err in H.
    destruct H as [H|([p rem] & _ & H)]; [eapply spis_err; eauto|].
    destruct rem as [|x rem]; [discriminate|].
    destruct (negb (is_setext_underline x)); discriminate.
  Qed.

  Lemma split_setext_ok lines s r :
    split_setext_heading sbq lines = Ok (s, r) ->
    (s = [] /\ r = lines)
    \/ exists p u, s = p ++ [u] /\ p <> [] /\ is_setext_underline u = true
         /\ split_paragraph_ignoring_setext sbq lines = Ok (p, u :: r).
  Proof.
    unfold split_setext_heading. intros H. bind_inv H. destruct a as [p rem].
    destruct rem as [|x rem]; [inv H; auto|].
    destruct (negb (nilb p) && is_setext_underline x) eqn:Ex; inv H; [|auto].
    apply andb_true_iff in Ex. destruct Ex as [E1 E2].
    right. exists p, x. repeat split; auto. apply negb_true_iff, nilb_false in E1. exact E1.
  Qed.

  Lemma lossless_setext : lossless (split_setext_heading sbq).
  Proof.
    intros lines s r H. apply split_setext_ok in H.
    destruct H as [[-> ->]|(p & u & -> & _ & _ & H)]; [reflexivity|].
    apply lossless_spis in H. rewrite <- app_assoc. exact H.
  Qed.

  Lemma safe_setext : safe (split_setext_heading sbq).
  Proof.
    intros lines e Hn H. unfold split_setext_heading in H. apply bind_err in H.
    destruct H as [H|([p rem] & _ & H)]; [eapply spis_err; eauto|].
    destruct rem as [|x rem]; [discriminate|].
    destruct (negb (nilb p) && is_setext_underline x); discriminate.
  Qed.

  (** ** Block quotes *)

  Lemma bq_continuation_err lines e :
    lines <> [] -> bq_continuation sbq lines = Err e -> parser_exn e.
  Proof.
    intros Hn H. unfold bq_continuation in H. apply bind_err in H.
    destruct H as [H|(b & Eb & H)].
    - apply any_splits_err in H. destruct H as (f & Hin & Hf).
      apply in_map_iff in Hin. destruct Hin as (g & <- & Hin).
      assert (Hg : exists e', g lines = Err e' /\ e = Redirected e').
      { unfold with_redirect in Hf. destruct (g lines); [discriminate|]. inv Hf. eauto. }
      destruct Hg as (e' & Hg & ->). apply parser_exn_redirected. cbn in Hin.
      destruct Hin as [<-|[<-|[<-|[<-|[<-|[<-|[<-|[<-|[]]]]]]]]]; revert Hn Hg;
        [apply safe_one_line|apply safe_one_line|apply safe_list
        |apply safe_fenced|apply safe_list|apply safe_setext|apply safe_table
        |apply safe_one_line].
    - destruct b; [discriminate|]. destruct lines; [congruence|discriminate].
  Qed.

  Lemma bq_continuation_true l rest :
    bq_continuation sbq (l :: rest) = Ok true ->
    is_atx_heading_line l = false /\ is_blank_line_line l = false
    /\ is_bullet_list_start_line l = false
    /\ is_fenced_code_block_start_line l = false /\ is_ordered_list_start_line l = false
    /\ is_table_start_line l = false /\ is_thematic_break_line l = false
    /\ is_setext_underline l = false.
  Proof.
    unfold bq_continuation. intros H. apply bind_ok in H. destruct H as (b & Eb & H).
    destruct b; [discriminate|]. injection H as H. apply negb_true_iff in H.
    apply any_splits_false in Eb. cbn [map] in Eb.
    repeat match goal with H : Forall _ (_ :: _) |- _ => inv H end.
    repeat match goal with H : exists _, _ |- _ =>
      let r := fresh "r" in destruct H as (r & H); rewrite with_redirect_ok in H end.
    repeat split; try exact H; try not_recognised.
  Qed.

  (** A lazy continuation line of a block quote. *)
  Definition lazy_line_b (l : str) : Prop :=
    is_atx_heading_line l = false /\ is_blank_line_line l = false
    /\ is_bullet_list_start_line l = false
    /\ is_fenced_code_block_start_line l = false /\ is_ordered_list_start_line l = false
    /\ is_table_start_line l = false /\ is_thematic_break_line l = false
    /\ is_setext_underline l = false.

  Lemma bq_take_continuation_ok first lines s r :
    bq_take_continuation sbq first lines = Ok (s, r) ->
    lines = s ++ r /\ Forall lazy_line_b s.
  Proof.
    revert first s r. induction lines as [|l rest IH]; intros first s r H;
      cbn [bq_take_continuation] in H; [inv H; auto|].
    bind_inv H. destruct a; [|inv H; auto].
    destruct (first && is_setext_underline l && negb (is_thematic_break_line l));
      [inv H; auto|].
    bind_inv H. destruct a as [more rem]. inv H.
    destruct (IH _ _ _ E0) as [-> Hf]. split; [auto|]. constructor; [|auto].
    apply (bq_continuation_true l (more ++ r)). exact E.
  Qed.

  Lemma bq_take_continuation_err first lines e :
    bq_take_continuation sbq first lines = Err e -> parser_exn e.
  Proof.
    revert first. induction lines as [|l rest IH]; intros first H;
      cbn [bq_take_continuation] in H; [discriminate|].
    apply bind_err in H. destruct H as [H|(b & Eb & H)].
    - eapply bq_continuation_err; [|exact H]. discriminate.
    - destruct b; [|discriminate].
      destruct (first && is_setext_underline l && negb (is_thematic_break_line l));
        [discriminate|].
      apply bind_err in H. destruct H as [H|([more rem] & _ & H)]; [eauto|discriminate].
  Qed.

  Section Loop.
  Variable ewp : list str -> res bool.
  Hypothesis ewp_safe : forall bq e, bq <> [] -> ewp bq = Err e -> parser_exn e.

  Lemma bq_loop_ok n bq lines s r :
    bq_loop sbq ewp n bq lines = Ok (s, r) ->
    exists more, s = bq ++ more /\ lines = more ++ r
      /\ Forall (fun l => is_explicit_block_quote_line l = true \/ lazy_line_b l) more
      /\ match lines with
         | [] => more = []
         | l :: _ => if is_explicit_block_quote_line l
                     then exists more', more = l :: more' else more = []
         end.
  Proof.
    revert bq lines s r. induction n as [|n IH]; intros bq lines s r H;
      cbn [bq_loop] in H; destruct lines as [|l rest].
    - inv H. exists []. rewrite app_nil_r. auto.
    - destruct (is_explicit_block_quote_line l) eqn:El; cbn [negb] in H; [discriminate|].
      inv H. exists []. rewrite app_nil_r. auto.
    - inv H. exists []. rewrite app_nil_r. auto.
    - destruct (is_explicit_block_quote_line l) eqn:El; cbn [negb] in H.
      2:{ inv H. exists []. rewrite app_nil_r. auto. }
      destruct (span is_explicit_block_quote_line (l :: rest)) as [run rem] eqn:Es.
      assert (Hrun : exists run', run = l :: run').
      { cbn in Es. rewrite El in Es. destruct (span is_explicit_block_quote_line rest).
        inv Es. eauto. }
      apply span_spec in Es. destruct Es as (Esplit & Hr & _).
      bind_inv H. destruct a.
      + bind_inv H. destruct a as [cont rem'].
        apply bq_take_continuation_ok in E0. destruct E0 as [-> Hc].
        destruct (IH _ _ _ _ H) as (more & -> & -> & Hm & _).
        exists (run ++ cont ++ more). rewrite <- !app_assoc. split; [auto|].
        split; [rewrite Esplit; auto|]. split.
        * apply Forall_app. split; [eapply Forall_impl; [|exact Hr]; cbn; auto|].
          apply Forall_app. split; [eapply Forall_impl; [|exact Hc]; cbn; auto|exact Hm].
        * destruct Hrun as (run' & ->). cbn. eauto.
      + inv H. exists run. split; [auto|]. split; [auto|]. split.
        * eapply Forall_impl; [|exact Hr]. cbn; auto.
        * exact Hrun.
  Qed.

  Lemma bq_loop_err n bq lines e :
    length lines <= n -> bq_loop sbq ewp n bq lines = Err e -> parser_exn e.
  Proof.
    revert bq lines. induction n as [|n IH]; intros bq lines Hn H;
      cbn [bq_loop] in H; destruct lines as [|l rest]; try discriminate.
    - cbn in Hn. lia.
    - destruct (is_explicit_block_quote_line l) eqn:El; cbn [negb] in H; [|discriminate].
      destruct (span is_explicit_block_quote_line (l :: rest)) as [run rem] eqn:Es.
      assert (Hrun : exists run', run = l :: run').
      { cbn in Es. rewrite El in Es. destruct (span is_explicit_block_quote_line rest).
        inv Es. eauto. }
      destruct Hrun as (run' & ->).
      apply span_spec in Es. destruct Es as (Esplit & Hr & _).
      apply bind_err in H. destruct H as [H|(b & Eb & H)].
      + eapply ewp_safe; [|exact H]. destruct bq; discriminate.
      + destruct b; [|discriminate]. apply bind_err in H.
        destruct H as [H|([cont rem'] & Ec & H)];
          [eapply bq_take_continuation_err; eauto|].
        apply bq_take_continuation_ok in Ec. destruct Ec as [-> _].
        eapply IH; [|exact H]. injection Esplit as Esplit. rewrite Esplit in Hn.
        cbn [length] in Hn. rewrite !app_length in Hn. lia.
  Qed.

  End Loop.

  (** ** The parser *)

  Lemma lossless_SPLITTERS : Forall (fun tf => lossless (snd tf)) (SPLITTERS sbq).
  Proof.
    repeat constructor; cbn [snd].
    - apply lossless_one_line.
    - apply lossless_one_line.
    - exact sbq_lossless.
    - apply lossless_list.
    - apply lossless_fenced.
    - apply lossless_indented.
    - apply lossless_lrd.
    - apply lossless_list.
    - apply lossless_paragraph.
    - apply lossless_setext.
    - apply lossless_table.
    - apply lossless_one_line.
  Qed.

  Lemma safe_SPLITTERS ty f : In (ty, f) (SPLITTERS sbq) -> safe f.
  Proof.
    intros H. cbn in H.
    destruct H as [E|[E|[E|[E|[E|[E|[E|[E|[E|[E|[E|[E|[]]]]]]]]]]]]]; inv E.
    - apply safe_one_line.
    - apply safe_one_line.
    - exact sbq_safe.
    - apply safe_list.
    - apply safe_fenced.
    - apply safe_indented.
    - apply safe_lrd.
    - apply safe_list.
    - apply safe_paragraph.
    - apply safe_setext.
    - apply safe_table.
    - apply safe_one_line.
  Qed.

  (** Some splitter recognises any non-empty list of lines. *)
  Lemma some_splitter l rest :
    ~ Forall (fun tf => snd tf (l :: rest) = Ok ([], l :: rest)) (SPLITTERS sbq).
  Proof.
    intros H. unfold SPLITTERS in H.
    repeat match goal with H : Forall _ (_ :: _) |- _ => inv H end. cbn [snd] in *.
    assert (Hpar : is_paragraph_start_line l = true).
    { unfold is_paragraph_start_line. apply negb_true_iff. cbn [existsb].
      rewrite !orb_false_iff. repeat split.
      all: try not_recognised.
      - match goal with H : split_indented_code_block _ = _ |- _ =>
          apply split_indented_ok in H; destruct H as [(Hi & Hs & _)|(Hi & _)]; [|exact Hi] end.
        assert (G := indented_close_ge rest 1 1 (le_n 1)).
        destruct (indented_close rest 1 1); [lia|discriminate].
      - destruct (is_explicit_block_quote_line l) eqn:E; [|auto]. exfalso.
        match goal with Hs : sbq _ = _ |- _ =>
          apply (sbq_explicit l rest _ _ E Hs); reflexivity end. }
    match goal with Hs : split_paragraph _ _ = _, Ht : split_setext_heading _ _ = _ |- _ =>
      rename Hs into HP; rename Ht into HS end.
    unfold split_paragraph in HP. bind_inv HP. destruct a as [p rem].
    assert (Hp : p <> []).
    { apply spis_ok in E. destruct E as [(_ & more & -> & _)|(E & _)]; congruence. }
    unfold split_setext_heading in HS. rewrite E in HS. cbn [bind] in HS.
    destruct rem as [|x rem]; [inv HP; congruence|].
    destruct (is_setext_underline x); cbn [negb] in HP; [|inv HP; congruence].
    apply nilb_false in Hp. rewrite Hp in HS. cbn [negb andb] in HS.
    injection HS as HS _. destruct p; discriminate.
  Qed.

  Lemma parse_loop_ok n lines secs :
    parse_loop sbq n lines = Ok secs ->
    concat (map snd secs) = lines /\ Forall (fun s => snd s <> []) secs.
  Proof.
    revert lines secs. induction n as [|n IH]; intros lines secs H;
      cbn [parse_loop] in H; destruct lines as [|l rest]; try discriminate;
      try (inv H; auto; fail).
    bind_inv H. destruct a as [[ty content] rem]. bind_inv H. inv H.
    apply (first_split_ok _ _ _ _ _ lossless_SPLITTERS) in E.
    destruct E as (before & f & after & Heq & Hf & Hn & _).
    destruct (IH _ _ E0) as [Hc Hall]. cbn [map concat snd]. rewrite Hc. split; [|auto].
    assert (Hl := lossless_SPLITTERS). rewrite Heq in Hl. apply Forall_app in Hl.
    destruct Hl as [_ Hl]. inv Hl. cbn [snd] in *. symmetry. auto.
  Qed.

  (** The parser as a relation: each section is what the first splitter to recognise
      anything returns. *)
  Inductive parsed : list str -> list section -> Prop :=
  | parsed_nil : parsed [] []
  | parsed_cons lines ty content rem secs before f after :
      SPLITTERS sbq = before ++ (ty, f) :: after ->
      f lines = Ok (content, rem) ->
      content <> [] ->
      lines = content ++ rem ->
      Forall (fun tf => snd tf lines = Ok ([], lines)) before ->
      parsed rem secs ->
      parsed lines ((ty, content) :: secs).

  Lemma parse_loop_parsed n lines secs :
    parse_loop sbq n lines = Ok secs -> parsed lines secs.
  Proof.
    revert lines secs. induction n as [|n IH]; intros lines secs H;
      cbn [parse_loop] in H; destruct lines as [|l rest]; try discriminate;
      try (inv H; constructor; fail).
    bind_inv H. destruct a as [[ty content] rem]. bind_inv H. inv H.
    apply (first_split_ok _ _ _ _ _ lossless_SPLITTERS) in E.
    destruct E as (before & f & after & Heq & Hf & Hn & Hb).
    econstructor; eauto.
    assert (Hl := lossless_SPLITTERS). rewrite Heq in Hl. apply Forall_app in Hl.
    destruct Hl as [_ Hl]. inv Hl. auto.
  Qed.

  Lemma parse_loop_err n lines e :
    length lines <= n -> parse_loop sbq n lines = Err e -> parser_exn e.
  Proof.
    revert lines. induction n as [|n IH]; intros lines Hlen H;
      cbn [parse_loop] in H; destruct lines as [|l rest]; try discriminate.
    - cbn in Hlen. lia.
    - apply bind_err in H. destruct H as [H|([[ty content] rem] & E & H)].
      + apply (first_split_err _ _ _ lossless_SPLITTERS) in H.
        destruct H as [(ty & f & Hin & Hf)|[_ H]].
        * eapply safe_SPLITTERS; eauto. discriminate.
        * exfalso. eapply some_splitter; eauto.
      + apply (first_split_ok _ _ _ _ _ lossless_SPLITTERS) in E.
        destruct E as (before & f & after & Heq & Hf & Hn & _).
        assert (Hl := lossless_SPLITTERS). rewrite Heq in Hl. apply Forall_app in Hl.
        destruct Hl as [_ Hl]. inv Hl. cbn [snd] in *. apply H2 in Hf.
        apply bind_err in H. destruct H as [H|(secs & _ & H)]; [|discriminate].
        eapply IH; [|exact H]. apply (f_equal (@length _)) in Hf.
        rewrite app_length in Hf. destruct content; [congruence|]. cbn in *. lia.
  Qed.
End WithBlockQuote.

(** ** Tying the knot over the recursion limit *)

Lemma block_quote_contract lim :
  lossless (split_block_quote lim)
  /\ safe (split_block_quote lim)
  /\ (forall l rest s r, is_explicit_block_quote_line l = true ->
        split_block_quote lim (l :: rest) = Ok (s, r) -> s <> [])
  /\ (forall bq e, bq <> [] -> bq_ends_with_paragraph lim bq = Err e -> parser_exn e).
Proof.
  induction lim as [|lim (IH1 & IH2 & IH3 & IH4)].
  - repeat split; try (intros; discriminate).
    + intros lines e _ H. inv H. right. reflexivity.
    + intros bq e _ H. inv H. right. reflexivity.
  - repeat split.
    + intros lines s r H. cbn [split_block_quote] in H. apply bq_loop_ok in H.
      destruct H as (more & -> & -> & _). reflexivity.
    + intros lines e Hn H. cbn [split_block_quote] in H.
      eapply bq_loop_err; eauto.
    + intros l rest s r Hl H. cbn [split_block_quote] in H. apply bq_loop_ok in H.
      destruct H as (more & -> & _ & _ & Hm). rewrite Hl in Hm.
      destruct Hm as (more' & ->). discriminate.
    + intros bq e Hn H. cbn [bq_ends_with_paragraph] in H. apply bind_err in H.
      destruct H as [H|(secs & Hs & H)].
      * unfold with_redirect in H.
        destruct (parse_with (split_block_quote lim) (map strip_quote_marker bq))
          as [x|e'] eqn:E; [discriminate|]. injection H as <-.
        apply parser_exn_redirected.
        unfold parse_with in E. eapply parse_loop_err; [..|exact E]; eauto.
      * rewrite with_redirect_ok in Hs. unfold parse_with in Hs.
        apply parse_loop_ok in Hs; [|exact IH1]. destruct Hs as [Hc Hall].
        destruct (rev secs) as [|[ty content] secs'] eqn:Er.
        -- exfalso. apply (f_equal (@rev _)) in Er. rewrite rev_involutive in Er.
           subst secs. destruct bq; [congruence|discriminate].
        -- destruct ty; try discriminate. eapply IH4; [|exact H].
           assert (Hin : In (BLOCK_QUOTE, content) secs).
           { apply (proj2 (in_rev secs _)). rewrite Er. left. reflexivity. }
           rewrite Forall_forall in Hall. apply (Hall _ Hin).
Qed.

Lemma parse_markdown_lossless lim lines secs :
  parse_markdown lim lines = Ok secs ->
  concat (map snd secs) = lines /\ Forall (fun s => snd s <> []) secs.
Proof. apply parse_loop_ok, block_quote_contract. Qed.

Lemma parse_markdown_parsed lim lines secs :
  parse_markdown lim lines = Ok secs -> parsed (split_block_quote lim) lines secs.
Proof. apply parse_loop_parsed, block_quote_contract. Qed.

Lemma parse_markdown_err lim lines e :
  parse_markdown lim lines = Err e -> parser_exn e.
Proof.
  destruct (block_quote_contract lim) as (H1 & H2 & H3 & _).
  apply parse_loop_err; auto.
Qed.
