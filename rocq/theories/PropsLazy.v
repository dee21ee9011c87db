(** Property C57: lazy continuation lines of block quotes. *)
From Coq Require Import String.
From Verif Require Import Py Regex Utils Lines Detectors Base SpecLines SpecParser SpecQuote SpecLazy
  ProofsLines ProofsParser ProofsShapes ProofsKinds PropsParser PropsQuote ProofsLimit.

(** * The end of a quote *)

Lemma unmarked_fun l a b : unmarked l a -> unmarked l b -> a = b.
Proof.
  assert (G : forall n m x y, repeat c_sp n ++ c_gt :: x = repeat c_sp m ++ c_gt :: y -> x = y).
  { induction n as [|n IH]; intros [|m] x y E; cbn in E; try discriminate; [congruence|].
    injection E as E. eauto. }
  intros [(n & Hn & ->)|[-> Ha]] [(m & Hm & Eb)|[-> Hb]].
  - eauto.
  - exfalso. exact (Hb n a Hn eq_refl).
  - exfalso. exact (Ha m b Hm Eb).
  - reflexivity.
Qed.

Lemma unmarked_map q inner : Forall2 unmarked q inner -> inner = map strip_quote_marker q.
Proof.
  intros H. induction H as [|l a q inner Hl H IH]; [reflexivity|]. cbn [map]. rewrite <- IH. f_equal.
  eapply unmarked_fun; [exact Hl|apply strip_quote_marker_spec].
Qed.

Lemma unmarked_strip q : Forall2 unmarked q (map strip_quote_marker q).
Proof. induction q; constructor; auto using strip_quote_marker_spec. Qed.

Lemma ewp_sound lim q : bq_ends_with_paragraph lim q = Ok true -> ends_in_paragraph q.
Proof.
  revert q. induction lim as [|lim IH]; intros q H; [discriminate|]. cbn [bq_ends_with_paragraph] in H.
  apply bind_ok in H. destruct H as (secs & E & H). rewrite with_redirect_ok in E.
  destruct (rev secs) as [|[ty content] r] eqn:Er; [discriminate|].
  apply (f_equal (@rev _)) in Er. rewrite rev_involutive in Er. cbn in Er. rewrite Er in E.
  destruct ty; try discriminate.
  - eapply ends_nested; [apply unmarked_strip|exact E|]. apply IH. exact H.
  - eapply ends_here; [apply unmarked_strip|exact E].
Qed.

Lemma approx_both {A} (r r' : res A) a b : approx r r' -> r = Ok a -> r' = Ok b -> a = b.
Proof. intros [->|(e & -> & _)] E E'; congruence. Qed.

Lemma parse_lim lim lim' lines a b : parse_markdown lim lines = Ok a -> parse_markdown lim' lines = Ok b -> a = b.
Proof.
  intros Ha Hb. destruct (Nat.le_ge_cases lim lim') as [L|L].
  - eapply approx_both; [apply (approx_parse lim lim' lines L)|exact Ha|exact Hb].
  - symmetry. eapply approx_both; [apply (approx_parse lim' lim lines L)|exact Hb|exact Ha].
Qed.

Lemma ewp_complete q : ends_in_paragraph q -> forall lim b, bq_ends_with_paragraph lim q = Ok b -> b = true.
Proof.
  intros H. induction H as [lim0 q inner secs content Hu E|lim0 q inner secs content Hu E H IH]; intros lim b Hb;
    (destruct lim as [|lim]; [discriminate|]); cbn [bq_ends_with_paragraph] in Hb;
    apply bind_ok in Hb; destruct Hb as (secs' & E' & Hb); rewrite with_redirect_ok in E';
    fold (parse_markdown lim (map strip_quote_marker q)) in E'; apply unmarked_map in Hu; subst inner;
    rewrite <- (parse_lim _ _ _ _ _ E E'), rev_unit in Hb.
  - injection Hb as <-. reflexivity.
  - eapply IH. exact Hb.
Qed.

(** * The loop *)

Section Loop.
  Variable sbq : splitter.
  Variable ewp : list str -> res bool.
  Let explicit l := is_explicit_block_quote_line l = true.

  Lemma run_unique run more before q x after :
    Forall (fun l => explicit l) run -> Forall (fun l => explicit l) (before ++ [q]) -> ~ explicit x ->
    match more with [] => True | y :: _ => is_explicit_block_quote_line y = false end ->
    run ++ more = before ++ q :: x :: after -> run = before ++ [q].
  Proof.
    intros Hr Hb Hx Hm E.
    assert (E' : run ++ more = (before ++ [q]) ++ x :: after) by (rewrite <- app_assoc; exact E).
    clear E. revert E' Hb. generalize (before ++ [q]) as b. clear before q.
    induction Hr as [|l run Hl Hr IH]; intros [|l' b] E Hb; cbn [app] in E.
    - reflexivity.
    - exfalso. subst more. apply Forall_inv in Hb. unfold explicit in Hb. congruence.
    - exfalso. injection E as <- _. contradiction.
    - injection E as <- E. f_equal. apply IH; [exact E|exact (Forall_inv_tail Hb)].
  Qed.

  Lemma take_rest first lines s r : bq_take_continuation sbq first lines = Ok (s, r) ->
    lines = s ++ r /\ (r = [] \/ bq_continuation sbq r = Ok false).
  Proof.
    revert first s r. induction lines as [|l rest IH]; intros first s r H; cbn [bq_take_continuation] in H; [inv H; auto|].
    bind_inv H. destruct a; [|inv H; auto].
    assert (G := bq_continuation_true sbq l rest E). destruct G as (_ & _ & _ & _ & _ & _ & _ & G).
    rewrite G, andb_false_r in H. cbn [andb] in H.
    bind_inv H. destruct a as [more rem]. inv H. destruct (IH _ _ _ E0) as [-> Hor]. auto.
  Qed.

  Lemma loop_first n bq lines s r :
    bq_loop sbq ewp n bq lines = Ok (s, r) ->
    exists more, s = bq ++ more /\ lines = more ++ r
      /\ (forall before q x after, more = before ++ q :: x :: after ->
            Forall (fun l => explicit l) (before ++ [q]) -> ~ explicit x -> ewp (bq ++ before ++ [q]) = Ok true)
      /\ match r with
         | [] => True
         | x :: _ => ~ explicit x /\ (more = [] \/ bq_continuation sbq r = Ok false \/ (ewp s = Ok false /\ exists a q, more = a ++ [q] /\ explicit q))
         end.
  Proof.
    revert bq lines s r. induction n as [|n IH]; intros bq lines s r H;
      cbn [bq_loop] in H; destruct lines as [|l rest].
    - inv H. exists []. rewrite app_nil_r. split; [reflexivity|]. split; [reflexivity|]. split; [|exact I].
      intros [] ? ? ? ?; discriminate.
    - destruct (is_explicit_block_quote_line l) eqn:El; cbn [negb] in H; [discriminate|].
      inv H. exists []. rewrite app_nil_r. split; [reflexivity|]. split; [reflexivity|].
      split; [intros [] ? ? ? ?; discriminate|]. split; [unfold explicit; congruence|auto].
    - inv H. exists []. rewrite app_nil_r. split; [reflexivity|]. split; [reflexivity|]. split; [|exact I].
      intros [] ? ? ? ?; discriminate.
    - destruct (is_explicit_block_quote_line l) eqn:El; cbn [negb] in H.
      2:{ inv H. exists []. rewrite app_nil_r. split; [reflexivity|]. split; [reflexivity|].
          split; [intros [] ? ? ? ?; discriminate|]. split; [unfold explicit; congruence|auto]. }
      destruct (span is_explicit_block_quote_line (l :: rest)) as [run rem] eqn:Es.
      assert (Hrun : exists run', run = l :: run').
      { cbn in Es. rewrite El in Es. destruct (span is_explicit_block_quote_line rest). inv Es. eauto. }
      apply span_spec in Es. destruct Es as (Esplit & Hr & Hrem).
      bind_inv H. destruct a.
      + bind_inv H. destruct a as [cont rem'].
        apply take_rest in E0. destruct E0 as [-> Hc].
        destruct (IH _ _ _ _ H) as (more & -> & -> & _ & Hn).
        exists (run ++ cont ++ more). rewrite <- !app_assoc. split; [reflexivity|].
        split; [rewrite Esplit; reflexivity|]. split.
        * intros before q x after Em Hb Hx.
          assert (Eq : run = before ++ [q]).
          { eapply run_unique; [exact Hr|exact Hb|exact Hx| |exact Em].
            destruct cont as [|y cont]; [|exact Hrem]. destruct more as [|y more]; [exact I|exact Hrem]. }
          rewrite <- Eq. exact E.
        * destruct r as [|x r]; [exact I|]. destruct Hn as [Hx Hn]. split; [exact Hx|].
          destruct Hn as [->|[Hn|(Hn & a & q & -> & Hq)]].
          -- right. left. destruct Hc as [Hc|Hc]; [discriminate|exact Hc].
          -- auto.
          -- right. right. split; [rewrite <- !app_assoc in Hn; exact Hn|]. exists (run ++ cont ++ a), q. split; [|exact Hq]. rewrite <- !app_assoc. reflexivity.
      + inv H. exists run. split; [reflexivity|]. split; [exact Esplit|]. split.
        * intros before q x after Em Hb Hx. exfalso. rewrite Em in Hr. apply Forall_app in Hr. destruct Hr as [_ Hr].
          apply Forall_inv_tail in Hr. apply Forall_inv in Hr. contradiction.
        * destruct r as [|x r]; [exact I|]. split; [unfold explicit; congruence|]. right. right. split; [exact E|].
          destruct Hrun as (run' & ->). destruct (exists_last (l := l :: run') ltac:(discriminate)) as (a & q & Ea).
          exists a, q. split; [exact Ea|]. rewrite Ea in Hr. apply Forall_app in Hr. destruct Hr as [_ Hr]. exact (Forall_inv Hr).
  Qed.
End Loop.

Lemma quote_section lim lines before content after :
  parse_markdown lim lines = Ok (before ++ (BLOCK_QUOTE, content) :: after) ->
  exists lim', lim = S lim' /\ bq_loop (split_block_quote lim') (bq_ends_with_paragraph lim') (length (content ++ concat (map snd after))) []
     (content ++ concat (map snd after)) = Ok (content, concat (map snd after)).
Proof.
  intros H. apply section_split in H. destruct H as [H _]. cbn [splitter_of] in H.
  destruct lim as [|lim]; [discriminate|]. exists lim. split; [reflexivity|exact H].
Qed.

Lemma explicit_lines ls : Forall quote_line ls <-> Forall (fun l => is_explicit_block_quote_line l = true) ls.
Proof. split; intros H; (eapply Forall_impl; [|exact H]); intros l; apply quote_spec. Qed.

(** * C57 *)

(** The first line without a quote marker stands in a block quote only if what is quoted
    before it ends in a paragraph. *)
Theorem C57_first_lazy_line_partial : forall lim lines secs quoted x more,
  parse_markdown lim lines = Ok secs -> In (BLOCK_QUOTE, quoted ++ x :: more) secs ->
  quoted <> [] -> Forall quote_line quoted -> ~ quote_line x -> ends_in_paragraph quoted.
Proof.
  intros lim lines secs quoted x more H Hin Hn Hq Hx. apply in_split in Hin. destruct Hin as (a & b & ->).
  apply quote_section in H. destruct H as (lim' & -> & H). apply loop_first in H.
  destruct H as (more' & E & _ & H & _). cbn [app] in E. subst more'.
  destruct (exists_last Hn) as (before & q & ->). eapply ewp_sound. apply (H before q x more).
  - rewrite <- app_assoc. reflexivity.
  - apply explicit_lines. exact Hq.
  - rewrite quote_spec. exact Hx.
Qed.

(** Later lines without a marker can stand in a block quote although what is quoted before
    them ends in something else, here a heading. *)
Theorem C57_refuted :
  ~ (forall lim lines secs quoted x more,
      parse_markdown lim lines = Ok secs -> In (BLOCK_QUOTE, quoted ++ x :: more) secs ->
      quoted <> [] -> ~ quote_line x -> ends_in_paragraph quoted).
Proof.
  intros H.
  assert (G : ends_in_paragraph [lit "> a"; lit "b"; lit "> # c"]).
  { eapply (H 9 [lit "> a"; lit "b"; lit "> # c"; lit "d"] _ [lit "> a"; lit "b"; lit "> # c"] (lit "d") []).
    - vm_compute. reflexivity.
    - left. reflexivity.
    - discriminate.
    - intros Hq. apply quote_spec in Hq. discriminate. }
  assert (E : bq_ends_with_paragraph 9 [lit "> a"; lit "b"; lit "> # c"] = Ok false) by (vm_compute; reflexivity).
  apply (ewp_complete _ G) in E. discriminate.
Qed.

(** The line after a block quote has no quote marker. *)
Theorem C57_all_quote_lines : forall lim lines before content ty x more after,
  parse_markdown lim lines = Ok (before ++ (BLOCK_QUOTE, content) :: (ty, x :: more) :: after) -> ~ quote_line x.
Proof.
  intros lim lines before content ty x more after H. apply quote_section in H. destruct H as (lim' & -> & H).
  apply loop_first in H. destruct H as (more' & E & _ & _ & H). cbn [map concat snd app] in H.
  rewrite <- quote_spec. apply H.
Qed.

(** A paragraph right after a block quote that ends in a paragraph, or that already has a
    line without quote marker at its end, begins with what would be an underline. *)
Theorem C57_all_lazy_lines : forall lim lines before content x more after,
  parse_markdown lim lines = Ok (before ++ (BLOCK_QUOTE, content) :: (PARAGRAPH, x :: more) :: after) ->
  ends_in_paragraph content \/ (exists a y, content = a ++ [y] /\ ~ quote_line y) ->
  underline_line x.
Proof.
  intros lim lines before content x more after H Hor.
  assert (Hp : recognises lim PARAGRAPH (x :: more ++ concat (map snd after))).
  { assert (H' := H). change ((BLOCK_QUOTE, content) :: (PARAGRAPH, x :: more) :: after)
      with ([(BLOCK_QUOTE, content)] ++ (PARAGRAPH, x :: more) :: after) in H'. rewrite app_assoc in H'.
    apply section_split in H'. destruct H' as [H' Hn]. apply recognises_split. eauto. }
  assert (Hne : content <> []) by (apply section_split in H; apply H).
  apply quote_section in H. destruct H as (lim' & -> & H).
  apply loop_first in H. destruct H as (more' & E & _ & _ & H). cbn [map concat snd app] in H, E. subst more'.
  destruct H as [_ [H|[H|(H & a & q & Ea & Hq)]]].
  - contradiction.
  - set (rest := x :: more ++ concat (map snd after)) in *. unfold bq_continuation in H. apply bind_ok in H.
    destruct H as (found & Ef & H). destruct found.
    + exfalso. apply any_splits_true in Ef. destruct Ef as (f & s & r & Hin & Ef & Hs).
      apply in_map_iff in Hin. destruct Hin as (g & <- & Hin). rewrite with_redirect_ok in Ef.
      assert (K : exists ty, In ty [ATX_HEADING; BLANK_LINE; BULLET_LIST; FENCED_CODE_BLOCK; ORDERED_LIST; SETEXT_HEADING; TABLE; THEMATIC_BREAK]
                  /\ recognises (S lim') ty rest).
      { cbn in Hin. repeat destruct Hin as [<-|Hin]; try (destruct Hin);
          [exists ATX_HEADING|exists BLANK_LINE|exists BULLET_LIST|exists FENCED_CODE_BLOCK|exists ORDERED_LIST
          |exists SETEXT_HEADING|exists TABLE|exists THEMATIC_BREAK];
          (split; [cbn; tauto|]); apply recognises_split; cbn [splitter_of]; try (exists s, r; split; assumption).
        exists s, r. split; [|exact Hs].
        assert (A := approx_setext _ _ (proj1 (approx_block_quote lim' (S lim') ltac:(lia))) rest).
        destruct A as [A|(e & A & _)]; [rewrite A; exact Ef|rewrite Ef in A; discriminate]. }
      destruct K as (ty & Hty & K). assert (Hne' : ty <> PARAGRAPH) by (intros ->; cbn in Hty; intuition discriminate).
      assert (G := recognises_exclusive _ _ _ _ Hne' K Hp). cbn in Hty, G. clear - Hty G. intuition (subst; discriminate).
    + unfold rest in H. injection H as H. apply negb_false_iff in H. apply underline_spec. exact H.
  - exfalso. destruct Hor as [Hor|(a' & y & -> & Hy)].
    + apply (ewp_complete _ Hor) in H. discriminate.
    + apply app_inj_tail in Ea. destruct Ea as [_ ->]. apply Hy, quote_spec. exact Hq.
Qed.

Example C57_nonvacuous :
  parse_markdown 9 [lit "> a"; lit "> > b"; lit "c"; lit "==="; lit "> # d"; lit "e"]
  = Ok [(BLOCK_QUOTE, [lit "> a"; lit "> > b"]); (SETEXT_HEADING, [lit "c"; lit "==="]);
        (BLOCK_QUOTE, [lit "> # d"]); (PARAGRAPH, [lit "e"])]
  /\ parse_markdown 9 [lit "> a"; lit "> > b"; lit "c"; lit "==="; lit "d"]
     = Ok [(BLOCK_QUOTE, [lit "> a"; lit "> > b"]); (SETEXT_HEADING, [lit "c"; lit "==="]); (PARAGRAPH, [lit "d"])]
  /\ parse_markdown 9 [lit "> a"; lit "> > b"; lit "c"; lit ""; lit "> d"; lit "==="]
     = Ok [(BLOCK_QUOTE, [lit "> a"; lit "> > b"; lit "c"]); (BLANK_LINE, [lit ""]); (BLOCK_QUOTE, [lit "> d"]);
           (PARAGRAPH, [lit "==="])]
  /\ ends_in_paragraph [lit "> a"; lit "> > b"] /\ ends_in_paragraph [lit "> d"].
Proof.
  split; [vm_compute; reflexivity|]. split; [vm_compute; reflexivity|]. split; [vm_compute; reflexivity|].
  split; apply (ewp_sound 9); vm_compute; reflexivity.
Qed.
