(** Properties C15-C19, C38 and C39: sections without nested text, and how the texts of
    the sections make up the output. *)
From Coq Require Import String.
From Verif Require Import Py Regex Utils TextWrap Lines Detectors Formatters Base
  SpecLines SpecParser SpecFormat ProofsLines ProofsParser ProofsShapes ProofsKinds ProofsForward
  ProofsPass.

(** * C38 *)

(** The output of a pass is the texts of the document's sections in order, each followed
    by a newline, with one empty text exactly between a block quote and a setext heading
    that directly follows it. (A document without lines gives one newline.) *)
Theorem C38_sections_in_order : forall lim text w out,
  reformat_pass lim text w = Ok out ->
  exists lim' secs texts, lim = S lim'
    /\ parse_markdown lim' (splitlines text) = Ok secs
    /\ section_texts lim' w 0 secs texts
    /\ (secs <> [] ->
        out = newline_terminated (separated None (combine (map fst secs) texts)))
    /\ (secs = [] -> out = [c_nl]).
Proof.
  intros [|lim] text w out H; [discriminate|]. apply reformat_pass_inv in H.
  destruct H as (secs & texts & Hp & Ht & ->). exists lim, secs, texts.
  repeat (split; [auto; fail|]). split.
  - intros Hn. unfold finish_pass.
    destruct (separated None (combine (map fst secs) texts)) eqn:E; [|reflexivity].
    apply separated_nil in E. apply section_texts_length in Ht.
    destruct secs as [|[ty c] secs]; [congruence|]. destruct texts; discriminate.
  - intros ->. inv Ht. reflexivity.
Qed.

(** Between a block quote and a setext heading there is an empty line... *)
Theorem C38_quote_then_setext : forall lim text w out before q s after,
  reformat_pass (S lim) text w = Ok out ->
  parse_markdown lim (splitlines text)
    = Ok (before ++ (BLOCK_QUOTE, q) :: (SETEXT_HEADING, s) :: after) ->
  exists t1 rq rs t2,
    section_text lim w (length (concat (map snd before))) BLOCK_QUOTE q rq
    /\ section_text lim w (length (concat (map snd before)) + length q) SETEXT_HEADING s rs
    /\ out = t1 ++ (rq ++ [c_nl]) ++ [c_nl] ++ (rs ++ [c_nl]) ++ t2.
Proof.
  intros lim text w out before q s after H Hp. apply reformat_pass_inv in H.
  destruct H as (secs & texts & Hp' & Ht & ->). rewrite Hp in Hp'. inv Hp'.
  apply section_texts_app in Ht. destruct Ht as (t1 & t2 & -> & H1 & H2). cbn [plus] in H2.
  inversion H2 as [|? ? ? ? rq o2 Hq H3]; subst. inversion H3 as [|? ? ? ? rs o3 Hs H4]; subst.
  apply section_texts_length in H1.
  rewrite map_app, combine_app by (rewrite map_length; symmetry; exact H1). cbn [map fst combine].
  rewrite separated_app. cbn [separated].
  exists (newline_terminated (separated None (combine (map fst before) t1))), rq, rs,
    (newline_terminated (separated (Some SETEXT_HEADING) (combine (map fst after) o3))).
  split; [exact Hq|]. split; [exact Hs|].
  rewrite finish_pass_ne by (apply app_ne_r, app_ne_r; discriminate).
  unfold newline_terminated. rewrite !map_app, !concat_app.
  replace (match match rev (combine (map fst before) t1) with
                 | [] => None | (ty, _) :: _ => Some ty end with
           | Some _ => _ | None => _ end) with (@nil str)
    by (destruct (match rev (combine (map fst before) t1) with
                  | [] => None | (ty, _) :: _ => Some ty end) as [[]|]; reflexivity).
  reflexivity.
Qed.

(** ... and between any other two consecutive sections nothing is added. *)
Theorem C38_no_other_separator : forall lim text w out before ty1 c1 ty2 c2 after,
  reformat_pass (S lim) text w = Ok out ->
  parse_markdown lim (splitlines text) = Ok (before ++ (ty1, c1) :: (ty2, c2) :: after) ->
  ~ (ty1 = BLOCK_QUOTE /\ ty2 = SETEXT_HEADING) ->
  exists t1 r1 r2 t2,
    section_text lim w (length (concat (map snd before))) ty1 c1 r1
    /\ section_text lim w (length (concat (map snd before)) + length c1) ty2 c2 r2
    /\ out = t1 ++ (r1 ++ [c_nl]) ++ (r2 ++ [c_nl]) ++ t2.
Proof.
  intros lim text w out before ty1 c1 ty2 c2 after H Hp Hn. apply reformat_pass_inv in H.
  destruct H as (secs & texts & Hp' & Ht & ->). rewrite Hp in Hp'. inv Hp'.
  apply section_texts_app in Ht. destruct Ht as (t1 & t2 & -> & H1 & H2). cbn [plus] in H2.
  inversion H2 as [|? ? ? ? r1 o2 Hq H3]; subst. inversion H3 as [|? ? ? ? r2 o3 Hs H4]; subst.
  apply section_texts_length in H1.
  rewrite map_app, combine_app by (rewrite map_length; symmetry; exact H1). cbn [map fst combine].
  rewrite separated_app. cbn [separated].
  set (last := match rev (combine (map fst before) t1) with
               | [] => None | (ty, _) :: _ => Some ty end).
  exists (newline_terminated (separated None (combine (map fst before) t1)
            ++ match last, ty1 with Some BLOCK_QUOTE, SETEXT_HEADING => [[]] | _, _ => [] end)),
    r1, r2, (newline_terminated (separated (Some ty2) (combine (map fst after) o3))).
  split; [exact Hq|]. split; [exact Hs|].
  rewrite finish_pass_ne by (apply app_ne_r, app_ne_r; discriminate).
  unfold newline_terminated. rewrite !map_app, !concat_app.
  assert (E : match ty1, ty2 with BLOCK_QUOTE, SETEXT_HEADING => [[]] | _, _ => [] end
              = @nil str).
  { destruct ty1, ty2; try reflexivity. tauto. }
  assert (E' : match Some ty1, ty2 with
               | Some BLOCK_QUOTE, SETEXT_HEADING => [[]] | _, _ => [] end = @nil str)
    by exact E.
  cbn [map concat]. rewrite E. cbn [app map concat]. rewrite <- !app_assoc. reflexivity.
Qed.

Example C38_nonvacuous :
  reformat_pass 9 (lit "> # q" ++ [c_nl] ++ lit "A" ++ [c_nl] ++ lit "=" ++ [c_nl]
                   ++ lit "B" ++ [c_nl] ++ lit "---") (WInt 88)
  = Ok (lit "> # q" ++ [c_nl; c_nl] ++ lit "A" ++ [c_nl] ++ lit "=" ++ [c_nl]
        ++ lit "B" ++ [c_nl] ++ lit "-" ++ [c_nl])
  /\ parse_markdown 8 [lit "> # q"; lit "A"; lit "="; lit "B"; lit "---"]
     = Ok [(BLOCK_QUOTE, [lit "> # q"]); (SETEXT_HEADING, [lit "A"; lit "="]);
           (SETEXT_HEADING, [lit "B"; lit "---"])].
Proof. split; vm_compute; reflexivity. Qed.

(** * C39 *)

(** Each blank line of the document stands in the output as one empty line, between the
    texts of the sections before and after it. *)
Theorem C39_blank_lines : forall lim text w out before l after,
  reformat_pass (S lim) text w = Ok out ->
  parse_markdown lim (splitlines text) = Ok (before ++ (BLANK_LINE, l) :: after) ->
  exists texts_before texts_after,
    section_texts lim w 0 before texts_before
    /\ section_texts lim w (length (concat (map snd before)) + 1) after texts_after
    /\ (exists b, l = [b] /\ blank_line b)
    /\ out = newline_terminated (separated None (combine (map fst before) texts_before))
             ++ [c_nl]
             ++ newline_terminated (separated None (combine (map fst after) texts_after)).
Proof.
  intros lim text w out before l after H Hp.
  assert (Hl : exists b, l = [b] /\ blank_line b).
  { assert (G := Hp). apply section_split in G. destruct G as [G Gn].
    apply (splitter_shape lim BLANK_LINE _ _ _ G Gn). }
  apply reformat_pass_inv in H.
  destruct H as (secs & texts & Hp' & Ht & ->). rewrite Hp in Hp'. inv Hp'.
  apply section_texts_app in Ht. destruct Ht as (t1 & t2 & -> & H1 & H2). cbn [plus] in H2.
  inversion H2 as [|? ? ? ? r o2 Hr H3]; subst. unfold section_text in Hr. cbn in Hr.
  apply ok_inj in Hr. subst r. exists t1, o2. split; [exact H1|].
  destruct Hl as (b & -> & Hb). split; [exact H3|]. split; [eauto|].
  apply section_texts_length in H1.
  rewrite map_app, combine_app by (rewrite map_length; symmetry; exact H1). cbn [map fst combine].
  rewrite separated_app. cbn [separated].
  set (last := match rev (combine (map fst before) t1) with
               | [] => None | (ty, _) :: _ => Some ty end).
  assert (E : match last, BLANK_LINE with
              | Some BLOCK_QUOTE, SETEXT_HEADING => [[]] | _, _ => [] end = @nil str).
  { destruct last as [[]|]; reflexivity. }
  cbv beta iota zeta in E. 
  replace (match last with Some _ => _ | None => _ end) with (@nil str)
    by (destruct last as [[]|]; reflexivity).
  cbn [app].
  assert (E2 : separated (Some BLANK_LINE) (combine (map fst after) o2)
               = separated None (combine (map fst after) o2)).
  { destruct (combine (map fst after) o2) as [|[[] r] x]; reflexivity. }
  rewrite E2, finish_pass_ne by (apply app_ne_r; discriminate). unfold newline_terminated. rewrite map_app, concat_app. reflexivity.
Qed.

Example C39_nonvacuous :
  reformat_pass 9 (lit "a" ++ [c_nl; c_sp; c_tab; c_nl; c_nl] ++ lit "b") (WInt 88)
  = Ok (lit "a" ++ [c_nl; c_nl; c_nl] ++ lit "b" ++ [c_nl]).
Proof. vm_compute. reflexivity. Qed.

(** * Runs of a character *)

Lemma rstrip_run c n (s : str) :
  is_space c = false -> rstrip (repeat c (S n) ++ s) = repeat c (S n) ++ rstrip s.
Proof.
  intros Hc. replace (repeat c (S n) ++ s) with (repeat c n ++ [c] ++ s).
  2:{ rewrite app_assoc. f_equal. clear. induction n; cbn in *; congruence. }
  replace (repeat c (S n) ++ rstrip s) with (repeat c n ++ [c] ++ rstrip s).
  2:{ rewrite app_assoc. f_equal. clear. induction n; cbn in *; congruence. }
  assert (G : rstrip ([c] ++ s) = [c] ++ rstrip s).
  { unfold rstrip. cbn [app rstrip_by]. destruct (rstrip_by is_space s); [|reflexivity].
    rewrite Hc. reflexivity. }
  unfold rstrip in *. rewrite rstrip_by_app_ne by (rewrite G; discriminate).
  rewrite G. reflexivity.
Qed.

Lemma strip_run ws c n s :
  spaces ws -> is_space c = false -> 1 <= n -> (forall s', s <> c :: s') ->
  strip (ws ++ repeat c n ++ s) = repeat c n ++ rstrip s
  /\ (forall s', rstrip s <> c :: s').
Proof.
  intros Hw Hc Hn Hs. destruct n as [|n]; [lia|]. split.
  - unfold strip. cbn [repeat app]. rewrite lstrip_app by assumption.
    apply (rstrip_run c n s Hc).
  - intros s' E. destruct (rstrip_by_spec is_space s) as (post & E' & _).
    unfold rstrip in E. rewrite E in E'. apply (Hs (s' ++ post)). rewrite E'. reflexivity.
Qed.

Lemma strip_rstrip s : strip (rstrip s) = strip s.
Proof.
  destruct (rstrip_by_spec is_space s) as (post & E & Hp). fold (rstrip s) in E.
  rewrite E at 2. symmetry. apply (strip_app_spaces [] (rstrip s) post); [reflexivity|exact Hp].
Qed.

Lemma run_count ws c n s :
  spaces ws -> is_space c = false -> 1 <= n -> (forall s', s <> c :: s') ->
  length (strip (ws ++ repeat c n ++ s))
    - length (lstrip_by (N.eqb c) (strip (ws ++ repeat c n ++ s))) = n
  /\ strip (lstrip_by (N.eqb c) (strip (ws ++ repeat c n ++ s))) = strip s.
Proof.
  intros Hw Hc Hn Hs. destruct (strip_run ws c n s Hw Hc Hn Hs) as [E Hs'].
  rewrite E. split; [apply run_length; exact Hs'|].
  rewrite lstrip_by_repeat by exact Hs'. apply strip_rstrip.
Qed.

Lemma one_line_no_nl s : one_line s -> Forall (fun c => c <> c_nl) s.
Proof. apply Forall_impl. intros c H ->. discriminate. Qed.

Lemma rstrip_one_line s : one_line s -> one_line (rstrip s).
Proof. apply Forall_rstrip_by. Qed.

Lemma strip_one_line s : one_line s -> one_line (strip s).
Proof. apply Forall_strip. Qed.

Lemma rstrip_run_trimmed c n (s : str) :
  is_space c = false -> rstrip (repeat c (S n) ++ strip s) = repeat c (S n) ++ strip s.
Proof.
  intros Hc. rewrite rstrip_run by exact Hc. f_equal. unfold strip, rstrip.
  apply rstrip_by_idem.
Qed.

(** * C15 *)

(** A closed fenced code block keeps its fence, its info string and every line of its
    content; only trailing whitespace is removed. *)
Theorem C15_fenced_code_partial : forall lim w i l body close fence,
  opens l fence -> closes fence close -> Forall one_line (l :: body ++ [close]) ->
  exists r, section_text lim w i FENCED_CODE_BLOCK (l :: body ++ [close]) r
  /\ exists ws info info' body',
       l = ws ++ fence ++ info /\ spaces ws /\ trims info info'
       /\ Forall2 rtrims body body'
       /\ has_lines r ((fence ++ info') :: body' ++ [fence]).
Proof.
  intros lim w i l body close fence Ho Hc Hl.
  destruct Ho as (ws & c & n & info & -> & Hw & Hin & Hn & Hi & ->).
  assert (Hsp : is_space c = false) by (cbn in Hin; intuition (subst; reflexivity)).
  destruct (run_count ws c n info Hw Hsp ltac:(lia) Hi) as [En Ei].
  destruct (strip_run ws c n info Hw Hsp ltac:(lia) Hi) as [Es _].
  exists (str_join [c_nl]
    ((repeat c n ++ strip info) :: map rstrip body ++ [repeat c n])).
  split.
  - unfold section_text. cbn [reformatted fmt_fenced_code_block].
    rewrite Es at 1. destruct n as [|n]; [lia|]. cbn [repeat app first_char bind].
    unfold fence_count, fence_language. change (c :: repeat c n ++ info) with (repeat c (S n) ++ info).
    rewrite En, Ei. f_equal. f_equal. unfold inner. cbn [tl].
    rewrite removelast_last. cbn [map app]. rewrite map_app. cbn [map].
    unfold rep. f_equal.
    + apply rstrip_run_trimmed. exact Hsp.
    + f_equal. f_equal. rewrite <- (app_nil_r (repeat c (S n))) at 1.
      rewrite rstrip_run by exact Hsp. apply app_nil_r.
  - exists ws, info, (strip info), (map rstrip body).
    split; [reflexivity|]. split; [exact Hw|]. split; [apply trims_strip; reflexivity|].
    split.
    + clear. induction body; constructor; [apply rtrims_rstrip; reflexivity|assumption].
    + split; [reflexivity|]. split; [discriminate|].
      inversion Hl as [|? ? Hl1 Hl2]; subst. apply Forall_app in Hl2. destruct Hl2 as [Hb _].
      apply Forall_app in Hl1. destruct Hl1 as [_ Hl1]. apply Forall_app in Hl1.
      destruct Hl1 as [Hf Hinfo]. constructor; [|apply Forall_app; split].
      * apply Forall_app. split; [apply one_line_no_nl; exact Hf|].
        apply one_line_no_nl, strip_one_line. exact Hinfo.
      * clear -Hb. induction Hb; cbn; constructor; auto.
        apply one_line_no_nl, rstrip_one_line. assumption.
      * constructor; [apply one_line_no_nl; exact Hf|constructor].
Qed.

(** False for a block that is never closed: its last line is lost... *)
Theorem C15_unclosed_refuted :
  exists text out, parse_markdown 9 (splitlines text)
      = Ok [(FENCED_CODE_BLOCK, [lit "```"; lit "important"])]
    /\ reformat_markdown_text 9 text (WInt 88) = Ok out
    /\ out = lit "```" ++ [c_nl] ++ lit "```" ++ [c_nl].
Proof.
  exists (lit "```" ++ [c_nl] ++ lit "important"), (lit "```" ++ [c_nl] ++ lit "```" ++ [c_nl]).
  split; [vm_compute; reflexivity|]. split; vm_compute; reflexivity.
Qed.

(** ... always, whatever the block contains. *)
Theorem C15_unclosed_loses_last_line : forall lim w i l body lost fence r,
  opens l fence ->
  section_text lim w i FENCED_CODE_BLOCK (l :: body ++ [lost]) r ->
  forall lost', section_text lim w i FENCED_CODE_BLOCK (l :: body ++ [lost']) r.
Proof.
  intros lim w i l body lost fence r Ho H lost'. unfold section_text in *.
  cbn [reformatted fmt_fenced_code_block] in *.
  destruct (first_char (strip l)); [|discriminate]. cbn [bind] in *. rewrite <- H.
  unfold inner. cbn [tl]. rewrite !removelast_last. reflexivity.
Qed.

Example C15_nonvacuous :
  opens (lit "  ~~~~   py ") (lit "~~~~") /\ closes (lit "~~~~") (lit "~~~~ ")
  /\ section_text 9 (WInt 3) 0 FENCED_CODE_BLOCK
       [lit "  ~~~~   py "; lit "  x = 1  "; lit ""; lit "~~~~ "]
       (lit "~~~~py" ++ [c_nl] ++ lit "  x = 1" ++ [c_nl; c_nl] ++ lit "~~~~").
Proof.
  split; [|split].
  - exists (lit "  "), c_tilde, 4, (lit "   py "). split; [reflexivity|].
    split; [repeat constructor|]. split; [cbn; auto|]. split; [lia|].
    split; [discriminate|reflexivity].
  - exists [], (lit " "). split; [reflexivity|]. split; repeat constructor.
  - vm_compute. reflexivity.
Qed.

(** * C17 *)

(** An ATX heading line of the given level and text. *)
Definition atx_heading (l : str) (level : nat) (text : str) : Prop :=
  exists ws body, l = ws ++ repeat c_hash level ++ body /\ spaces ws /\ length ws < 4
    /\ 1 <= level /\ (forall b, body <> c_hash :: b) /\ trims body text.

Lemma atx_line_heading l : atx_line l <-> exists level text, atx_heading l level text.
Proof.
  split.
  - intros (ws & body & -> & Hw & Hl). destruct (run_decomp c_hash body) as (n & t & -> & Ht).
    exists (S n), (strip t), ws, t. repeat (split; [auto; lia|]). apply trims_strip. reflexivity.
  - intros (level & text & ws & body & -> & Hw & Hl & Hn & _). destruct level as [|n]; [lia|].
    exists ws, (repeat c_hash n ++ body). auto.
Qed.

(** Every ATX heading becomes one line: its level's number of [#], a space and its text;
    that line is a heading of the same level and text, is parsed as such, and is not
    changed by formatting it again. *)
Theorem C17_atx_heading : forall lim w i l level text,
  atx_heading l level text ->
  let r := repeat c_hash level ++ [c_sp] ++ text in
  section_text lim w i ATX_HEADING [l] r
  /\ atx_heading r level text
  /\ (forall lim', parse_markdown lim' [r] = Ok [(ATX_HEADING, [r])])
  /\ section_text lim w i ATX_HEADING [r] r
  /\ (one_line l -> one_line r).
Proof.
  intros lim w i l level text H r.
  assert (F : forall l', atx_heading l' level text ->
            fmt_atx_heading [l'] = Ok r).
  { intros l' (ws & body & -> & Hw & _ & Hn & Hb & Ht). cbn [fmt_atx_heading].
    unfold atx_depth, atx_content.
    destruct (run_count ws c_hash level body Hw eq_refl Hn Hb) as [-> ->].
    apply trims_strip in Ht. subst text. reflexivity. }
  assert (G : atx_heading r level text).
  { destruct H as (ws & body & -> & Hw & Hl & Hn & Hb & Ht).
    exists [], ([c_sp] ++ text). split; [reflexivity|]. split; [constructor|].
    split; [cbn; lia|]. split; [exact Hn|]. split; [discriminate|].
    apply trims_strip. apply trims_strip in Ht. subst text.
    replace ([c_sp] ++ strip body) with ([c_sp] ++ strip body ++ []) by (rewrite app_nil_r; reflexivity).
    rewrite strip_app_spaces by reflexivity. symmetry. apply strip_idem. }
  split; [apply F; exact H|]. split; [exact G|].
  assert (A : is_atx_heading_line r = true).
  { apply atx_spec, atx_line_heading. eauto. }
  split.
  { intros lim'. unfold parse_markdown, parse_with. cbn [length parse_loop SPLITTERS first_split].
    unfold split_atx_heading at 1. cbn [split_one_line]. rewrite A. reflexivity. }
  split; [apply F; exact G|].
  intros Ho. destruct H as (ws & body & -> & _ & _ & _ & _ & Ht).
  apply trims_strip in Ht. subst text. apply Forall_app in Ho. destruct Ho as [_ Ho].
  apply Forall_app in Ho. destruct Ho as [Ho Hb]. unfold r. apply Forall_app. split; [exact Ho|].
  constructor; [reflexivity|]. apply Forall_strip. exact Hb.
Qed.

(** Every ATX heading section of a document is such a line. *)
Theorem C17_covers_all_headings : forall lim lines secs content,
  parse_markdown lim lines = Ok secs -> In (ATX_HEADING, content) secs ->
  exists l level text, content = [l] /\ atx_heading l level text.
Proof.
  intros lim lines secs content H Hin. apply in_split in Hin.
  destruct Hin as (b & a & ->). apply section_split in H. destruct H as [H Hn].
  apply (splitter_shape lim ATX_HEADING) in H; [|exact Hn].
  destruct H as (l & -> & Hl). apply atx_line_heading in Hl.
  destruct Hl as (level & text & Hl). eauto.
Qed.

Example C17_nonvacuous :
  atx_heading (lit "  ##  a # ") 2 (lit "a #")
  /\ section_text 0 WInf 0 ATX_HEADING [lit "  ##  a # "] (lit "## a #").
Proof.
  split; [|vm_compute; reflexivity]. exists (lit "  "), (lit "  a # ").
  split; [reflexivity|]. split; [repeat constructor|]. split; [cbn; lia|]. split; [lia|].
  split; [discriminate|]. apply trims_strip. reflexivity.
Qed.

(** * C19 *)

Lemma thematic_line_repeat c n :
  In c [c_star; c_us; c_dash] -> 3 <= n -> thematic_line (repeat c n).
Proof.
  intros Hc Hn. destruct n as [|n]; [lia|]. exists c, [], (repeat c n).
  split; [reflexivity|]. split; [constructor|]. split; [cbn; lia|]. split; [exact Hc|]. split.
  - apply Forall_forall. intros x Hx. apply repeat_spec in Hx. auto.
  - assert (count_occ N.eq_dec (repeat c n) c = n) as -> by
      (clear; induction n; cbn; [|destruct (N.eq_dec c c)]; congruence). lia.
Qed.

(** The character a thematic break is made of. *)
Definition thematic (l : str) (c : char) : Prop :=
  thematic_line l /\ exists ws body, l = ws ++ c :: body /\ spaces ws /\ is_space c = false.

Lemma thematic_first l c : thematic l c -> first_char (strip l) = Ok c.
Proof.
  intros (_ & ws & body & -> & Hw & Hc).
  destruct (strip_app_lead ws c body Hw Hc) as (s' & -> & _). reflexivity.
Qed.

Lemma thematic_char l c : thematic l c -> In c [c_star; c_us; c_dash].
Proof.
  intros ((c' & ws' & body' & E' & Hw' & _ & Hin & _) & ws & body & E & Hw & Hc).
  rewrite E in E'. apply first_char_unique in E'; auto.
  - destruct E' as (_ & -> & _). exact Hin.
  - apply thematic_char_not_space. exact Hin.
Qed.

(** The symbol repeated to the width, three times if the width is infinite. *)
Theorem C19_thematic_break : forall lim i l c,
  thematic l c ->
  (forall z, section_text lim (WInt z) i THEMATIC_BREAK [l] (repeat c (Z.to_nat z)))
  /\ section_text lim WInf i THEMATIC_BREAK [l] (repeat c 3).
Proof.
  intros lim i l c H. unfold section_text. cbn [reformatted fmt_thematic_break].
  rewrite (thematic_first l c H). cbn [bind]. unfold rep. auto.
Qed.

(** From width three on the result is a thematic break again, is parsed as one and does
    not change when formatted again. *)
Theorem C19_thematic_break_partial : forall lim w i l c,
  thematic l c -> w = WInf \/ (exists z, w = WInt z /\ (3 <= z)%Z) ->
  exists r, section_text lim w i THEMATIC_BREAK [l] r
    /\ thematic r c /\ section_text lim w i THEMATIC_BREAK [r] r
    /\ forall lim', parse_markdown (S lim') [r] = Ok [(THEMATIC_BREAK, [r])].
Proof.
  intros lim w i l c H Hw.
  assert (G : exists n, 3 <= n /\ forall l', thematic l' c ->
             section_text lim w i THEMATIC_BREAK [l'] (repeat c n)).
  { destruct Hw as [->|(z & -> & Hz)].
    - exists 3. split; [lia|]. intros l' H'. apply (C19_thematic_break lim i l' c H').
    - exists (Z.to_nat z). split; [lia|]. intros l' H'.
      apply (C19_thematic_break lim i l' c H'). }
  destruct G as (n & Hn & G).
  assert (Hc := thematic_char l c H). assert (Hs := thematic_char_not_space c Hc).
  assert (T : thematic (repeat c n) c).
  { split; [apply thematic_line_repeat; assumption|]. destruct n as [|n]; [lia|].
    exists [], (repeat c n). split; [reflexivity|]. split; [constructor|exact Hs]. }
  exists (repeat c n). split; [apply G; exact H|]. split; [exact T|].
  split; [apply G; exact T|]. intros lim'.
  destruct T as [T _].
  unfold parse_markdown, parse_with. cbn [length parse_loop].
  rewrite first_split_thematic; [reflexivity|apply sbq_no_S|exact T|].
  intros (ws & b & body & E & Hws & _ & Hb).
  assert (Hin : In c_sp (repeat c n)) by (rewrite E, in_app_iff; cbn; auto).
  apply repeat_spec in Hin. subst c. discriminate Hs.
Qed.

(** False below width three: the line is no longer a thematic break. *)
Theorem C19_thematic_break_refuted :
  exists l r, thematic l c_star /\ section_text 9 (WInt 2) 0 THEMATIC_BREAK [l] r
    /\ parse_markdown 9 [r] = Ok [(PARAGRAPH, [r])].
Proof.
  exists (lit "***"), (lit "**"). split; [|split; vm_compute; reflexivity]. split.
  - apply thematic_spec. reflexivity.
  - exists [], (lit "**"). split; [reflexivity|]. split; [constructor|reflexivity].
Qed.

Example C19_nonvacuous :
  thematic (lit " - -  - ") c_dash
  /\ section_text 0 (WInt 5) 0 THEMATIC_BREAK [lit " - -  - "] (lit "-----").
Proof.
  split; [|vm_compute; reflexivity]. split; [apply thematic_spec; reflexivity|].
  exists (lit " "), (lit " -  - "). split; [reflexivity|]. split; [repeat constructor|reflexivity].
Qed.

(** * C16 *)

Lemma rtrims_map body : Forall2 rtrims body (map rstrip body).
Proof. induction body; constructor; [apply rtrims_rstrip; reflexivity|assumption]. Qed.

(** An indented code block keeps every line up to trailing whitespace. *)
Theorem C16_indented_code : forall lim w i content,
  content <> [] -> Forall one_line content ->
  exists r lines', section_text lim w i INDENTED_CODE_BLOCK content r
    /\ Forall2 rtrims content lines' /\ has_lines r lines'.
Proof.
  intros lim w i content Hn Ho. exists (str_join [c_nl] (map rstrip content)), (map rstrip content).
  split; [reflexivity|]. split; [apply rtrims_map|]. split; [reflexivity|]. split.
  - destruct content; [congruence|discriminate].
  - clear Hn. induction Ho; cbn; constructor; auto.
    apply one_line_no_nl, rstrip_one_line. assumption.
Qed.

(** Blank lines and indented code, without fences. *)
Definition code_line (l : str) : Prop := blank_line l \/ (indented_line l /\ ~ fence_line l).

Lemma newline_terminated_app a b :
  newline_terminated (a ++ b) = newline_terminated a ++ newline_terminated b.
Proof. unfold newline_terminated. rewrite map_app, concat_app. reflexivity. Qed.

Lemma newline_terminated_one_join ls :
  ls <> [] -> newline_terminated [str_join [c_nl] ls] = newline_terminated ls.
Proof.
  intros H. rewrite (newline_terminated_join ls H). unfold newline_terminated. cbn.
  apply app_nil_r.
Qed.

Lemma code_document lim lim' w n lines :
  length lines <= n -> Forall code_line lines ->
  exists secs texts, parse_loop (split_block_quote (S lim)) n lines = Ok secs
    /\ Forall (fun s => repr_check (fst s) (snd s) = Ok tt) secs
    /\ (forall i, section_texts lim' w i secs texts)
    /\ (forall last, newline_terminated (separated last (combine (map fst secs) texts))
                     = newline_terminated (map rstrip lines)).
Proof.
  revert lines. induction n as [|n IH]; intros lines Hn Hc.
  { destruct lines; [|cbn in Hn; lia]. exists [], []. repeat split; try constructor.  }
  destruct lines as [|l rest].
  { exists [], []. repeat split; try constructor. }
  cbn in Hn. inversion Hc as [|? ? Hl Hr]; subst. cbn [parse_loop]. destruct Hl as [Hb|[Hi Hf]].
  - rewrite first_split_blank by exact Hb. cbn [bind].
    destruct (IH rest ltac:(lia) Hr) as (secs & texts & -> & Hrep & Ht & Ho). cbn [bind].
    exists ((BLANK_LINE, [l]) :: secs), ([] :: texts). split; [reflexivity|].
    split; [constructor; [reflexivity|exact Hrep]|].
    split; [intros i; constructor; [reflexivity|apply Ht]|].
    intros last. cbn [map fst combine separated].
    replace (match last with Some _ => _ | None => _ end) with (@nil str)
      by (destruct last as [[]|]; reflexivity).
    cbn [app]. change (newline_terminated ([] :: ?x)) with ([c_nl] ++ newline_terminated x).
    assert (E : rstrip l = []). { apply rstrip_by_nil, spaces_forallb. exact Hb. }
    rewrite E, Ho. reflexivity.
  - destruct (first_split_indented (split_block_quote (S lim)) (sbq_no_S lim) l rest Hi Hf)
      as (close & Ec & ->). cbn [bind].
    assert (Hge := indented_close_ge rest 1 1 (le_n 1)). rewrite <- Ec in Hge.
    destruct (IH (skipn close (l :: rest))) as (secs & texts & -> & Hrep & Ht & Ho).
    { rewrite skipn_length. cbn [length]. lia. }
    { apply Forall_skipn. exact Hc. }
    cbn [bind].
    exists ((INDENTED_CODE_BLOCK, firstn close (l :: rest)) :: secs),
      (str_join [c_nl] (map rstrip (firstn close (l :: rest))) :: texts).
    split; [reflexivity|]. destruct close as [|close]; [lia|].
    split; [constructor; [reflexivity|exact Hrep]|].
    split; [intros i; constructor; [reflexivity|apply Ht]|].
    intros last. cbn [map fst combine separated].
    replace (match last with Some _ => _ | None => _ end) with (@nil str)
      by (destruct last as [[]|]; reflexivity).
    cbn [app]. change (?x :: ?y) with ([x] ++ y) at 1. rewrite newline_terminated_app, Ho.
    rewrite newline_terminated_one_join by discriminate.
    rewrite <- newline_terminated_app, <- map_app, firstn_skipn. reflexivity.
Qed.

Lemma splitlines_newline_terminated lines :
  Forall one_line lines -> splitlines (newline_terminated lines) = lines.
Proof.
  intros H. destruct lines as [|l lines]; [reflexivity|].
  rewrite newline_terminated_join by discriminate. apply splitlines_join; [discriminate|exact H].
Qed.

(** A document of indented code and blank lines is only trimmed at the line ends (and, as
    every document, at its end). *)
Theorem C16_indented_document : forall lim lines w,
  lines <> [] -> Forall one_line lines -> Forall code_line lines ->
  exists lines' out, Forall2 rtrims lines lines'
    /\ reformat_pass (S (S lim)) (newline_terminated lines) w = Ok (newline_terminated lines')
    /\ reformat_markdown_text (S (S lim)) (newline_terminated lines) w = Ok (out ++ [c_nl])
    /\ rtrims (newline_terminated lines') out.
Proof.
  intros lim lines w Hn Ho Hc.
  assert (P : forall ls, ls <> [] -> Forall one_line ls -> Forall code_line ls ->
    reformat_pass (S (S lim)) (newline_terminated ls) w = Ok (newline_terminated (map rstrip ls))).
  { clear. intros ls Hn Ho Hc.
    destruct (code_document lim (S lim) w (length ls) ls (le_n _) Hc)
      as (secs & texts & Hp & Hr & Ht & E).
    rewrite (reformat_pass_ok (S lim) (newline_terminated ls) w secs texts);
      [|rewrite splitlines_newline_terminated by exact Ho; exact Hp|exact Hr|apply Ht].
    f_equal. rewrite <- (E None). apply finish_pass_ne. intros G. apply separated_nil in G.
    assert (L := section_texts_length _ _ _ _ _ (Ht 0)).
    assert (concat (map snd secs) = ls) by (eapply parse_markdown_lossless; exact Hp).
    destruct secs as [|[ty c] secs]; [cbn in H; congruence|]. destruct texts; discriminate. }
  exists (map rstrip lines), (rstrip (newline_terminated (map rstrip lines))).
  split; [apply rtrims_map|]. split; [apply P; assumption|].
  split; [|apply rtrims_rstrip; reflexivity].
  unfold reformat_markdown_text. rewrite P by assumption. cbn [bind]. rewrite P.
  - cbn [bind]. rewrite map_map.
    replace (map (fun x => rstrip (rstrip x)) lines) with (map rstrip lines)
      by (apply map_ext; intros x; symmetry; apply rstrip_by_idem).
    rewrite str_eqb_refl. reflexivity.
  - destruct lines; [congruence|discriminate].
  - clear -Ho. induction Ho; cbn; constructor; auto. apply rstrip_one_line. assumption.
  - clear -Hc. induction Hc as [|l ls Hl Hls IH]; cbn; constructor; auto. destruct Hl as [Hb|[Hi Hf]].
    + left. unfold blank_line. replace (rstrip l) with (@nil char); [constructor|].
      symmetry. apply rstrip_by_nil, spaces_forallb. exact Hb.
    + right. split.
      * destruct Hi as (ws & c & body & -> & Hw & Hsp & Hlen).
        assert (E : rstrip (ws ++ c :: body) = ws ++ c :: rstrip body).
        { unfold rstrip. assert (G : rstrip_by is_space (c :: body) = c :: rstrip_by is_space body).
          { cbn [rstrip_by]. destruct (rstrip_by is_space body); [rewrite Hsp|]; reflexivity. }
          rewrite rstrip_by_app_ne by (rewrite G; discriminate). rewrite G. reflexivity. }
        rewrite E. exists ws, c, (rstrip body). auto.
      * intros (ws & c & body & E & Hw & Hin). apply Hf.
        destruct (rstrip_by_spec is_space l) as (post & El & _). fold (rstrip l) in El.
        rewrite E in El. exists ws, c, (body ++ post). split; [|auto].
        rewrite El, <- !app_assoc. reflexivity.
Qed.

Example C16_nonvacuous :
  Forall code_line [lit "    a  "; lit "  "; lit "      b"]
  /\ reformat_markdown_text 9 (newline_terminated [lit "    a  "; lit "  "; lit "      b"]) (WInt 3)
     = Ok (newline_terminated [lit "    a"; lit ""; lit "      b"]).
Proof.
  split; [|vm_compute; reflexivity].
  assert (F : forall l, is_indented_code_block_start_line l = true ->
              is_fenced_code_block_start_line l = false -> code_line l).
  { intros l H1 H2. right. split; [apply indented_spec; exact H1|]. intros H.
    apply fence_spec in H. congruence. }
  constructor; [apply F; reflexivity|]. constructor; [left; repeat constructor|].
  constructor; [apply F; reflexivity|constructor].
Qed.
