(** Paragraphs: where they end, and line breaks inside them. *)
From Coq Require Import String.
From Verif Require Import Py Regex Utils TextWrap Lines Detectors Formatters Base SpecLines SpecParser
  SpecFormat SpecWrap SpecParagraph ProofsLines ProofsParser ProofsShapes ProofsKinds ProofsForward
  ProofsPass ProofsTokens ProofsPieces ProofsFilled ProofsGaps ProofsTight ProofsFirst ProofsChars ProofsDocument PropsParser PropsApi
  PropsWrap.

Lemma hard_break_spec l : endswith [c_sp; c_sp] l = true <-> hard_break l.
Proof. apply endswith_spec. Qed.

Lemma no_hard_break l : endswith [c_sp; c_sp] l = false -> ~ hard_break l.
Proof. intros H G. apply hard_break_spec in G. congruence. Qed.

(** ** Where the detector stops *)

Lemma par_continuation_stops lim l rest :
  par_continuation (split_block_quote lim) (l :: rest) = Ok false -> ~ continuation_line l.
Proof.
  intros H G. destruct lim as [|lim].
  - unfold par_continuation in H. apply bind_ok in H. destruct H as (b & H & _).
    apply continuation_bools in G. destruct G as (H1 & H2 & _).
    cbn [any_splits] in H. unfold split_atx_heading, split_blank_line in H.
    rewrite !one_line_no in H by assumption. cbn [bind nilb split_block_quote] in H. discriminate.
  - rewrite (par_continuation_true _ (sbq_no_S lim)) in H by exact G. discriminate.
Qed.

Lemma par_tail_extent lim tail s r :
  par_tail (split_block_quote lim) tail = Ok (s, r) ->
  (s = [] \/ exists first l, s = first ++ [l] /\ Forall (fun x => ~ hard_break x) first)
  /\ ((s <> [] /\ hard_break (last s [])) \/ r = []
      \/ (Forall (fun x => ~ hard_break x) s /\ exists l r', r = l :: r' /\ ~ continuation_line l)).
Proof.
  revert s r. induction tail as [|t rest IH]; intros s r H; cbn [par_tail] in H.
  - inv H. auto.
  - bind_inv H. destruct a.
    2:{ inv H. split; [auto|]. right. right. split; [constructor|]. eauto using par_continuation_stops. }
    destruct (endswith [c_sp; c_sp] t) eqn:Et.
    + destruct rest; [discriminate|]. inv H. split; [right; exists [], t; auto|].
      left. split; [discriminate|]. apply hard_break_spec. exact Et.
    + apply no_hard_break in Et. bind_inv H. destruct a as [more rem]. inv H.
      destruct (IH _ _ E0) as [A B]. split.
      * right. destruct A as [->|(first & l & -> & A)]; [exists [], t; auto|].
        exists (t :: first), l. auto.
      * destruct B as [[B1 B2]|[B|[B1 B2]]]; auto.
        left. split; [discriminate|]. destruct more; [congruence|]. exact B2.
Qed.

Lemma spis_extent lim lines s r :
  split_paragraph_ignoring_setext (split_block_quote lim) lines = Ok (s, r) -> s <> [] ->
  (exists first l, s = first ++ [l] /\ Forall (fun x => ~ hard_break x) first)
  /\ (hard_break (last s []) \/ r = [] \/ exists l r', r = l :: r' /\ ~ continuation_line l).
Proof.
  destruct lines as [|l rest]; cbn [split_paragraph_ignoring_setext]; [discriminate|].
  destruct (is_paragraph_start_line l) eqn:Hp; [|intros H; inv H; congruence].
  destruct (endswith [c_sp; c_sp] l) eqn:El.
  - intros H _. inv H. split; [exists [], l; auto|]. left. apply hard_break_spec. exact El.
  - apply no_hard_break in El. intros H _. bind_inv H. destruct a as [more rem]. inv H.
    apply par_tail_extent in E. destruct E as [A B]. split.
    + destruct A as [->|(first & x & -> & A)]; [exists [], l; auto|]. exists (l :: first), x. auto.
    + destruct B as [[B1 B2]|[B|[_ B]]]; auto. left. destruct more; [congruence|]. exact B2.
Qed.

(** * C59 *)

(** A paragraph has a line break (two spaces at the end of a line) at most in its last
    line. It ends there, at the end of the document, or before a line that cannot continue
    a paragraph; and not before an underline, which would make it a heading. *)
Theorem C59_paragraph_extent : forall lim lines before content after,
  parse_markdown lim lines = Ok (before ++ (PARAGRAPH, content) :: after) ->
  (exists first l, content = first ++ [l] /\ Forall (fun x => ~ hard_break x) first)
  /\ (hard_break (last content [])
      \/ forall l, next_line after = Some l -> ~ continuation_line l)
  /\ (forall l, next_line after = Some l -> ~ underline_line l).
Proof.
  intros lim lines before content after H. apply section_split in H. destruct H as [H Hn].
  cbn [splitter_of] in H. apply split_paragraph_ok in H. unfold next_line.
  destruct H as [[-> _]|(_ & H & Hu)]; [congruence|]. apply spis_extent in H; [|exact Hn].
  destruct H as [A B]. split; [exact A|]. split.
  - destruct B as [B|[->|(l & r & -> & B)]]; [left; exact B|right; discriminate|].
    right. intros x Ex. injection Ex as <-. exact B.
  - intros l El. destruct (concat (map snd after)) as [|x r]; [discriminate|]. injection El as ->.
    apply (not_true_iff _ _ (underline_spec l)). exact Hu.
Qed.

(** So a paragraph follows directly on another one only after a line break. *)
Theorem C59_adjacent_paragraphs : forall lim lines before content content' after,
  parse_markdown lim lines = Ok (before ++ (PARAGRAPH, content) :: (PARAGRAPH, content') :: after) ->
  hard_break (last content []).
Proof.
  intros lim lines before content content' after H.
  assert (S : section_shape PARAGRAPH content').
  { eapply C10_section_shapes; [exact H|]. apply in_app_iff. right. right. left. reflexivity. }
  apply C59_paragraph_extent in H. destruct H as (_ & [H|H] & Hu); [exact H|]. exfalso.
  destruct S as (l & rest & -> & Hl & _). specialize (H l eq_refl). specialize (Hu l eq_refl).
  apply H. destruct Hl as (H1 & H2 & H3 & H4 & H5 & H6 & H7 & _ & H8). repeat split; assumption.
Qed.

(** The same for the text of an underlined heading. *)
Theorem C59_heading_extent : forall lim lines before content after,
  parse_markdown lim lines = Ok (before ++ (SETEXT_HEADING, content) :: after) ->
  exists first l u, content = first ++ [l; u] /\ underline_line u
    /\ Forall (fun x => ~ hard_break x) first.
Proof.
  intros lim lines before content after H. apply section_split in H. destruct H as [H Hn].
  cbn [splitter_of] in H. apply split_setext_ok in H.
  destruct H as [[-> _]|(p & u & -> & Hp & Hu & H)]; [congruence|].
  apply spis_extent in H; [|exact Hp]. destruct H as [(first & l & -> & A) _].
  exists first, l, u. rewrite <- app_assoc. split; [reflexivity|]. split; [|exact A].
  apply underline_spec. exact Hu.
Qed.

Example C59_nonvacuous :
  parse_markdown 9 [lit "a"; lit "    b  "; lit "c "; lit "[d]: e"; lit "# f"; lit "g  "; lit "="; lit "h"; lit "="]
  = Ok [(PARAGRAPH, [lit "a"; lit "    b  "]); (PARAGRAPH, [lit "c "; lit "[d]: e"]);
        (ATX_HEADING, [lit "# f"]); (SETEXT_HEADING, [lit "g  "; lit "="]);
        (SETEXT_HEADING, [lit "h"; lit "="])]
  /\ hard_break (lit "    b  ") /\ ~ hard_break (lit "c ") /\ continuation_line (lit "[d]: e").
Proof.
  split; [vm_compute; reflexivity|]. split; [exists (lit "    b"); reflexivity|].
  split; [apply no_hard_break; reflexivity|].
  destruct (C10_section_shapes 9 [lit "a"; lit "[d]: e"] _ PARAGRAPH [lit "a"; lit "[d]: e"] ltac:(vm_compute; reflexivity)
    ltac:(left; reflexivity)) as (l & rest & E & _ & H). injection E as <- <-. apply Forall_inv in H. exact H.
Qed.

(** * C60 *)

(** A line break written as a backslash at the end of a line is lost, a backslash in front
    of a space can become one, and tabs can be made into two spaces at the end of a line. *)
Theorem C60_refuted :
  (exists text, text = lit "a\" ++ [c_nl] ++ lit "b"
     /\ reformat_markdown_text 9 text (WInt 88) = Ok (lit "a\ b" ++ [c_nl]))
  /\ (exists text, text = lit "a\ b"
     /\ reformat_markdown_text 9 text (WInt 3) = Ok (lit "a\" ++ [c_nl] ++ lit "b" ++ [c_nl]))
  /\ (exists text, text = lit "a " ++ [c_tab; c_sp; c_tab; c_sp] ++ lit "b"
     /\ reformat_markdown_text 9 text (WInt 3) = Ok (lit "a  " ++ [c_nl] ++ lit "b" ++ [c_nl])).
Proof. repeat split; eexists; (split; [reflexivity|]); vm_compute; reflexivity. Qed.

(** Line breaks written as two spaces: the output of a paragraph whose last line has one
    ends in exactly two spaces, and no other line of the output of a paragraph ends in
    whitespace. *)
Theorem C60_two_spaces_partial : forall lim text secs content i w r,
  parse_markdown lim (splitlines text) = Ok secs -> In (PARAGRAPH, content) secs ->
  plain_space text ->
  section_text lim w i PARAGRAPH content r ->
  exists lines l,
    Forall ends_in_ink (lines ++ [l]) /\ Forall one_line (lines ++ [l])
    /\ (hard_break (last content []) -> r = str_join [c_nl] (lines ++ [l]) ++ [c_sp; c_sp])
    /\ (~ hard_break (last content []) -> r = str_join [c_nl] (lines ++ [l])).
Proof.
  intros lim text secs content i w r Hp Hin Hs H.
  assert (Sh := C10_section_shapes _ _ _ _ _ Hp Hin). destruct Sh as (l0 & rest & Ec & Hl0 & _).
  assert (Hc : plain_space (str_join [c_sp] (map strip content))).
  { apply Forall_str_join; [repeat constructor; cbn; auto|].
    apply parse_markdown_lossless in Hp. destruct Hp as [Hp _].
    assert (L := Forall_splitlines _ text Hs). rewrite <- Hp in L.
    apply Forall_map. apply Forall_forall. intros x Hx. apply Forall_strip.
    rewrite Forall_forall in L. apply L. apply in_concat. exists content. split; [|exact Hx].
    apply in_map_iff. exists (PARAGRAPH, content). auto. }
  assert (Hi : ink (str_join [c_sp] (map strip content)) <> []).
  { rewrite ink_join_strip, Ec. cbn [concat]. rewrite ink_app. intros E. apply app_eq_nil in E.
    destruct Hl0 as [Hb _]. apply Hb. unfold blank_line, spaces. destruct E as [E _]. clear -E.
    induction l0 as [|c l0 IH]; [constructor|]. cbn [ink filter] in E. unfold not_space in E.
    destruct (is_space c) eqn:Es; [|discriminate]. constructor; [exact Es|]. apply IH. exact E. }
  unfold section_text in H. cbn [reformatted] in H. unfold fmt_paragraph in H.
  apply bind_ok in H. destruct H as (wrapped & Ew & H).
  destruct (wrap_tight _ _ _ Hc Ew) as (lines & El & Ht & Ho).
  assert (Hne : lines <> []).
  { intros ->. apply wrap_ok in Ew. destruct Ew as (ts & ls & Et & Ew & Hf & _).
    assert (K := wrap_tokens_ok _ _ Et). apply K; [exact Hi|].
    rewrite <- texts_pieces. rewrite <- (filled_ink w _ _ Hf), <- Ew, El. reflexivity. }
  destruct (exists_last Hne) as (ls & l & ->). exists ls, l.
  split; [eapply Forall_impl; [|exact Ht]; intros x Hx; exact Hx|]. split; [exact Ho|].
  assert (Er : last content [] = hd [] (rev content)).
  { destruct content as [|x content _] using rev_ind; [discriminate|].
    rewrite last_last, rev_app_distr. reflexivity. }
  rewrite Er. destruct (rev content) as [|x xs]; [discriminate|]. cbn [hd]. apply ok_inj in H. subst r wrapped.
  split; intros G.
  - apply hard_break_spec in G. rewrite G. reflexivity.
  - destruct (endswith [c_sp; c_sp] x) eqn:E; [|reflexivity]. exfalso. apply G, hard_break_spec. exact E.
Qed.

Lemma separated_paragraph last r rest :
  separated last ((PARAGRAPH, r) :: rest) = r :: separated (Some PARAGRAPH) rest.
Proof. destruct last as [[]|]; reflexivity. Qed.

Lemma rstrip_keep a b : ends_in_ink a -> exists b', rstrip (a ++ b) = a ++ b'.
Proof.
  intros (l & c & -> & Hc). rewrite <- app_assoc. cbn [app]. exists (rstrip b).
  rewrite ProofsDefinition.rstrip_app_rest by exact Hc. rewrite <- app_assoc. reflexivity.
Qed.

(** In the document: where a paragraph is continued after such a line break, the output has
    the formatted first part, two spaces, a newline and the formatted second part. *)
Theorem C60_break_kept_partial : forall lim text w out before c1 c2 after,
  reformat_markdown_text (S lim) text w = Ok out ->
  parse_markdown lim (splitlines text)
  = Ok (before ++ (PARAGRAPH, c1) :: (PARAGRAPH, c2) :: after) ->
  plain_space text ->
  exists x r1 r2 tail y i1 i2,
    section_text lim w i1 PARAGRAPH c1 (r1 ++ [c_sp; c_sp])
    /\ section_text lim w i2 PARAGRAPH c2 (r2 ++ tail)
    /\ ends_in_ink r1 /\ ends_in_ink r2 /\ (tail = [] \/ tail = [c_sp; c_sp])
    /\ (x = [] \/ exists x', x = x' ++ [c_nl])
    /\ out = x ++ r1 ++ [c_sp; c_sp] ++ [c_nl] ++ r2 ++ y.
Proof.
  intros lim text w out before c1 c2 after H Hp Hs.
  apply C01_self_consistency_gate in H. destruct H as (t & body & Ht & _ & Htr & ->).
  apply trimmed_rstrip in Htr. subst body.
  apply reformat_pass_inv in Ht. destruct Ht as (secs & texts & Hp' & Hx & ->).
  rewrite Hp in Hp'. apply ok_inj in Hp'. subst secs.
  apply section_texts_app in Hx. destruct Hx as (t1 & t2 & -> & Hx1 & Hx2).
  inversion Hx2 as [|? ? ? ? ra ta Ha Hx3]; subst. inversion Hx3 as [|? ? ? ? rb tb Hb Hx4]; subst.
  destruct (C60_two_spaces_partial lim text _ c1 _ w ra Hp ltac:(apply in_app_iff; right; left; reflexivity) Hs Ha)
    as (ls & l & Hi & _ & E1 & _).
  assert (E1' := E1 (C59_adjacent_paragraphs _ _ _ _ _ _ Hp)). clear E1.
  destruct (C60_two_spaces_partial lim text _ c2 _ w rb Hp ltac:(apply in_app_iff; right; right; left; reflexivity) Hs Hb)
    as (ls2 & l2 & Hi2 & _ & E2 & E2').
  assert (J : forall ls l, Forall ends_in_ink (ls ++ [l]) -> ends_in_ink (str_join [c_nl] (ls ++ [l]))).
  { clear. intros ls l H. apply Forall_app in H. destruct H as [_ H]. apply Forall_inv in H.
    destruct H as (a & c & -> & Hc). destruct ls as [|y ls]; [exists a, c; auto|].
    rewrite str_join_app by discriminate. cbn [str_join]. eexists. exists c. rewrite !app_assoc. eauto. }
  assert (E2'' : exists tail, rb = str_join [c_nl] (ls2 ++ [l2]) ++ tail /\ (tail = [] \/ tail = [c_sp; c_sp])).
  { destruct (endswith [c_sp; c_sp] (last c2 [])) eqn:E.
    - exists [c_sp; c_sp]. split; [apply E2, hard_break_spec, E|auto].
    - exists []. rewrite app_nil_r. split; [apply E2', no_hard_break, E|auto]. }
  destruct E2'' as (tail & Erb & Htail). clear E2 E2'.
  set (r1 := str_join [c_nl] (ls ++ [l])) in *. set (r2 := str_join [c_nl] (ls2 ++ [l2])) in *.
  assert (I1 : ends_in_ink r1) by (apply J; exact Hi). assert (I2 : ends_in_ink r2) by (apply J; exact Hi2).
  rewrite map_app. rewrite combine_app by (rewrite map_length; symmetry; eapply section_texts_length; exact Hx1).
  rewrite separated_app. cbn [map fst combine]. rewrite !separated_paragraph.
  rewrite finish_pass_ne by (apply app_ne_r; discriminate).
  unfold newline_terminated. rewrite map_app, concat_app. cbn [map concat].
  set (x := concat _). set (z := concat _).
  assert (Ex : x = [] \/ exists x', x = x' ++ [c_nl]).
  { unfold x. clear. induction (separated None _) as [|r rs IH]; [auto|]. right. cbn [map concat].
    destruct IH as [->|(x' & ->)]; [exists r; rewrite app_nil_r; reflexivity|].
    exists ((r ++ [c_nl]) ++ x'). rewrite <- !app_assoc. reflexivity. }
  rewrite E1', Erb.
  assert (Er : exists y, rstrip (x ++ ((r1 ++ [c_sp; c_sp]) ++ [c_nl]) ++ ((r2 ++ tail) ++ [c_nl]) ++ z)
               = (x ++ r1 ++ [c_sp; c_sp] ++ [c_nl] ++ r2) ++ y).
  { replace (x ++ ((r1 ++ [c_sp; c_sp]) ++ [c_nl]) ++ ((r2 ++ tail) ++ [c_nl]) ++ z)
      with ((x ++ r1 ++ [c_sp; c_sp] ++ [c_nl] ++ r2) ++ (tail ++ [c_nl] ++ z)) by (rewrite <- !app_assoc; reflexivity).
    apply rstrip_keep. destruct I2 as (a & c & -> & Hc). eexists. exists c. rewrite !app_assoc. eauto. }
  destruct Er as (y & ->).
  exists x, r1, r2, tail, (y ++ [c_nl]). do 2 eexists.
  rewrite <- E1' at 1. rewrite <- Erb. split; [exact Ha|]. split; [exact Hb|]. repeat (split; [assumption|]).
  rewrite <- !app_assoc. reflexivity.
Qed.

Example C60_nonvacuous :
  let text := lit "a b  " ++ [c_nl] ++ lit "c  " ++ [c_nl] ++ lit "d" in
  reformat_markdown_text 9 text (WInt 2)
  = Ok (lit "a" ++ [c_nl] ++ lit "b  " ++ [c_nl] ++ lit "c  " ++ [c_nl] ++ lit "d" ++ [c_nl])
  /\ parse_markdown 8 (splitlines text)
     = Ok ([] ++ (PARAGRAPH, [lit "a b  "]) :: (PARAGRAPH, [lit "c  "]) :: [(PARAGRAPH, [lit "d"])])
  /\ plain_space text.
Proof.
  split; [vm_compute; reflexivity|]. split; [vm_compute; reflexivity|].
  apply plain_space_test. vm_compute. reflexivity.
Qed.

(** * C65 *)

(** No line that wrapping makes begins with whitespace, whatever the text and the width. *)
Theorem C65_wrapped_lines_not_indented : forall text w out,
  wrap text w = Ok out ->
  exists lines, out = str_join [c_nl] lines /\ Forall begins_in_ink lines /\ Forall one_line lines.
Proof. exact wrap_fair. Qed.

(** So no line of the output of a paragraph is indented: it cannot become code, and
    nothing but a line break at the end of the paragraph is added to the wrapped lines. *)
Theorem C65_paragraph_not_indented : forall lim text secs content i w r,
  parse_markdown lim (splitlines text) = Ok secs -> In (PARAGRAPH, content) secs ->
  section_text lim w i PARAGRAPH content r ->
  exists lines tail,
    lines <> [] /\ Forall begins_in_ink lines /\ Forall one_line lines
    /\ (tail = [] \/ tail = [c_sp; c_sp]) /\ r = str_join [c_nl] lines ++ tail.
Proof.
  intros lim text secs content i w r Hp Hin H.
  assert (Sh := C10_section_shapes _ _ _ _ _ Hp Hin). destruct Sh as (l0 & rest & Ec & Hl0 & _).
  assert (Hi : ink (str_join [c_sp] (map strip content)) <> []).
  { rewrite ink_join_strip, Ec. cbn [concat]. rewrite ink_app. intros E. apply app_eq_nil in E.
    destruct Hl0 as [Hb _]. apply Hb. unfold blank_line, spaces. destruct E as [E _]. clear -E.
    induction l0 as [|c l0 IH]; [constructor|]. cbn [ink filter] in E. unfold not_space in E.
    destruct (is_space c) eqn:Es; [|discriminate]. constructor; [exact Es|]. apply IH. exact E. }
  unfold section_text in H. cbn [reformatted] in H. unfold fmt_paragraph in H.
  apply bind_ok in H. destruct H as (wrapped & Ew & H).
  destruct (wrap_fair _ _ _ Ew) as (lines & El & Ht & Ho).
  assert (Hne : lines <> []).
  { intros ->. apply wrap_ok in Ew. destruct Ew as (ts & ls & Et & Ew & Hf & _).
    assert (K := wrap_tokens_ok _ _ Et). apply K; [exact Hi|].
    rewrite <- texts_pieces. rewrite <- (filled_ink w _ _ Hf), <- Ew, El. reflexivity. }
  destruct (rev content) as [|x xs]; [discriminate|]. apply ok_inj in H. subst r wrapped.
  exists lines, (if endswith [c_sp; c_sp] x then [c_sp; c_sp] else []).
  repeat (split; [assumption|]). destruct (endswith [c_sp; c_sp] x); [auto|].
  split; [auto|]. rewrite app_nil_r. reflexivity.
Qed.

(** Tabs in the text, code and links: the lines begin with something else than whitespace. *)
Example C65_nonvacuous :
  wrap (lit "  a" ++ [c_tab; c_sp; c_sp; c_tab] ++ lit "`b  c` [d ]( e )") (WInt 5)
  = Ok (lit "a" ++ [c_nl] ++ lit "`b  c`" ++ [c_nl] ++ lit "[d](" ++ [c_nl] ++ lit "e )")
  /\ parse_markdown 9 (splitlines (lit "a" ++ [c_nl] ++ lit "    b  " ++ [c_nl] ++ lit "     c"))
     = Ok [(PARAGRAPH, [lit "a"; lit "    b  "]); (INDENTED_CODE_BLOCK, [lit "     c"])].
Proof. split; vm_compute; reflexivity. Qed.
