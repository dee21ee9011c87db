(** Property C68: wrapping text that is wrapped already. Property C22 for text with inline links. *)
From Coq Require Import String.
From Verif Require Import Py Regex Utils TextWrap Lines Detectors Formatters Base SpecLines SpecParser
  SpecFormat SpecWrap ProofsLines ProofsParser ProofsShapes ProofsPass ProofsTokens ProofsPieces
  ProofsFilled ProofsGaps ProofsSeams ProofsTight ProofsFirst ProofsChars ProofsDocument PropsParser
  SpecParagraph PropsParagraph PropsWrap SpecInline ProofsStable ProofsBrackets ProofsRestable ProofsReread ProofsRefill.

(** It changes where tabs stand between spaces, and where an HTML line break has two spaces
    inside. The whole document is then refused. *)
Theorem C68_refuted :
  (exists text out out', text = lit "a " ++ [c_tab] ++ lit " b"
     /\ wrap text (WInt 88) = Ok out /\ wrap out (WInt 88) = Ok out' /\ out' <> out
     /\ reformat_markdown_text 9 text (WInt 88) = Err ReformatInconsistentException)
  /\ (exists text out out', text = lit "<br  /> b"
     /\ wrap text (WInt 88) = Ok out /\ wrap out (WInt 88) = Ok out' /\ out' <> out
     /\ reformat_markdown_text 9 text (WInt 88) = Err ReformatInconsistentException).
Proof.
  split; do 3 eexists; (split; [reflexivity|]);
    (split; [vm_compute; reflexivity|]); (split; [vm_compute; reflexivity|]);
    (split; [discriminate|]); vm_compute; reflexivity.
Qed.

(** Text without links and HTML line breaks, with or without inline code, whose whitespace
    is spaces and line separators. *)
Theorem C68_partial : forall text w out,
  linkless text -> plain_space text ->
  (forall word a b, In word (words text) -> word <> a ++ lit "<br" ++ b) ->
  wrap text w = Ok out -> wrap out w = Ok out.
Proof. exact wrap_stable. Qed.

(** Text with inline links and single pairs of brackets, with or without inline code. A line can break inside a link, or
    between a link and what touches it, and the text is read differently there the second
    time. *)
Theorem C68_links_partial : forall text w out,
  inline_links text -> plain_space text ->
  (forall word a b, In word (words text) -> word <> a ++ lit "<br" ++ b) ->
  (forall first others, splitlines text = first :: others -> ~ blank_line first) ->
  wrap text w = Ok out -> wrap out w = Ok out.
Proof.
  intros text w out H1 H2 H3 H4. apply wrap_links_stable; [apply links_good, H1|auto|auto|]. intros l ls E. specialize (H4 l ls E).
  destruct (blank l) eqn:Eb; [|reflexivity]. exfalso. apply H4. apply ink_nil, ink_blank, Eb.
Qed.

Lemma no_bracket_test s : forallb (fun c => negb (N.eqb c c_lbr) && negb (N.eqb c c_rbr)) s = true -> no_bracket s.
Proof.
  intros H. rewrite forallb_forall in H. split; intros Hc; apply H in Hc; discriminate.
Qed.

Lemma link_part_test cs s :
  existsb (fun c => negb (is_space c)) s && forallb (fun c => negb (existsb (N.eqb c) cs)) s = true -> link_part cs s.
Proof.
  intros H. apply andb_prop in H. destruct H as [H1 H2]. split.
  - apply existsb_exists in H1. destruct H1 as (c & Hc & Hs). exists c. split; [exact Hc|]. destruct (is_space c); [discriminate|reflexivity].
  - apply Forall_forall. rewrite forallb_forall in H2. intros c Hc Hi. specialize (H2 c Hc). apply negb_true_iff in H2.
    assert (E : existsb (N.eqb c) cs = true) by (apply existsb_exists; exists c; split; [exact Hi|apply N.eqb_refl]). congruence.
Qed.

(** The first line matters: a full stop there is taken for the end of what is before it. *)
Theorem C68_links_refuted : exists text out, text = [c_nl] ++ lit ".x[a](b)"
  /\ inline_links text /\ plain_space text
  /\ wrap text (WInt 88) = Ok out /\ wrap out (WInt 88) = Err IndexError.
Proof.
  exists ([c_nl] ++ lit ".x[a](b)"), (lit ".x[a](b)"). split; [reflexivity|]. split.
  { apply (links_next ([c_nl] ++ lit ".x") (lit "a") (lit "b") []).
    - apply no_bracket_test. reflexivity.
    - apply link_part_test. reflexivity.
    - apply link_part_test. reflexivity.
    - apply links_none, no_bracket_test. reflexivity. }
  split; [apply plain_space_test; vm_compute; reflexivity|]. split; vm_compute; reflexivity.
Qed.

(** With reference links the text can grow each time. The whole document is then refused. *)
Theorem C68_references_refuted :
  (exists text out out', text = lit "see [a](b) x[c][d]" /\ out = lit "see [a](b)x[c][d]" /\ out' = lit "see [a](b)xx[c][d]"
     /\ plain_space text /\ wrap text (WInt 88) = Ok out /\ wrap out (WInt 88) = Ok out'
     /\ reformat_markdown_text 9 text (WInt 88) = Err ReformatInconsistentException)
  /\ (exists text out out', text = lit "[a][b] ([c][d])" /\ out = lit "[a][b]([c][d])"
     /\ out' = lit "[a][b][b]([c][d])([c][d])"
     /\ plain_space text /\ wrap text (WInt 88) = Ok out /\ wrap out (WInt 88) = Ok out'
     /\ reformat_markdown_text 9 text (WInt 88) = Err ReformatInconsistentException).
Proof.
  split; do 3 eexists; (split; [reflexivity|]); (split; [reflexivity|]); (split; [reflexivity|]);
    (split; [apply plain_space_test; vm_compute; reflexivity|]); split; [|split| |split]; vm_compute; reflexivity.
Qed.

(** Lines that neither begin nor end in whitespace are wrapped like the text they make up. *)
Lemma strip_ink l : begins_in_ink l -> ends_in_ink l -> strip l = l.
Proof.
  intros (c & l1 & E1 & H1) (l2 & d & E2 & H2). apply strip_id.
  - rewrite E1. exact H1.
  - rewrite E2, rev_app_distr. exact H2.
Qed.

Lemma strip_ink_tail l : begins_in_ink l -> ends_in_ink l -> strip (l ++ [c_sp; c_sp]) = l.
Proof.
  intros H1 H2. rewrite <- (strip_ink l H1 H2) at 2.
  apply (strip_app_spaces [] l [c_sp; c_sp]); reflexivity.
Qed.

Lemma join_ends lines : lines <> [] -> Forall begins_in_ink lines -> Forall ends_in_ink lines ->
  begins_in_ink (str_join [c_sp] lines) /\ ends_in_ink (str_join [c_sp] lines).
Proof.
  intros Hn H1 H2. split.
  - destruct H1 as [|l ls (c & l' & -> & Hc) _]; [congruence|]. destruct ls; exists c; eexists; (split; [reflexivity|exact Hc]).
  - destruct lines as [|l ls _] using rev_ind; [congruence|]. apply Forall_app in H2. destruct H2 as [_ H2].
    apply Forall_inv in H2. destruct H2 as (a & c & -> & Hc). destruct ls as [|y ls]; [exists a, c; auto|].
    rewrite str_join_app by discriminate. cbn [str_join]. eexists. exists c. rewrite !app_assoc. eauto.
Qed.

Lemma wrap_lines lines w : lines <> [] -> Forall begins_in_ink lines -> Forall ends_in_ink lines ->
  Forall one_line lines -> wrap (str_join [c_sp] lines) w = wrap (str_join [c_nl] lines) w.
Proof.
  intros Hn H1 H2 Ho. rewrite !wrap_by_tokens. unfold wrap_tokens.
  assert (E : joined (str_join [c_sp] lines) = joined (str_join [c_nl] lines)); [|rewrite E; reflexivity].
  assert (Hne : Forall (fun l => l <> []) lines).
  { eapply Forall_impl; [|exact H1]. intros l (c & l' & -> & _). discriminate. }
  unfold joined at 2. rewrite splitlines_join_ne by assumption.
  assert (Em : map strip lines = lines).
  { clear -H1 H2. induction H1 as [|l ls H H1 IH]; [reflexivity|]. inversion H2; subst.
    cbn [map]. rewrite strip_ink, IH by assumption. reflexivity. }
  rewrite Em. destruct (join_ends lines Hn H1 H2) as [G1 G2].
  unfold joined. change (splitlines (str_join [c_sp] lines)) with (splitlines (str_join [c_nl] [str_join [c_sp] lines])).
  rewrite (splitlines_join_ne [str_join [c_sp] lines]).
  - cbn [map str_join]. apply strip_ink; assumption.
  - constructor; [|constructor]. destruct G1 as (c & l & -> & _). discriminate.
  - constructor; [|constructor]. apply Forall_str_join; [repeat constructor|exact Ho].
Qed.

Lemma content_words lim text secs content : parse_markdown lim (splitlines text) = Ok secs -> In (PARAGRAPH, content) secs ->
  forall word, In word (words (str_join [c_sp] (map strip content))) -> In word (words text).
Proof.
  intros Hp Hin word Hw. rewrite words_strip_join in Hw. apply in_concat in Hw. destruct Hw as (x & Hx & Hw).
  apply in_map_iff in Hx. destruct Hx as (y & <- & Hy).
  rewrite <- words_joined. unfold joined. rewrite words_strip_join. apply in_concat. exists (words y).
  split; [|exact Hw]. apply in_map. apply parse_markdown_lossless in Hp. destruct Hp as [<- _].
  apply in_concat. exists content. split; [|exact Hy]. apply in_map_iff. exists (PARAGRAPH, content). auto.
Qed.

Lemma content_spacing lim text secs content : parse_markdown lim (splitlines text) = Ok secs -> In (PARAGRAPH, content) secs ->
  plain_space text -> plain_space (str_join [c_sp] (map strip content)).
Proof.
  intros Hp Hin Hs. apply Forall_str_join; [repeat constructor; cbn; auto|].
  apply parse_markdown_lossless in Hp. destruct Hp as [Hp _].
  assert (L := Forall_splitlines _ text Hs). rewrite <- Hp in L.
  apply Forall_map. apply Forall_forall. intros x Hx. apply Forall_strip.
  rewrite Forall_forall in L. apply L. apply in_concat. exists content. split; [|exact Hx].
  apply in_map_iff. exists (PARAGRAPH, content). auto.
Qed.

Lemma paragraph_again lim text secs content i w r :
  parse_markdown lim (splitlines text) = Ok secs -> In (PARAGRAPH, content) secs -> plain_space text ->
  (forall out, wrap (str_join [c_sp] (map strip content)) w = Ok out -> wrap out w = Ok out) ->
  section_text lim w i PARAGRAPH content r ->
  forall i', section_text lim w i' PARAGRAPH (splitlines r) r.
Proof.
  intros Hp Hin Hs Hw0 H i'.
  destruct (C60_two_spaces_partial _ _ _ _ _ _ _ Hp Hin Hs H) as (ls & l & H2 & Ho & Er1 & Er2).
  unfold section_text in *. cbn [reformatted] in *. unfold fmt_paragraph in *.
  apply bind_ok in H. destruct H as (wrapped & Ew & H).
  assert (St := Hw0 _ Ew).
  destruct (rev content) as [|x xs] eqn:Erc; [discriminate|]. apply ok_inj in H.
  assert (Elast : last content [] = x).
  { rewrite <- (rev_involutive content), Erc. cbn [rev]. apply last_last. }
  rewrite Elast in *.
  assert (N1 : forall ls', Forall begins_in_ink ls' -> Forall (fun l => l <> []) ls').
  { intros ls'. apply Forall_impl. intros y (c & y' & -> & _). discriminate. }
  assert (N2 : forall ls', Forall ends_in_ink ls' -> Forall (fun l => l <> []) ls').
  { intros ls'. apply Forall_impl. intros y (y' & c & -> & _). destruct y'; discriminate. }
  assert (Ewr : wrapped = str_join [c_nl] (ls ++ [l])).
  { destruct (endswith [c_sp; c_sp] x) eqn:Ex.
    - apply hard_break_spec in Ex. rewrite (Er1 Ex) in H. apply app_inv_tail in H. exact H.
    - apply no_hard_break in Ex. rewrite (Er2 Ex) in H. exact H. }
  assert (H1 : Forall begins_in_ink (ls ++ [l])).
  { destruct (wrap_fair _ _ _ Ew) as (lines' & El' & H1' & Ho').
    replace (ls ++ [l]) with lines'; [exact H1'|].
    rewrite <- (splitlines_join_ne lines'), <- (splitlines_join_ne (ls ++ [l])) by auto. congruence. }
  assert (Hne : ls ++ [l] <> []) by (destruct ls; discriminate).
  assert (Em : map strip (ls ++ [l]) = ls ++ [l]).
  { clear -H1 H2. induction H1 as [|y ys H H1 IH]; [reflexivity|]. inversion H2; subst.
    cbn [map]. rewrite strip_ink, IH by assumption. reflexivity. }
  rewrite Ewr, <- wrap_lines in St by assumption.
  destruct (endswith [c_sp; c_sp] x) eqn:Ex.
  - apply hard_break_spec in Ex. specialize (Er1 Ex).
    assert (Es : splitlines r = ls ++ [l ++ [c_sp; c_sp]]).
    { replace r with (str_join [c_nl] (ls ++ [l ++ [c_sp; c_sp]])).
      - apply splitlines_join_ne; apply Forall_app.
        + split; [specialize (N1 _ H1); apply Forall_app in N1; apply N1|]. constructor; [|constructor]. destruct l; discriminate.
        + apply Forall_app in Ho. split; [apply Ho|]. constructor; [|constructor]. unfold one_line. apply Forall_app. split; [|repeat constructor].
          destruct Ho as [_ Ho]. apply Forall_inv in Ho. exact Ho.
      - rewrite Er1. destruct ls as [|y ls]; [reflexivity|]. rewrite !str_join_app by discriminate. cbn [str_join].
        rewrite <- !app_assoc. reflexivity. }
    rewrite Es. replace (map strip (ls ++ [l ++ [c_sp; c_sp]])) with (ls ++ [l]).
    2:{ rewrite map_app in *. cbn [map] in *. rewrite strip_ink_tail.
        - apply app_inj_tail in Em. destruct Em as [-> _]. reflexivity.
        - apply Forall_app in H1. destruct H1 as [_ H1]. apply Forall_inv in H1. exact H1.
        - apply Forall_app in H2. destruct H2 as [_ H2]. apply Forall_inv in H2. exact H2. }
    rewrite St. cbn [bind]. rewrite rev_app_distr. cbn [rev app].
    rewrite (proj2 (hard_break_spec (l ++ [c_sp; c_sp]))) by (exists l; reflexivity). rewrite Er1. reflexivity.
  - apply no_hard_break in Ex. specialize (Er2 Ex). rewrite Er2, splitlines_join_ne by auto.
    rewrite Em, St. cbn [bind]. rewrite rev_app_distr. cbn [rev app].
    destruct (endswith [c_sp; c_sp] l) eqn:El; [|reflexivity]. exfalso. apply hard_break_spec in El. destruct El as (l' & ->).
    apply Forall_app in H2. destruct H2 as [_ H2]. apply Forall_inv in H2. destruct H2 as (l2 & c & E & Hc).
    change [c_sp; c_sp] with ([c_sp] ++ [c_sp]) in E. rewrite app_assoc in E. apply app_inj_tail in E.
    destruct E as [_ <-]. discriminate.
Qed.

(** So a formatted paragraph of such text is formatted into itself. *)
Theorem C68_paragraph_partial : forall lim text secs content i w r,
  parse_markdown lim (splitlines text) = Ok secs -> In (PARAGRAPH, content) secs ->
  linkless text -> plain_space text ->
  (forall word a b, In word (words text) -> word <> a ++ lit "<br" ++ b) ->
  section_text lim w i PARAGRAPH content r ->
  forall i', section_text lim w i' PARAGRAPH (splitlines r) r.
Proof.
  intros lim text secs content i w r Hp Hin Hl Hs Hb H. assert (Hws := content_words _ _ _ _ Hp Hin).
  apply (paragraph_again lim text secs content i w r Hp Hin Hs); [|exact H]. intros out Ew.
  eapply wrap_stable; [|eapply content_spacing; eassumption| |exact Ew].
  - intros word z a b Hw. apply Hl, Hws, Hw.
  - intros word a b Hw. apply Hb, Hws, Hw.
Qed.

Theorem C68_links_paragraph_partial : forall lim text secs content i w r,
  parse_markdown lim (splitlines text) = Ok secs -> In (PARAGRAPH, content) secs ->
  inline_links (str_join [c_nl] content) -> plain_space text ->
  (forall word a b, In word (words text) -> word <> a ++ lit "<br" ++ b) ->
  section_text lim w i PARAGRAPH content r ->
  forall i', section_text lim w i' PARAGRAPH (splitlines r) r.
Proof.
  intros lim text secs content i w r Hp Hin Hl Hs Hb H. assert (Hws := content_words _ _ _ _ Hp Hin).
  apply (paragraph_again lim text secs content i w r Hp Hin Hs); [|exact H]. intros out Ew.
  eapply wrap_links_stable; [|eapply content_spacing; eassumption| | |exact Ew].
  - apply (good_same_words (str_join [c_nl] content)); [|apply links_good, Hl]. rewrite words_strip_join. symmetry. rewrite words_join_nl. reflexivity.
  - intros word a b Hw. apply Hb, Hws, Hw.
  - intros l ls E. destruct (C10_section_shapes _ _ _ _ _ Hp Hin) as (l0 & rest & -> & (Hbl & _) & _).
    assert (Hb0 : blank l0 = false).
    { destruct (blank l0) eqn:Eb; [|reflexivity]. exfalso. apply Hbl. apply ink_nil, ink_blank, Eb. }
    assert (Ho : one_line (str_join [c_sp] (map strip (l0 :: rest)))).
    { apply Forall_str_join; [repeat constructor|]. apply parse_markdown_lossless in Hp. destruct Hp as [Hp _].
      assert (L := splitlines_no_linebreak text). rewrite <- Hp in L. apply Forall_map, Forall_forall. intros x Hx. apply Forall_strip.
      rewrite Forall_forall in L. apply L. apply in_concat. exists (l0 :: rest). split; [|exact Hx].
      apply in_map_iff. exists (PARAGRAPH, l0 :: rest). auto. }
    destruct (strip_ends l0 Hb0) as [(c & a & Ea & Hc) _].
    assert (Ef : exists z, str_join [c_sp] (map strip (l0 :: rest)) = c :: z).
    { cbn [map]. rewrite Ea. destruct (map strip rest); eexists; reflexivity. }
    destruct Ef as (z & Ef).
    change (splitlines (str_join [c_sp] (map strip (l0 :: rest)))) with (splitlines (str_join [c_nl] [str_join [c_sp] (map strip (l0 :: rest))])) in E.
    rewrite splitlines_join_ne in E; [|constructor; [rewrite Ef; discriminate|constructor]|constructor; [exact Ho|constructor]].
    rewrite Ef in E. injection E as <- _. apply ink_ne_blank. unfold ink. cbn [filter]. unfold not_space. rewrite Hc. discriminate.
Qed.

(** Text with inline code, which contains spaces and is followed directly by other text. *)
Definition C68_text : str :=
  lit "use  `a  b`, x`c`." ++ [c_nl] ++ lit "and ``d ` e`` `f  " ++ [c_nl; c_nl].
Definition C68_out : str :=
  str_join [c_nl] [lit "use"; lit "`a  b`"; lit ", x"; lit "`c`."; lit "and"; lit "``d ` e``"; lit "`f"].

Example C68_nonvacuous :
  linkless C68_text /\ plain_space C68_text
  /\ (forall word a b, In word (words C68_text) -> word <> a ++ lit "<br" ++ b)
  /\ wrap C68_text (WInt 5) = Ok C68_out /\ wrap C68_out (WInt 5) = Ok C68_out
  /\ (exists content, parse_markdown 9 (splitlines C68_text) = Ok [(PARAGRAPH, content); (BLANK_LINE, [[]])]
      /\ section_text 9 (WInt 5) 0 PARAGRAPH content (C68_out ++ [c_sp; c_sp])).
Proof.
  split; [apply linkless_test; vm_compute; reflexivity|].
  split; [apply plain_space_test; vm_compute; reflexivity|].
  split.
  { assert (G : forallb (fun w => negb (contains (lit "<br") w)) (words C68_text) = true) by (vm_compute; reflexivity).
    intros word a b Hw E. rewrite forallb_forall in G. specialize (G word Hw). apply negb_true_iff in G.
    assert (K : contains (lit "<br") word = true) by (apply contains_spec; eauto). congruence. }
  split; [vm_compute; reflexivity|]. split; [vm_compute; reflexivity|].
  eexists. split; vm_compute; reflexivity.
Qed.

(** Links whose text and target are broken, beside inline code and single pairs of brackets. *)
Definition C68_links_text : str :=
  lit "see [the  manual](http://a.b  c) y[d e](f)." ++ [c_nl] ++ lit "(use `g h`) [1]: [`i k`](j) m[ ]" ++ [c_nl].
Definition C68_links_out : str :=
  str_join [c_nl] [lit "see"; lit "[the"; lit "manual]("; lit "http://a.b  c)"; lit "y[d e]("; lit "f)."; lit "(use"; lit "`g h`)"; lit "[1]: ["; lit "`i k`"; lit "](j) m["; lit "]"].

Lemma C68_links_brackets : inline_links C68_links_text /\ inline_links (str_join [c_nl] (splitlines C68_links_text)).
Proof.
  assert (H : forall z, no_bracket z -> (forall z', z <> c_lpar :: z') -> (forall z', z <> c_lbr :: z') -> inline_links (lit "see [the  manual](http://a.b  c) y[d e](f)." ++ [c_nl] ++ lit "(use `g h`) [1]: [`i k`](j) m[ ]" ++ z)).
  { intros z Hz H1 H2.
    apply (links_next (lit "see ") (lit "the  manual") (lit "http://a.b  c") (lit " y[d e](f)." ++ [c_nl] ++ lit "(use `g h`) [1]: [`i k`](j) m[ ]" ++ z)); [apply no_bracket_test; reflexivity|apply link_part_test; reflexivity|apply link_part_test; reflexivity|].
    apply (links_next (lit " y") (lit "d e") (lit "f") (lit "." ++ [c_nl] ++ lit "(use `g h`) [1]: [`i k`](j) m[ ]" ++ z)); [apply no_bracket_test; reflexivity|apply link_part_test; reflexivity|apply link_part_test; reflexivity|].
    apply (links_pair (lit "." ++ [c_nl] ++ lit "(use `g h`) ") (lit "1") (lit ": [`i k`](j) m[ ]" ++ z)); [apply no_bracket_test; reflexivity|apply no_bracket_test; reflexivity|discriminate|discriminate|].
    apply (links_next (lit ": ") (lit "`i k`") (lit "j") (lit " m[ ]" ++ z)); [apply no_bracket_test; reflexivity|apply link_part_test; reflexivity|apply link_part_test; reflexivity|].
    apply (links_pair (lit " m") (lit " ") z); [apply no_bracket_test; reflexivity|apply no_bracket_test; reflexivity|exact H1|exact H2|].
    apply links_none, Hz. }
  split.
  - apply (H [c_nl]); [apply no_bracket_test; reflexivity|discriminate|discriminate].
  - assert (G := H []). rewrite !app_nil_r in G. apply G; [apply no_bracket_test; reflexivity|discriminate|discriminate].
Qed.

Example C68_links_nonvacuous :
  inline_links C68_links_text /\ plain_space C68_links_text
  /\ (forall word a b, In word (words C68_links_text) -> word <> a ++ lit "<br" ++ b)
  /\ (forall first others, splitlines C68_links_text = first :: others -> ~ blank_line first)
  /\ wrap C68_links_text (WInt 7) = Ok C68_links_out /\ wrap C68_links_out (WInt 7) = Ok C68_links_out
  /\ (exists content, parse_markdown 9 (splitlines C68_links_text) = Ok [(PARAGRAPH, content)]
      /\ inline_links (str_join [c_nl] content)
      /\ section_text 9 (WInt 7) 0 PARAGRAPH content C68_links_out).
Proof.
  split; [apply C68_links_brackets|].
  split; [apply plain_space_test; vm_compute; reflexivity|].
  split.
  { assert (G : forallb (fun w => negb (contains (lit "<br") w)) (words C68_links_text) = true) by (vm_compute; reflexivity).
    intros word a b Hw E. rewrite forallb_forall in G. specialize (G word Hw). apply negb_true_iff in G.
    assert (K : contains (lit "<br") word = true) by (apply contains_spec; eauto). congruence. }
  split.
  { intros l ls E. assert (F : l = lit "see [the  manual](http://a.b  c) y[d e](f).") by (vm_compute in E; injection E as <- _; reflexivity).
    subst l. intros Hbl. apply Forall_inv in Hbl. discriminate. }
  split; [vm_compute; reflexivity|]. split; [vm_compute; reflexivity|].
  eexists. split; [vm_compute; reflexivity|]. split; [exact (proj2 C68_links_brackets)|vm_compute; reflexivity].
Qed.

(** Wrapping changes only whitespace in text with inline links, also where they touch, as in
    "[a](b)[c](d)". *)
Theorem C22_links_partial : forall text w out,
  inline_links text -> wrap text w = Ok out -> ink out = ink text.
Proof. intros text w out H. apply C22_partial, links_joined, links_good, H. Qed.

Example C22_links_nonvacuous :
  let text := lit "see [a](b)[c d](e)([f](g))<br>, [1]" in
  inline_links text
  /\ wrap text (WInt 9) = Ok (str_join [c_nl] [lit "see [a]("; lit "b)[c d]("; lit "e)([f]("; lit "g))<br>,"; lit "[1]"]).
Proof.
  split; [|vm_compute; reflexivity].
  apply (links_next (lit "see ") (lit "a") (lit "b") (lit "[c d](e)([f](g))<br>, [1]"));
    [apply no_bracket_test; reflexivity|apply link_part_test; reflexivity|apply link_part_test; reflexivity|].
  apply (links_next [] (lit "c d") (lit "e") (lit "([f](g))<br>, [1]"));
    [apply no_bracket_test; reflexivity|apply link_part_test; reflexivity|apply link_part_test; reflexivity|].
  apply (links_next (lit "(") (lit "f") (lit "g") (lit ")<br>, [1]"));
    [apply no_bracket_test; reflexivity|apply link_part_test; reflexivity|apply link_part_test; reflexivity|].
  apply (links_pair (lit ")<br>, ") (lit "1") []); try (apply no_bracket_test; reflexivity); try discriminate.
  apply links_none, no_bracket_test. reflexivity.
Qed.
