(** Properties C25 and C40: documents of prose and the other sections that are
    formatted on their own. *)
From Coq Require Import String QArith.
From Verif Require Import Py Regex Utils TextWrap Lines Detectors Formatters Base
  SpecLines SpecParser SpecFormat SpecTable SpecWrap SpecProse SpecDefinition SpecDocument SpecContent ProofsLines ProofsShapes
  ProofsParser ProofsPass ProofsGaps ProofsProse ProofsPieces PropsParser PropsLeaf PropsWrap ProofsDefinition PropsDefinition PropsList ProofsDocument.
Local Open Scope nat_scope.

Lemma reformat_same_lines lim text text' w :
  splitlines text = splitlines text' ->
  reformat_markdown_text lim text w = reformat_markdown_text lim text' w.
Proof.
  intros E. unfold reformat_markdown_text. destruct lim as [|lim]; [reflexivity|].
  cbn [reformat_pass]. rewrite E. reflexivity.
Qed.

Lemma rtrims_rstrip s : rtrims s (rstrip s).
Proof.
  destruct (rstrip_by_spec is_space s) as (post & E & Hp). split.
  - exists post. split; [exact E|]. apply Forall_forall. apply forallb_forall. exact Hp.
  - intros r' c G. eapply (rstrip_by_last is_space). exact G.
Qed.

(** * C40 *)

(** Documents made of blank lines, ATX headings, thematic breaks, closed fenced code,
    indented code, tables, link reference definitions, paragraphs and setext headings of
    words, inline code and links, where each section ends before the next one. They are parsed into just
    these sections, every section is formatted on its own, into a section of the same kind,
    and the document of the formatted sections is parsed into just the formatted sections
    and does not change any more. So reformatting succeeds, and returns that document
    without trailing whitespace. *)
Theorem C40_structured_documents : forall lim w secs text,
  structured secs -> secs <> [] -> splitlines text = concat (map snd secs) ->
  (forall ls, In (THEMATIC_BREAK, ls) secs -> wide w) ->
  exists secs' out,
    structured secs' /\ map fst secs' = map fst secs
    /\ (exists ps, Forall2 (fun s p => content (fst s) (snd s) p) secs ps
                   /\ Forall2 (fun s p => content (fst s) (snd s) p) secs' ps)
    /\ (forall lim', parse_markdown (S lim') (splitlines text) = Ok secs)
    /\ (forall lim', parse_markdown (S lim') (splitlines (document secs')) = Ok secs')
    /\ section_texts (S lim) w 0 secs (map (fun s => str_join [c_nl] (snd s)) secs')
    /\ section_texts (S lim) w 0 secs' (map (fun s => str_join [c_nl] (snd s)) secs')
    /\ reformat_pass (S (S lim)) text w = Ok (document secs')
    /\ reformat_pass (S (S lim)) (document secs') w = Ok (document secs')
    /\ rtrims (document secs') out
    /\ reformat_markdown_text (S (S lim)) text w = Ok (out ++ [c_nl]).
Proof.
  intros lim w secs text H Hn Et Hw.
  destruct (structured_pass (S lim) w secs H Hn Hw) as (secs' & H' & F & P1 & P2); [lia|].
  exists secs', (rstrip (document secs')).
  assert (Es : splitlines text = splitlines (document secs)) by (rewrite Et; symmetry; apply document_lines; exact H).
  assert (P0 : reformat_pass (S (S lim)) text w = Ok (document secs')).
  { cbn [reformat_pass] in P1 |- *. rewrite Es. exact P1. }
  split; [exact H'|]. split.
  { clear -F. induction F as [|s s' l l' [E _] F IH]; [reflexivity|]. cbn [map]. rewrite E, IH. reflexivity. }
  split.
  { apply structured_blocks in H. clear -F H. induction F as [|s s' l l' [E G] F IH]; [exists []; split; constructor|].
    inversion H as [|? ? [Hb _] H']; subst. destruct (IH H') as (ps & P1 & P2). destruct (block_content _ _ Hb) as (p & Hp).
    exists (p :: ps). split; constructor; try assumption. rewrite <- E. apply (formatted_content _ _ _ _ _ G). exact Hp. }
  split; [intros lim'; rewrite Et; apply structured_parse; exact H|].
  split; [intros lim'; rewrite document_lines by exact H'; apply structured_parse; exact H'|].
  split; [|split; [|split; [exact P0|split; [exact P2|split; [apply rtrims_rstrip|]]]]].
  - generalize 0. clear -F. induction F as [|[ty ls] [ty' ls'] secs secs' [E G] F IH]; intros i; cbn [map snd]; [constructor|].
    constructor; [apply G|apply IH].
  - generalize 0. clear -F. induction F as [|[ty ls] [ty' ls'] secs secs' [E G] F IH]; intros i; cbn [map snd]; [constructor|].
    cbn in E. subst ty'. constructor; [apply G|apply IH].
  - unfold reformat_markdown_text. rewrite P0. cbn [bind]. rewrite P2. cbn [bind]. rewrite str_eqb_refl. reflexivity.
Qed.

(** What a section says is unambiguous. *)
Theorem C40_says_one_thing : forall ty ls p p', content ty ls p -> content ty ls p' -> p = p'.
Proof. exact content_unique. Qed.

(** Unless it ends in a link reference definition, the output is a document of the same
    sections, up to blank lines at the end, and reformatting it changes nothing. *)
Theorem C40_output_is_fixed : forall lim w secs text,
  structured secs -> secs <> [] -> splitlines text = concat (map snd secs) ->
  (forall ls, In (THEMATIC_BREAK, ls) secs -> wide w) ->
  (forall before ls after, secs = before ++ (LINK_REFERENCE_DEFINITION, ls) :: after ->
     exists s, In s after /\ fst s <> BLANK_LINE) ->
  exists secs' n out,
    reformat_markdown_text (S (S lim)) text w = Ok out
    /\ reformat_markdown_text (S (S lim)) out w = Ok out
    /\ structured secs' /\ out = document secs'
    /\ (forall lim', parse_markdown (S lim') (splitlines out) = Ok secs')
    /\ map fst secs = map fst secs' ++ repeat BLANK_LINE n.
Proof.
  intros lim w secs text H Hn Et Hw Hl.
  destruct (structured_pass (S lim) w secs H Hn Hw) as (secs' & H' & F & P1 & P2); [lia|].
  destruct (formatted_output (S lim) w secs secs' H H' Hn F) as (R & secs'' & n & S'' & D & T); [lia|exact Hl|].
  exists secs'', n, (rstrip (document secs') ++ [c_nl]).
  split.
  { rewrite (reformat_same_lines _ text (document secs)).
    2:{ rewrite Et. symmetry. apply document_lines. exact H. }
    unfold reformat_markdown_text. rewrite P1. cbn [bind]. rewrite P2. cbn [bind]. rewrite str_eqb_refl. reflexivity. }
  split; [exact R|]. split; [exact S''|]. split; [symmetry; exact D|]. split.
  - intros lim'. rewrite <- D, document_lines by exact S''. apply structured_parse. exact S''.
  - rewrite <- T. clear -F. induction F as [|s s' l l' [E _] F IH]; [reflexivity|]. cbn [map]. rewrite E, IH. reflexivity.
Qed.

(** The statement of C40 with every width of at least three. *)
Theorem C40_no_inconsistency : forall lim z secs text,
  structured secs -> secs <> [] -> splitlines text = concat (map snd secs) -> (3 <= z)%Z ->
  exists out, reformat_markdown_text (S (S lim)) text (WInt z) = Ok out.
Proof.
  intros lim z secs text H Hn Et Hz.
  destruct (C40_structured_documents lim (WInt z) secs text H Hn Et) as (secs' & out & G).
  - intros _ _. right. exists z. auto.
  - exists (out ++ [c_nl]). apply G.
Qed.

(** * C25 *)

(** One paragraph of words, inline code and links: it says the same, its pieces fill the lines
    greedily, and reformatting again changes nothing. *)
Theorem C25_prose_paragraph : forall lim w ls text ps,
  plain_lines ls -> text_pieces ls ps -> splitlines text = ls ->
  exists lines,
    reformat_markdown_text (S (S lim)) text w = Ok (newline_terminated lines)
    /\ reformat_markdown_text (S (S lim)) (newline_terminated lines) w = Ok (newline_terminated lines)
    /\ splitlines (newline_terminated lines) = lines /\ lines <> []
    /\ text_pieces lines ps /\ filled w ps lines.
Proof.
  intros lim w ls text ps Hp Hps Et.
  assert (Ho : Forall one_line ls) by (rewrite <- Et; apply splitlines_one_line).
  assert (Hp' := Hp). destruct Hp' as (l & rest & E & Hi & Ht & _).
  assert (Hn : ls <> []) by (rewrite E; discriminate). clear E.
  destruct (wrap_plain ls w ps Ht Hn Hps) as (lines & E1 & E2 & Hn' & Ht' & Ho' & Hh & Hl & Hps' & Hf).
  exists lines.
  assert (S1 : structured [(PARAGRAPH, ls)]).
  { constructor; [exact Hp|exact Ho|intros ? ? ? G; discriminate|constructor]. }
  assert (S2 : structured [(PARAGRAPH, lines)]).
  { constructor; [eapply plain_lines_of; eassumption|exact Ho'|intros ? ? ? G; discriminate|constructor]. }
  assert (T : forall x, x = ls \/ x = lines ->
    forall i, section_texts (S lim) w i [(PARAGRAPH, x)] [str_join [c_nl] lines]).
  { intros x Hx i. constructor; [|constructor]. unfold section_text. cbn [reformatted]. unfold fmt_paragraph.
    destruct Hx as [->| ->]; [rewrite E1|rewrite E2]; cbn [bind].
    - destruct (no_break_last ls Hn Ht) as (x & r & -> & ->). reflexivity.
    - destruct (no_break_last lines Hn' Ht') as (x & r & -> & ->). reflexivity. }
  assert (D : forall x, document [(PARAGRAPH, x)] = newline_terminated x).
  { intros x. unfold document. cbn [map snd concat]. rewrite app_nil_r. reflexivity. }
  assert (R : rstrip (newline_terminated lines) ++ [c_nl] = newline_terminated lines).
  { destruct (exists_last Hn') as (front & y & ->). apply Forall_app in Hl. destruct Hl as [_ Hl].
    apply Forall_inv in Hl. destruct Hl as (s & c & -> & Hc).
    rewrite <- (D (front ++ [s ++ [c]])).
    apply (document_rstrip _ [] PARAGRAPH front s c []); [reflexivity|exact Hc|constructor]. }
  assert (P : forall x, x = ls \/ x = lines ->
    reformat_pass (S (S lim)) (newline_terminated x) w = Ok (newline_terminated lines)).
  { intros x Hx. rewrite <- !D. apply pass_texts; auto; try discriminate; try lia.
    destruct Hx as [->| ->]; assumption. }
  assert (Q : forall x, x = ls \/ x = lines ->
    reformat_markdown_text (S (S lim)) (newline_terminated x) w = Ok (newline_terminated lines)).
  { intros x Hx. unfold reformat_markdown_text. rewrite P by exact Hx. cbn [bind]. rewrite P by auto.
    cbn [bind]. rewrite str_eqb_refl, R. reflexivity. }
  split.
  { rewrite (reformat_same_lines _ text (newline_terminated ls)); [apply Q; auto|].
    rewrite splitlines_newline_terminated by exact Ho. exact Et. }
  split; [apply Q; auto|]. split; [apply splitlines_newline_terminated; exact Ho'|].
  split; [exact Hn'|]. split; [exact Hps'|exact Hf].
Qed.

Lemma spacing_strips ls : Forall text_line ls -> spacing (str_join [c_sp] (map strip ls)).
Proof.
  intros H. apply Forall_str_join; [repeat constructor|]. apply Forall_map. eapply Forall_impl; [|exact H].
  intros l (Hl & _). apply Forall_strip. exact Hl.
Qed.

(** Lines of ordinary words are such lines, and their pieces are the words. *)
Lemma words_text ls : Forall text_line ls -> Forall ordinary (concat (map words ls)) ->
  text_pieces ls (words_as_pieces (concat (map words ls))).
Proof.
  intros Ht Ho. unfold text_pieces. rewrite <- words_strip_join in *. apply words_prose; [|exact Ho].
  apply spacing_strips. exact Ht.
Qed.

(** One paragraph of ordinary words: the same words, separated by single spaces or line
    breaks; a line is longer than the width only if it is one word; a line is broken only
    where the next word would not have fit; and reformatting again changes nothing. *)
Theorem C25_plain_paragraph : forall lim w l rest text,
  splitlines text = l :: rest -> ~ indented_line l -> Forall text_line (l :: rest) ->
  Forall ordinary (concat (map words (l :: rest))) ->
  exists lines,
    reformat_markdown_text (S (S lim)) text w = Ok (newline_terminated lines)
    /\ reformat_markdown_text (S (S lim)) (newline_terminated lines) w = Ok (newline_terminated lines)
    /\ splitlines (newline_terminated lines) = lines /\ lines <> []
    /\ concat (map words lines) = concat (map words (l :: rest))
    /\ Forall (fun l => words l <> [] /\ l = str_join [c_sp] (words l)) lines
    /\ Forall (fun l => fits w (length l) \/ words l = [l]) lines
    /\ (forall before l l' after word more,
          lines = before ++ l :: l' :: after -> words l' = word :: more ->
          ~ fits w (length l + 1 + length word)).
Proof.
  intros lim w l rest text Et Hi Ht Hord. assert (Hps := words_text _ Ht Hord).
  assert (Hp : plain_lines (l :: rest)) by (exists l, rest; eauto 6).
  destruct (C25_prose_paragraph lim w _ text _ Hp Hps Et) as (lines & R1 & R2 & Es & Hn & _ & Hf).
  set (ls := l :: rest) in *. exists lines. do 4 (split; [assumption|]).
  assert (Hws : Forall (fun x => x <> [] /\ Forall (fun c => is_space c = false) x) (concat (map words ls))).
  { rewrite Forall_concat. apply Forall_map. apply Forall_forall. intros x _. apply words_nonspace. }
  assert (Hg : word_lines (concat (map words ls)) lines).
  { eapply filled_word_lines; [|exact Hf]. eapply Forall_impl; [|exact Hws]. cbn. tauto. }
  destruct (word_lines_words _ _ Hws Hg) as [Ew Fw]. split; [exact Ew|]. split; [exact Fw|].
  apply (filled_greedy w (concat (map words ls))); [exact Hws| |exact Hf].
  eapply Forall_impl; [|exact Hord]. intros y (Hy & _) a z b Hz. apply Hy. apply in_or_app. left. exact Hz.
Qed.

(** * Examples *)

Lemma ordinary_letters word :
  word <> [] -> Forall (fun c => 97 <= c <= 122)%N word -> ordinary word.
Proof.
  intros Hn H.
  assert (G : forall a c b, word = a ++ c :: b -> (97 <= c <= 122)%N).
  { intros a c b ->. apply Forall_app in H. destruct H as [_ H]. exact (Forall_inv H). }
  repeat split.
  - intros z a b Hz ->. cbn in Hz. decompose [or] Hz; subst; try contradiction;
      specialize (G a _ _ eq_refl); lia.
  - intros c t Hc ->. specialize (G [] _ _ eq_refl). cbn in Hc. decompose [or] Hc; subst; try contradiction; lia.
  - intros t ->. apply (Forall_inv_tail) in H. apply (Forall_inv) in H. cbn in H. lia.
  - intros t ->. apply (Forall_inv) in H. cbn in H. lia.
  - intros ds _ ->. specialize (G ds _ [] eq_refl). lia.
  - intros c [|n] Hc ->; [cbn in Hn; congruence|]. specialize (G [] _ _ eq_refl). cbn in Hc.
    decompose [or] Hc; subst; try contradiction; lia.
  - intros ->. apply Forall_inv in H. cbn in H. lia.
  - intros c t ->. apply Forall_inv in H. cbn in H. lia.
Qed.

Lemma letters_line l :
  forallb (fun c => (c =? 32) || (97 <=? c) && (c <=? 122))%N l = true -> words l <> [] ->
  endswith [c_sp; c_sp] l = false -> text_line l /\ Forall ordinary (words l).
Proof.
  intros H Hn Hl'.
  assert (Hl : forall l', l <> l' ++ [c_sp; c_sp]).
  { intros l' E. assert (endswith [c_sp; c_sp] l = true) by (apply endswith_spec; eauto). congruence. }
  assert (G : forall c, In c l -> c = c_sp \/ (97 <= c <= 122)%N).
  { rewrite forallb_forall in H. intros c Hc. specialize (H c Hc). apply orb_true_iff in H.
    destruct H as [H|H]; [left; apply N.eqb_eq; exact H|right]. apply andb_true_iff in H.
    destruct H as [H1 H2]. apply N.leb_le in H1, H2. auto. }
  assert (Ho : Forall ordinary (words l)).
  2:{ split; [|exact Ho]. split; [|split; [|exact Hl]].
  - apply Forall_forall. intros c Hc Hs. destruct (G c Hc) as [E|E]; [exact E|].
    exfalso. unfold is_space in Hs. lia.
  - destruct (words l) as [|x more]; [congruence|]. exists x, more. split; [reflexivity|]. apply Forall_inv in Ho. apply Ho. }
  - apply Forall_forall. intros x Hx.
    assert (Hw := words_nonspace l). rewrite Forall_forall in Hw. destruct (Hw x Hx) as [Hx1 Hx2].
    apply ordinary_letters; [exact Hx1|]. apply Forall_forall. intros c Hc.
    assert (Hi := Forall_words _ l (proj2 (Forall_forall _ l) G)). rewrite Forall_forall in Hi.
    specialize (Hi x Hx). rewrite Forall_forall in Hi.
    destruct (Hi c Hc) as [->|E]; [|exact E]. rewrite Forall_forall in Hx2. discriminate (Hx2 _ Hc).
Qed.

Definition lettered (l : str) : bool :=
  forallb (fun c => (c =? 32) || (97 <=? c) && (c <=? 122))%N l && negb (nilb (words l))
  && negb (endswith [c_sp; c_sp] l).

Lemma lettered_text ls : forallb lettered ls = true ->
  Forall text_line ls /\ Forall ordinary (concat (map words ls)).
Proof.
  intros H. rewrite forallb_forall in H.
  assert (G : forall l, In l ls -> text_line l /\ Forall ordinary (words l)).
  { intros l Hl. specialize (H l Hl). unfold lettered in H. apply Bool.andb_true_iff in H. destruct H as [H H4].
    apply Bool.andb_true_iff in H. destruct H as [H1 H5]. apply letters_line; [exact H1| |].
    - intros E. rewrite E in H5. discriminate.
    - apply Bool.negb_true_iff in H4. exact H4. }
  split; [apply Forall_forall; intros l Hl; apply G, Hl|]. rewrite Forall_concat. apply Forall_map, Forall_forall.
  intros l Hl. apply G, Hl.
Qed.

Lemma lettered_plain ls : forallb lettered ls = true -> nilb ls = false ->
  is_indented_code_block_start_line (hd [] ls) = false -> plain_lines ls.
Proof.
  intros H1 H2 H3. destruct (lettered_text ls H1) as [Ht Ho]. assert (Hp := words_text ls Ht Ho).
  destruct ls as [|l rest]; [discriminate|]. exists l, rest. split; [reflexivity|]. split; [|split; [exact Ht|eexists; exact Hp]].
  intros E. apply indented_spec in E. cbn [hd] in H3. congruence.
Qed.

Lemma letters_word b ws x ps rest : forallb (fun c => c =? 32)%N ws = true ->
  nilb x = false -> forallb (fun c => (97 <=? c) && (c <=? 122))%N x = true ->
  match rest with [] => true | c :: _ => (c =? 32)%N end = true -> prose true ps rest ->
  prose b ((x, true) :: ps) (ws ++ x ++ rest).
Proof.
  intros H1 H2 H3 H4 H5. rewrite forallb_forall in H1, H3.
  assert (G : forall c, In c x -> (97 <= c <= 122)%N).
  { intros c Hc. specialize (H3 c Hc). apply andb_true_iff in H3. rewrite !N.leb_le in H3. exact H3. }
  apply prose_word.
  - apply Forall_forall. intros c Hc. apply N.eqb_eq, H1, Hc.
  - intros ->. discriminate.
  - apply Forall_forall. intros c Hc. apply G in Hc. unfold is_space. lia.
  - apply ordinary_letters; [intros ->; discriminate|]. apply Forall_forall. exact G.
  - destruct rest as [|c rest]; [left; reflexivity|right]. apply N.eqb_eq in H4. rewrite H4. eauto.
  - exact H5.
Qed.

(** Words, inline code and a link. *)
Definition ex_prose : list str := [lit "some  `a  b` and"; lit " [the link](/url), so "].
Definition ex_pieces : list piece :=
  [(lit "some", true); (lit "`a  b`", true); (lit "and", true);
   (lit "[the", true); (lit "link](", true); (lit "/url),", false); (lit "so", true)].

Ltac plain_chars := repeat (apply Forall_cons; [cbn; intuition discriminate|]); apply Forall_nil.
Tactic Notation "no_infix" constr(d) := let x := fresh in let y := fresh in let E := fresh in intros x y E;
  match type of E with ?w = _ =>
    let G := fresh in assert (G : In d w) by (rewrite E; apply in_or_app; right; cbn; auto); cbn in G; intuition discriminate
  end.
Ltac harmless_word :=
  split; [intros ? ? Hc E; injection E as <- _; cbn in Hc; intuition discriminate|];
  split; [intros ? E; discriminate E|]; split; [intros ? E; discriminate E|];
  split; [intros ds _ E; apply (f_equal (@rev N)) in E; rewrite rev_app_distr in E; discriminate E|];
  intros ? [|n] Hc E; [discriminate E|]; injection E as <- _; cbn in Hc; intuition discriminate.

Lemma ex_text_pieces : text_pieces ex_prose ex_pieces.
Proof.
  unfold text_pieces, ex_pieces.
  apply (letters_word true [] (lit "some") _ (lit "  `a  b` and [the link](/url), so")); try reflexivity.
  apply (prose_code true (lit "  ") (lit "`a  b`") _ (lit " and [the link](/url), so")).
  { repeat constructor. }
  { exists 1, (lit "a  b"), []. split; [reflexivity|]. split; [lia|]. split; [|split; [left; reflexivity|split]].
    - split; [discriminate|]. split; [intros ? E; discriminate E|]. split; [intros ? E; apply (f_equal (@rev N)) in E; rewrite rev_app_distr in E; discriminate E|].
      no_infix c_bt.
    - plain_chars.
    - no_infix c_rbr. }
  { right. eexists. reflexivity. }
  apply (letters_word true (lit " ") (lit "and") _ (lit " [the link](/url), so")); try reflexivity.
  apply (prose_link (lit " ") (lit "[the link](") [] (lit "/url),") [(lit "so", true)] (lit " so")).
  { repeat constructor. }
  { constructor. }
  2:{ right. eexists. reflexivity. }
  2:{ apply (letters_word false (lit " ") (lit "so") [] []); try reflexivity. constructor. constructor. }
  split; [|split; [|split; [|split; [|split]]]].
  - exists [], (lit "the link"), c_lpar, (lit "/url"), c_rpar, (lit ",").
    split; [reflexivity|]. split; [reflexivity|]. split; [left; split; reflexivity|].
    split; [plain_chars|]. split; [plain_chars|]. split; [plain_chars|]. split; [plain_chars|].
    split; [exists (lit "the lin"), 107%N; split; reflexivity|]. exists 47%N, (lit "url"). split; reflexivity.
  - plain_chars.
  - change (words (lit "[the link](")) with [lit "[the"; lit "link]("].
    repeat (apply Forall_cons; [split; [harmless_word|split; [split; [discriminate|intros ? ? E; discriminate E]|no_infix 60%N]]|]). apply Forall_nil.
  - intros word more E. change (words (lit "/url),")) with [lit "/url),"] in E. injection E as <- _. harmless_word.
  - intros t E. discriminate E.
  - no_infix c_rbr.
Qed.

Lemma ex_plain : plain_lines ex_prose.
Proof.
  exists (lit "some  `a  b` and"), [lit " [the link](/url), so "]. split; [reflexivity|].
  split; [intros E; apply indented_spec in E; vm_compute in E; discriminate|]. split; [|eexists; exact ex_text_pieces].
  assert (N : forall l, endswith [c_sp; c_sp] l = false -> forall l', l <> l' ++ [c_sp; c_sp]).
  { intros l E l' ->. assert (G : endswith [c_sp; c_sp] (l' ++ [c_sp; c_sp]) = true) by (apply endswith_spec; eauto). congruence. }
  apply Forall_cons; [|apply Forall_cons; [|apply Forall_nil]]; (split; [plain_chars|]); (split; [|apply N; vm_compute; reflexivity]).
  - eexists. eexists. split; [vm_compute; reflexivity|harmless_word].
  - eexists. eexists. split; [vm_compute; reflexivity|harmless_word].
Qed.

Definition ex_sections : list section :=
  [(ATX_HEADING, [lit "  ##Title  "]); (BLANK_LINE, [lit "  "]);
   (PARAGRAPH, ex_prose); (THEMATIC_BREAK, [lit " *** *"]);
   (FENCED_CODE_BLOCK, [lit "~~~ x"; lit "  # code  "; lit " ~~~ "]);
   (SETEXT_HEADING, [lit "a setext"; lit "heading"; lit "--"]);
   (TABLE, [lit "|a|b|"; lit "|-|:-:|"; lit "|some text|x|"]);
   (INDENTED_CODE_BLOCK, [lit "    code"; lit "      more"]); (INDENTED_CODE_BLOCK, [lit "    end"]);
   (LINK_REFERENCE_DEFINITION, [lit " [a b]:   /url"]); (PARAGRAPH, [lit "the end"]); (BLANK_LINE, [[]])].

Lemma ex_structured : structured ex_sections.
Proof.
  assert (K : forall l, forallb (fun c => negb (is_linebreak c)) l = true -> one_line l).
  { intros l H. apply Forall_forall. intros c Hc. rewrite forallb_forall in H. apply negb_true_iff. auto. }
  assert (B : forall c ls x, ls <> [] -> lstrip (hd [] ls) = c :: x -> forall d, d <> c -> ~ begins d ls).
  { intros c ls x _ E d Hd (ws & t & rest & -> & Hw & Hs). cbn [hd] in E. unfold lstrip in E.
    rewrite lstrip_by_app in E by (apply spaces_forallb; exact Hw). cbn [lstrip_by] in E. rewrite Hs in E.
    congruence. }
  assert (I : forall l, is_indented_code_block_start_line l = false -> ~ indented_line l).
  { intros l E H. apply indented_spec in H. congruence. }
  assert (O : forall ty ls next, block ty ls ->
     forallb (forallb (fun c => negb (is_linebreak c))) ls = true -> ends_before ty ls next ->
     structured next -> structured ((ty, ls) :: next)).
  { intros ty ls next H1 H2 H3 H4. constructor; auto. apply Forall_forall. intros l Hl. apply K.
    rewrite forallb_forall in H2. auto. }
  unfold ex_sections.
  apply O; [exists (lit "  ##Title  "); split; [reflexivity|apply atx_spec; vm_compute; reflexivity]|vm_compute; reflexivity|exact Logic.I|].
  apply O; [exists (lit "  "); split; [reflexivity|apply blank_line_spec; vm_compute; reflexivity]|vm_compute; reflexivity|exact Logic.I|].
  apply O; [exact ex_plain|vm_compute; reflexivity| |].
  { intros ty' ls' n E. injection E as <- <- <-. split; [intros [E|[E|[E|[E|[]]]]]; discriminate|].
    intros _. eapply B; [discriminate|vm_compute; reflexivity|discriminate]. }
  apply O; [exists (lit " *** *"); split; [reflexivity|split; [apply thematic_spec; vm_compute; reflexivity|]]|vm_compute; reflexivity|exact Logic.I|].
  { intros E. apply bullet_spec in E. vm_compute in E. discriminate. }
  apply O; [exists [], c_tilde, 3, (lit " x"), [lit "  # code  "], (lit " ~~~ ")|vm_compute; reflexivity|exact Logic.I|].
  { split; [reflexivity|]. split; [constructor|]. split; [cbn; auto|]. split; [lia|]. split; [|split; [|split]].
    - intros ws' info' E. destruct ws' as [|x [|y [|z ws']]]; discriminate.
    - constructor; [|constructor]. intros E. apply (closes_spec c_tilde 2) in E; [|reflexivity]. vm_compute in E. discriminate.
    - apply (closes_spec c_tilde 2); [reflexivity|]. vm_compute. reflexivity.
    - apply I. vm_compute. reflexivity. }
  apply O; [exists [lit "a setext"; lit "heading"], (lit "--"); split; [reflexivity|]; split|vm_compute; reflexivity|exact Logic.I|].
  { apply lettered_plain; vm_compute; reflexivity. }
  { apply underline_spec. vm_compute. reflexivity. }
  apply O; [|vm_compute; reflexivity| |].
  { exists (lit "|a|b|"), (lit "|-|:-:|"), [lit "|some text|x|"], [lit "a"; lit "b"], [lit "-"; lit ":-:"], [[lit "some text"; lit "x"]].
    split; [reflexivity|]. split; [apply I; vm_compute; reflexivity|].
    split; [|split; [|split; [constructor; [|constructor]|split; [reflexivity|repeat constructor]]]];
      (exists [], []; split; [reflexivity|]; split; [constructor|]; split; [constructor|]; split; [discriminate|];
       repeat constructor; try discriminate; intros x E; destruct x as [|? [|? [|? [|? [|? [|? [|? [|? [|? [|? ?]]]]]]]]]]; discriminate). }
  { intros ty' ls' n E. injection E as <- <- <-. eapply B; [discriminate|vm_compute; reflexivity|discriminate]. }
  assert (F : forall l, is_fenced_code_block_start_line l = false -> ~ fence_line l).
  { intros l E H. apply fence_spec in H. congruence. }
  assert (N : no_code [(LINK_REFERENCE_DEFINITION, [lit " [a b]:   /url"]); (PARAGRAPH, [lit "the end"]); (BLANK_LINE, [[]])]).
  { intros bl x y E. destruct bl as [|? [|? [|? [|? ?]]]]; try discriminate; injection E as <- _;
      intros G; apply Forall_inv in G; discriminate. }
  apply O; [exists (lit "    code"), [lit "      more"]; split; [reflexivity|];
            split; [apply indented_spec; vm_compute; reflexivity|]; split; [apply F; vm_compute; reflexivity|];
            apply Forall_cons; [right; apply indented_spec; vm_compute; reflexivity|apply Forall_nil]|vm_compute; reflexivity| |].
  { right. eexists. eexists. split; [reflexivity|exact N]. }
  apply O; [exists (lit "    end"), []; split; [reflexivity|];
            split; [apply indented_spec; vm_compute; reflexivity|]; split; [apply F; vm_compute; reflexivity|constructor]
           |vm_compute; reflexivity| |].
  { left. split; [reflexivity|exact N]. }
  apply O; [exists (lit " [a b]:   /url"), (lit "   /url"), (lit "/url")|vm_compute; reflexivity| |].
  { split; [reflexivity|]. split; [|vm_compute; reflexivity].
    apply (labelled_lit [c_sp] (lit "a b") (lit "   /url")); (reflexivity || (cbn; lia)). }
  { eexists. eexists. eexists. split; [reflexivity|]. intros q Hq. eapply B; [discriminate|vm_compute; reflexivity|].
    destruct Hq as [->| ->]; discriminate. }
  apply O; [apply lettered_plain; vm_compute; reflexivity|vm_compute; reflexivity| |].
  { intros ty' ls' n E. injection E as <- <- <-. split; [intros [E|[E|[E|[E|[]]]]]; discriminate|discriminate]. }
  apply O; [exists []; split; [reflexivity|apply blank_line_spec; vm_compute; reflexivity]|vm_compute; reflexivity|exact Logic.I|].
  constructor.
Qed.

(** The hypotheses of C40 hold of this document; what it is formatted to. *)
Example C40_nonvacuous :
  structured ex_sections /\ wide (WInt 10)
  /\ (forall before ls after, ex_sections = before ++ (LINK_REFERENCE_DEFINITION, ls) :: after ->
       exists s, In s after /\ fst s <> BLANK_LINE)
  /\ splitlines (document ex_sections) = concat (map snd ex_sections)
  /\ reformat_markdown_text 9 (document ex_sections) (WInt 10)
     = Ok (newline_terminated
         [lit "## Title"; []; lit "some"; lit "`a  b` and"; lit "[the"; lit "link]("; lit "/url), so"; lit "**********"; lit "~~~x"; lit "  # code"; lit "~~~";
          lit "a setext"; lit "heading"; lit "--------"; lit "|     a     | b |"; lit "|-----------|:-:|"; lit "| some text | x |";
          lit "    code"; lit "      more"; lit "    end"; lit "[a b]: /url"; lit "the end"]).
Proof.
  split; [exact ex_structured|]. split; [right; exists 10%Z; split; [reflexivity|lia]|].
  split; [|split; [apply document_lines; exact ex_structured|vm_compute; reflexivity]].
  intros before ls after E. exists (PARAGRAPH, [lit "the end"]). split; [|discriminate].
  do 9 (destruct before as [|? before]; [discriminate|injection E as _ E]).
  destruct before as [|? before]; [injection E as _ <-; left; reflexivity|].
  exfalso. injection E as _ E. destruct before as [|? [|? [|? before]]]; discriminate.
Qed.

Example C25_nonvacuous :
  let l := lit "the quick  brown" in let rest := [lit "   fox jumps over the"; lit "lazy dog"] in
  ~ indented_line l /\ Forall text_line (l :: rest) /\ Forall ordinary (concat (map words (l :: rest)))
  /\ reformat_markdown_text 9 (str_join [c_nl] (l :: rest)) (WInt 14)
     = Ok (newline_terminated [lit "the quick"; lit "brown fox"; lit "jumps over the"; lit "lazy dog"]).
Proof.
  intros l rest. destruct (lettered_text (l :: rest)) as [Ht Ho]; [vm_compute; reflexivity|].
  split; [intros E; apply indented_spec in E; vm_compute in E; discriminate|]. split; [exact Ht|]. split; [exact Ho|].
  vm_compute. reflexivity.
Qed.

Example C25_prose_nonvacuous :
  plain_lines ex_prose /\ text_pieces ex_prose ex_pieces
  /\ reformat_markdown_text 9 (str_join [c_nl] ex_prose) (WInt 15)
     = Ok (newline_terminated [lit "some `a  b` and"; lit "[the link]("; lit "/url), so"]).
Proof.
  split; [exact ex_plain|]. split; [exact ex_text_pieces|]. vm_compute. reflexivity.
Qed.
