(** Property C73: letters survive. *)
From Coq Require Import String.
From Verif Require Import Py Regex Utils TextWrap Lines Detectors Formatters Base SpecLines SpecFormat
  SpecParser SpecWrap SpecTable SpecDefinition SpecErrors SpecInline SpecLetters
  ProofsLines ProofsErrors ProofsLetters PropsLeaf PropsWrap PropsLazy PropsTable
  ProofsApart ProofsBrackets ProofsRefill PropsStable.

(** Formatting only changes whitespace and the characters of markers, underlines and
    dividers: all other characters are in the output, once, and in the same order. Missing:
    texts with sections that are not whole. *)
Theorem C73_sections_partial : forall lim text w out,
  all_whole w (splitlines text) ->
  reformat_markdown_text lim text w = Ok out -> letters out = letters text.
Proof. exact letters_reformat. Qed.

(** In particular if no line holds a fence, a bar or a definition and every link is on one
    line, apart from others. *)
Theorem C73_lines_partial : forall lim text w out,
  Forall quiet (splitlines text) ->
  reformat_markdown_text lim text w = Ok out -> letters out = letters text.
Proof. intros lim text w out H. apply letters_reformat, quiet_whole, H. Qed.

Lemma inline_enclosed l : inline_links l -> enclosed l.
Proof.
  intros H. apply links_good in H. split; [apply good_apart, H|].
  intros a z close b -> Hz. destruct (joint_shape _ _ Hz) as (o & -> & K).
  assert (Ho : In o [c_lpar; c_lbr]) by (destruct K as [[-> _]|[-> _]]; cbn; auto).
  rewrite run_app in H.
  destruct (run_joint (run Out a) o b Ho) as [G|(-> & (i & Ga) & G)]; rewrite G in H; [destruct H|].
  destruct K as [[_ ->]|[K _]]; [|discriminate]. split.
  - apply run_text in Ga. destruct Ga as [Ga|(j & Ga)]; [exact Ga|discriminate].
  - destruct (run_target b false) as [T|[(j & T)|(b1 & b2 & -> & _)]]; [rewrite T in H; destruct H|rewrite T in H; destruct H|].
    exists b1, b2. reflexivity.
Qed.

(** In particular if the links of every line are inline links, which may touch. *)
Theorem C73_inline_partial : forall lim text w out,
  Forall inline_links (splitlines text) ->
  Forall (fun l => forall z a b, In z [lit "]:"; lit "```"; lit "~~~"; lit "|"] -> l <> a ++ z ++ b)
    (splitlines text) ->
  reformat_markdown_text lim text w = Ok out -> letters out = letters text.
Proof.
  intros lim text w out H1 H2. apply C73_lines_partial. rewrite Forall_forall in *.
  intros l Hl. split; [apply inline_enclosed, H1, Hl|exact (H2 l Hl)].
Qed.

(** Not of all texts: links that touch are repeated, and what is lost is the last line of a
    fence that is not closed, the text after the last bar of a row, and the label and link
    before a title that does not fit. *)
Theorem C73_refuted :
  reformat_markdown_text 9 (lit "see [a][b](c) here") (WInt 88)
    = Ok (lit "see [a][b][b](c) here" ++ [c_nl])
  /\ reformat_markdown_text 9 (str_join [c_nl] [lit "```"; lit "important"]) (WInt 88)
     = Ok (str_join [c_nl] [lit "```"; lit "```"; []])
  /\ reformat_markdown_text 9 (str_join [c_nl] [lit "|a|b"; lit "|-|-"]) (WInt 88)
     = Ok (str_join [c_nl] [lit "| a |"; lit "|---|"; []])
  /\ reformat_pass 9 (lit "[label]: /link 'title'" ++ [c_nl]) (WInt 20)
     = Ok (str_join [c_nl] [[]; lit "'title'"; []])
  /\ ~ (forall lim text w out, reformat_markdown_text lim text w = Ok out ->
        letters out = letters text).
Proof.
  do 4 (split; [vm_compute; reflexivity|]). intros H.
  specialize (H 9 (lit "see [a][b](c) here") (WInt 88) (lit "see [a][b][b](c) here" ++ [c_nl])
    ltac:(vm_compute; reflexivity)). vm_compute in H. discriminate.
Qed.

(** * Cases that meet the hypotheses *)

(** A test for quiet lines. *)
Definition enclosed_test (l : str) : bool :=
  apart_test l
  && forallb (fun i => forallb (fun zc =>
       implb (startswith (fst zc) (skipn i l))
             (existsb (N.eqb c_lbr) (firstn i l) && contains (snd zc) (skipn (2 + i) l))) joints)
       (seq 0 (length l)).
Definition quiet_test (l : str) : bool :=
  enclosed_test l && forallb (fun z => negb (contains z l)) [lit "]:"; lit "```"; lit "~~~"; lit "|"].

Lemma enclosed_test_sound l : enclosed_test l = true -> enclosed l.
Proof.
  unfold enclosed_test. rewrite andb_true_iff. intros [H1 H2]. split; [apply apart_test_sound; exact H1|].
  intros a z close b E Hz. rewrite forallb_forall in H2.
  assert (Lz : length z = 2) by (destruct Hz as [X|[X|[]]]; injection X as <- _; reflexivity).
  assert (L := f_equal (@length _) E). rewrite !app_length in L.
  specialize (H2 (length a)). rewrite in_seq in H2. specialize (H2 ltac:(lia)). rewrite forallb_forall in H2.
  specialize (H2 _ Hz). cbn [fst snd] in H2.
  assert (S1 : skipn (length a) l = z ++ b).
  { rewrite E, skipn_app, skipn_all, Nat.sub_diag. reflexivity. }
  assert (S2 : skipn (2 + length a) l = b).
  { rewrite E, app_assoc, <- Lz, Nat.add_comm, <- app_length.
    rewrite skipn_app, skipn_all, Nat.sub_diag. reflexivity. }
  assert (S3 : firstn (length a) l = a).
  { rewrite E, firstn_app, firstn_all, Nat.sub_diag. apply app_nil_r. }
  rewrite S1, S2, S3 in H2.
  replace (startswith z (z ++ b)) with true in H2 by (symmetry; apply startswith_spec; eauto).
  cbn [implb] in H2. apply andb_true_iff in H2. destruct H2 as [G1 G2]. split.
  - apply existsb_exists in G1. destruct G1 as (x & Hin & Ex). apply N.eqb_eq in Ex. subst x. exact Hin.
  - apply contains_spec in G2. destruct G2 as (u & v & ->). exists u, v. reflexivity.
Qed.

Lemma quiet_test_sound l : quiet_test l = true -> quiet l.
Proof.
  unfold quiet_test. rewrite andb_true_iff. intros [H1 H2]. split; [apply enclosed_test_sound; exact H1|].
  intros z a b Hz ->. rewrite forallb_forall in H2. specialize (H2 z Hz). apply negb_true_iff in H2.
  assert (G : contains z (a ++ z ++ b) = true) by (apply contains_spec; eauto). congruence.
Qed.

Definition ex_quiet : str := str_join [c_nl]
  [lit "#   Notes"; []; lit "See [the"; lit "list] below and [this page](http://x.y/z 'T')"; lit "or [that][one], not";
   lit "`x`."; []; lit "3) no"; lit "* 4. four [a](b)[c](d)"; lit "  5. five"; lit "+ two"; []; lit "> quoted"; lit "lazy";
   lit ">> deeper"; []; lit "A heading"; lit "==="; lit "* * *"; lit "    code"].

Example C73_lines_nonvacuous :
  Forall quiet (splitlines ex_quiet)
  /\ exists out, reformat_markdown_text 20 ex_quiet (WInt 20) = Ok out /\ out <> ex_quiet
       /\ letters out = letters ex_quiet.
Proof.
  split.
  - assert (G : forallb quiet_test (splitlines ex_quiet) = true) by (vm_compute; reflexivity).
    rewrite forallb_forall in G. apply Forall_forall. intros l Hl. apply quiet_test_sound, G, Hl.
  - assert (G : exists out, reformat_markdown_text 20 ex_quiet (WInt 20) = Ok out /\ out <> ex_quiet).
    { eexists. split; [vm_compute; reflexivity|]. vm_compute. discriminate. }
    destruct G as (out & G1 & G2). exists out. split; [exact G1|]. split; [exact G2|].
    eapply C73_lines_partial; [|exact G1].
    assert (G : forallb quiet_test (splitlines ex_quiet) = true) by (vm_compute; reflexivity).
    rewrite forallb_forall in G. apply Forall_forall. intros l Hl. apply quiet_test_sound, G, Hl.
Qed.

Definition ex_whole : list str :=
  [lit "```py"; lit "x = '|'  "; lit "```"; []] ++ ex_table
  ++ [[]; lit "[a]: /b"; []; lit "See [a][], and"; lit "[c](d)."; lit "---"].

Lemma ex_whole_sections : exists secs, parse_markdown 20 ex_whole = Ok secs
  /\ secs = [(FENCED_CODE_BLOCK, [lit "```py"; lit "x = '|'  "; lit "```"]); (BLANK_LINE, [[]]);
             (TABLE, ex_table); (BLANK_LINE, [[]]); (LINK_REFERENCE_DEFINITION, [lit "[a]: /b"]);
             (BLANK_LINE, [[]]); (SETEXT_HEADING, [lit "See [a][], and"; lit "[c](d)."; lit "---"])].
Proof. eexists. split; [vm_compute; reflexivity|]. reflexivity. Qed.

Lemma ex_whole_meets w : all_whole w ex_whole.
Proof.
  destruct ex_whole_sections as (secs & P & E). subst secs.
  assert (S : forall ty content, section_of ex_whole ty content -> whole w ty content
    /\ ty <> BLOCK_QUOTE /\ ty <> BULLET_LIST /\ ty <> ORDERED_LIST).
  { intros ty content (lim & secs & P' & Hin). rewrite <- (parse_lim _ _ _ _ _ P P') in Hin.
    cbn [In] in Hin. repeat destruct Hin as [Hin|Hin]; try contradiction; apply pair_equal_spec in Hin; destruct Hin as [<- <-];
      (split; [|repeat split; discriminate]); try exact I.
    - exists (lit "```py"), [lit "x = '|'  "], (lit "```"), (lit "```"). split; [reflexivity|]. split.
      + exists [], c_bt, 3, (lit "py"). split; [reflexivity|]. split; [constructor|]. split; [left; reflexivity|].
        split; [lia|]. split; [discriminate|reflexivity].
      + exists [], []. split; [reflexivity|]. split; constructor.
    - exists [lit "  a\|x"; lit "b  "; lit "c"], [lit ":--"; lit ":-: "; lit "--:"],
        [[lit "1"; lit " 2 2"; lit "  "]; [lit "four"; []; []]]. split; [apply C33_C34_nonvacuous|].
      constructor; [exists [], (lit ":"), 2, [], []|
        constructor; [exists [], (lit ":"), 1, (lit ":"), (lit " ")|constructor; [exists [], [], 2, (lit ":"), []|constructor]]];
        (split; [reflexivity|]; split; [repeat constructor|]; split; [repeat constructor|]; split; [lia|]; split;
         [cbn; auto|cbn; auto]).
    - intros label parts D.
      assert (G : label = lit "a" /\ parts = [lit "/b"]).
      { destruct D as (ws & body & rest & E & Hw & Hl & Hn & ->).
        injection E as E <-. destruct ws as [|x ws].
        - injection E as E. destruct label as [|x [|y label]]; [cbn in Hn; lia| |].
          + injection E as <- <-. split; reflexivity.
          + injection E as _ E _. exfalso. apply Forall_inv_tail, Forall_inv in Hl. apply Hl. symmetry. exact E.
        - injection E as E _. apply Forall_inv in Hw. subst x. discriminate. }
      destruct G as [-> ->]. split; [|left; cbn; lia]. apply apart_test_sound. vm_compute. reflexivity.
    - apply apart_test_sound. vm_compute. reflexivity. }
  intros lines' ty content W. destruct W as [|? ? ? ? ? Sq|? ? ? ? ? ? ? ? Se Ty].
  - apply S.
  - apply S in Sq. destruct Sq as (_ & N & _). congruence.
  - apply S in Se. destruct Se as (_ & _ & N1 & N2). destruct Ty; congruence.
Qed.

Example C73_sections_nonvacuous :
  all_whole (WInt 10) (splitlines (str_join [c_nl] ex_whole))
  /\ exists out, reformat_markdown_text 20 (str_join [c_nl] ex_whole) (WInt 10) = Ok out
       /\ out <> str_join [c_nl] ex_whole /\ letters out = letters (str_join [c_nl] ex_whole).
Proof.
  assert (G : splitlines (str_join [c_nl] ex_whole) = ex_whole) by (vm_compute; reflexivity).
  rewrite G. split; [apply ex_whole_meets|].
  assert (H : exists out, reformat_markdown_text 20 (str_join [c_nl] ex_whole) (WInt 10) = Ok out
    /\ out <> str_join [c_nl] ex_whole).
  { eexists. split; [vm_compute; reflexivity|]. vm_compute. discriminate. }
  destruct H as (out & H1 & H2). exists out. split; [exact H1|]. split; [exact H2|].
  eapply C73_sections_partial; [|exact H1]. rewrite G. apply ex_whole_meets.
Qed.

Definition ex_inline : list str :=
  [lit "## Notes "; []; lit "* see [the manual](http://a.b/c)[x](d), [1]"; lit "  and more"; []; lit "> [e](f)[g h](i)"].

Example C73_inline_nonvacuous :
  Forall inline_links (splitlines (str_join [c_nl] ex_inline))
  /\ Forall (fun l => forall z a b, In z [lit "]:"; lit "```"; lit "~~~"; lit "|"] -> l <> a ++ z ++ b)
       (splitlines (str_join [c_nl] ex_inline))
  /\ reformat_markdown_text 20 (str_join [c_nl] ex_inline) (WInt 20)
     = Ok (str_join [c_nl] [lit "## Notes"; []; lit "* see [the manual]("; lit "  http://a.b/c)[x]("; lit "  d), [1] and more"; [];
             lit "> [e](f)[g h](i)"; []]).
Proof.
  assert (G : splitlines (str_join [c_nl] ex_inline) = ex_inline) by (vm_compute; reflexivity).
  rewrite G. split; [|split].
  - unfold ex_inline. repeat (apply Forall_cons || apply Forall_nil); try (apply links_none, no_bracket_test; reflexivity).
    + apply (links_next (lit "* see ") (lit "the manual") (lit "http://a.b/c") (lit "[x](d), [1]"));
        [apply no_bracket_test; reflexivity|apply link_part_test; reflexivity|apply link_part_test; reflexivity|].
      apply (links_next [] (lit "x") (lit "d") (lit ", [1]"));
        [apply no_bracket_test; reflexivity|apply link_part_test; reflexivity|apply link_part_test; reflexivity|].
      apply (links_pair (lit ", ") (lit "1") []); try (apply no_bracket_test; reflexivity); try discriminate.
      apply links_none, no_bracket_test. reflexivity.
    + apply (links_next (lit "> ") (lit "e") (lit "f") (lit "[g h](i)"));
        [apply no_bracket_test; reflexivity|apply link_part_test; reflexivity|apply link_part_test; reflexivity|].
      apply (links_next [] (lit "g h") (lit "i") []);
        [apply no_bracket_test; reflexivity|apply link_part_test; reflexivity|apply link_part_test; reflexivity|].
      apply links_none, no_bracket_test. reflexivity.
  - assert (K : forallb (fun l => forallb (fun z => negb (contains z l)) [lit "]:"; lit "```"; lit "~~~"; lit "|"]) ex_inline = true)
      by (vm_compute; reflexivity).
    rewrite forallb_forall in K. apply Forall_forall. intros l Hl z a b Hz ->. specialize (K _ Hl).
    rewrite forallb_forall in K. specialize (K z Hz). apply negb_true_iff in K.
    assert (C : contains z (a ++ z ++ b) = true) by (apply contains_spec; eauto). congruence.
  - vm_compute. reflexivity.
Qed.
