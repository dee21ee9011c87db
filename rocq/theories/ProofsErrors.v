(** Which exceptions can be raised, and why. *)
From Coq Require Import String.
From Verif Require Import Py Regex Utils TextWrap Lines Detectors Formatters Base
  SpecLines SpecFormat SpecParser SpecWrap SpecList SpecQuote SpecDefinition SpecTable SpecLimit SpecErrors
  ProofsLines ProofsParser ProofsRegex ProofsShapes ProofsPass ProofsWrap ProofsTokens ProofsPieces ProofsFilled ProofsList
  PropsParser PropsWrap PropsTable PropsList PropsQuote ProofsDefinition PropsDefinition ProofsLimit.

(** * The parser *)

Definition goes_on {A} (r : res A) : Prop := forall e, r = Err e -> exn_base e <> StopIteration.

Lemma go_ok {A} (a : A) : goes_on (Ok a).
Proof. intros e H. discriminate. Qed.

Lemma go_bind {A B} (x : res A) (f : A -> res B) :
  goes_on x -> (forall a, x = Ok a -> goes_on (f a)) -> goes_on (bind x f).
Proof.
  intros H F e E. apply bind_err in E. destruct E as [E|(a & Ea & E)]; [exact (H e E)|].
  exact (F a Ea e E).
Qed.

Lemma go_redirect {A} (x : res A) : goes_on x -> goes_on (with_redirect x).
Proof. intros H e E. destruct x as [a|e']; [discriminate|]. injection E as <-. exact (H e' eq_refl). Qed.

Ltac go_leaf :=
  repeat first
    [ match goal with |- goes_on (Ok _) => apply go_ok end
    | match goal with |- goes_on (Err _) =>
        let e := fresh in let E := fresh in intros e E; injection E as <-; discriminate end
    | match goal with |- goes_on (bind _ _) => apply go_bind; [|intros ? _] end
    | match goal with
      | |- goes_on (match ?x with _ => _ end) => destruct x
      | |- goes_on (if ?x then _ else _) => destruct x
      end ].

Lemma go_one_line p lines : goes_on (split_one_line p lines).
Proof. unfold split_one_line. go_leaf. Qed.
Lemma go_list_section start lines : lines <> [] -> goes_on (split_list_section start lines).
Proof. intros H. unfold split_list_section. destruct lines; [congruence|]. go_leaf. Qed.
Lemma go_table lines : lines <> [] -> goes_on (split_table lines).
Proof. intros H. unfold split_table. destruct lines; [congruence|]. go_leaf. Qed.
Lemma go_fenced lines : lines <> [] -> goes_on (split_fenced_code_block lines).
Proof. intros H. unfold split_fenced_code_block. destruct lines; [congruence|]. go_leaf. Qed.
Lemma go_indented lines : lines <> [] -> goes_on (split_indented_code_block lines).
Proof. intros H. unfold split_indented_code_block. destruct lines; [congruence|]. go_leaf. Qed.

Ltac go_simple :=
  first [apply go_one_line|apply go_list_section; first [assumption|discriminate]|apply go_table; first [assumption|discriminate]
    |apply go_fenced; first [assumption|discriminate]|apply go_indented; first [assumption|discriminate]].

Definition steady (l : str) : Prop := ~ stops_short l.

Lemma steady_suffix a b : steady (a ++ b) -> steady b.
Proof.
  intros H [(p & ->)|(p & ws & -> & Hw)]; apply H.
  - left. exists (a ++ p). rewrite <- app_assoc. reflexivity.
  - right. exists (a ++ p), ws. rewrite <- app_assoc. auto.
Qed.

Lemma go_lrd lines : lines <> [] -> Forall steady lines -> goes_on (split_link_reference_definition lines).
Proof.
  intros Hn H. destruct lines as [|line gen]; [congruence|]. inversion H as [|? ? Hl _]; subst.
  unfold split_link_reference_definition. destruct (4 <=? get_indent line) eqn:Ei; [apply go_ok|].
  destruct (rmatch LINK_REFERENCE_DEFINITION_FIRST_ELEMENT_REGEX (lstrip line)) as [k|] eqn:Ek; [|apply go_ok].
  destruct (split_max1 (skipn k (lstrip line))) as [|a [|b [|c t]]] eqn:Es.
  - exfalso. apply Hl. right. apply split_max1_nil, blank_iff in Es.
    apply definition_match in Ek. destruct Ek as (label & body & E & _ & _ & Hk).
    apply Nat.leb_gt in Ei. destruct (not_indented_lstrip line Ei) as (ws & El & _ & _). rewrite E in El, Es.
    exists (ws ++ c_lbr :: label), body. split; [rewrite El, <- !app_assoc; reflexivity|].
    replace (skipn k (c_lbr :: label ++ c_rbr :: c_colon :: body)) with body in Es; [exact Es|].
    change (c_lbr :: label ++ c_rbr :: c_colon :: body) with ((c_lbr :: label) ++ [c_rbr; c_colon] ++ body).
    rewrite app_assoc, skipn_app, skipn_all2 by (rewrite app_length; cbn; lia).
    rewrite app_length. cbn [length app]. replace (k - _) with 0 by (cbn; lia). reflexivity.
  - destruct gen; apply go_ok.
  - apply go_ok.
  - exfalso. assert (L := split_max1_len (skipn k (lstrip line))). rewrite Es in L. cbn in L. lia.
Qed.

Section GoesOn.
  Variable sbq : splitter.
  Hypothesis sbq_lossless : lossless sbq.
  Hypothesis H : forall lines, Forall steady lines -> goes_on (sbq lines).

  Lemma go_any_splits fs lines :
    (forall f, In f fs -> goes_on (f lines)) -> goes_on (any_splits fs lines).
  Proof.
    intros F e E. apply any_splits_err in E. destruct E as (f & Hf & E). exact (F f Hf e E).
  Qed.

  Lemma go_par_continuation lines : lines <> [] -> Forall steady lines -> goes_on (par_continuation sbq lines).
  Proof.
    intros Hn Hp. unfold par_continuation. apply go_bind; [|intros b _; go_leaf].
    apply go_any_splits. intros f Hf. cbn in Hf.
    repeat destruct Hf as [<-|Hf]; try go_simple; [apply H; exact Hp|destruct Hf].
  Qed.

  Lemma go_par_tail tail : Forall steady tail -> goes_on (par_tail sbq tail).
  Proof.
    induction tail as [|t rest IH]; intros Hp; [apply go_ok|]. cbn [par_tail].
    apply go_bind; [apply go_par_continuation; first [assumption|discriminate]|]. intros b _. destruct b; [|apply go_ok].
    inversion Hp as [|? ? Ht Hr]; subst. destruct (endswith _ t) eqn:Et.
    - exfalso. apply Ht. left. apply endswith_spec in Et. exact Et.
    - apply go_bind; [apply IH; exact Hr|]. intros [m r] _. apply go_ok.
  Qed.

  Lemma go_spis lines : lines <> [] -> Forall steady lines -> goes_on (split_paragraph_ignoring_setext sbq lines).
  Proof.
    intros Hn Hp. destruct lines as [|l rest]; cbn [split_paragraph_ignoring_setext]; [congruence|].
    destruct (is_paragraph_start_line l); [|apply go_ok]. destruct (endswith _ l); [apply go_ok|].
    inversion Hp; subst. apply go_bind; [apply go_par_tail; assumption|]. intros [m r] _. apply go_ok.
  Qed.

  Lemma go_paragraph lines : lines <> [] -> Forall steady lines -> goes_on (split_paragraph sbq lines).
  Proof.
    intros Hn Hp. unfold split_paragraph. apply go_bind; [apply go_spis; first [assumption|discriminate]|]. intros [p r] _. go_leaf.
  Qed.

  Lemma go_setext lines : lines <> [] -> Forall steady lines -> goes_on (split_setext_heading sbq lines).
  Proof.
    intros Hn Hp. unfold split_setext_heading. apply go_bind; [apply go_spis; first [assumption|discriminate]|].
    intros [p r] _. go_leaf.
  Qed.

  Lemma go_bq_continuation lines : lines <> [] -> Forall steady lines -> goes_on (bq_continuation sbq lines).
  Proof.
    intros Hn Hp. unfold bq_continuation. apply go_bind; [|intros b _; go_leaf].
    apply go_any_splits. intros f Hf. apply in_map_iff in Hf. destruct Hf as (g & <- & Hf).
    apply go_redirect. cbn in Hf.
    repeat destruct Hf as [<-|Hf]; try go_simple; [apply go_setext; first [assumption|discriminate]|destruct Hf].
  Qed.

  Lemma go_bq_take first lines : Forall steady lines -> goes_on (bq_take_continuation sbq first lines).
  Proof.
    revert first. induction lines as [|l rest IH]; intros first Hp; [apply go_ok|].
    cbn [bq_take_continuation]. apply go_bind; [apply go_bq_continuation; first [assumption|discriminate]|].
    intros b _. destruct b; [|apply go_ok]. destruct (first && _ && _); [apply go_ok|].
    inversion Hp; subst. apply go_bind; [apply IH; assumption|intros [m r] _; apply go_ok].
  Qed.

  Lemma go_bq_loop ewp n bq lines :
    (forall x, Forall steady x -> goes_on (ewp x)) -> Forall steady bq -> Forall steady lines ->
    goes_on (bq_loop sbq ewp n bq lines).
  Proof.
    intros He. revert bq lines. induction n as [|n IH]; intros bq lines Hb Hp.
    - cbn [bq_loop]. destruct lines as [|l rest]; go_leaf.
    - cbn [bq_loop]. destruct lines as [|l rest]; [apply go_ok|].
      destruct (negb (is_explicit_block_quote_line l)); [apply go_ok|].
      destruct (span is_explicit_block_quote_line (l :: rest)) as [run rem] eqn:Es.
      apply span_spec in Es. destruct Es as (Es & _ & _). rewrite Es in Hp. apply Forall_app in Hp.
      destruct Hp as [Hp1 Hp2].
      apply go_bind; [apply He, Forall_app; auto|]. intros b _. destruct b; [|apply go_ok].
      apply go_bind; [apply go_bq_take; exact Hp2|]. intros [cont rem'] Ec.
      apply bq_take_continuation_ok in Ec. destruct Ec as [-> _]. apply Forall_app in Hp2.
      apply IH; [|tauto]. apply Forall_app. split; [apply Forall_app; auto|tauto].
  Qed.

  Lemma go_parse_loop n lines : Forall steady lines -> goes_on (parse_loop sbq n lines).
  Proof.
    revert lines. induction n as [|n IH]; intros [|l rest] Hp; cbn [parse_loop]; try (go_leaf; fail).
    assert (L := lossless_SPLITTERS _ sbq_lossless).
    apply go_bind.
    - intros e E. apply first_split_err in E; [|exact L].
      destruct E as [(ty & f & Hin & E)|[-> _]]; [|discriminate]. revert e E. fold (goes_on (f (l :: rest))).
      cbn in Hin. repeat destruct Hin as [E|Hin]; try (injection E as <- <-); try go_simple.
      + apply H. exact Hp.
      + apply go_lrd; [discriminate|exact Hp].
      + apply go_paragraph; [discriminate|exact Hp].
      + apply go_setext; [discriminate|exact Hp].
      + destruct Hin.
    - intros [[ty c] rem] E. apply (first_split_ok _ _ _ _ _ L) in E.
      destruct E as (before & f & after & Heq & Hf & _).
      rewrite Heq in L. apply Forall_app in L. destruct L as [_ L]. inv L. cbn [snd] in *.
      match goal with G : lossless f |- _ => apply G in Hf end. rewrite Hf in Hp. apply Forall_app in Hp.
      apply go_bind; [apply IH; tauto|]. intros secs _. apply go_ok.
  Qed.
End GoesOn.

Lemma unmarked_steady l l' : unmarked l l' -> steady l -> steady l'.
Proof.
  intros [(n & _ & ->)|[-> _]] H; [|exact H].
  change (c_gt :: l') with ([c_gt] ++ l') in H. rewrite app_assoc in H. eapply steady_suffix. exact H.
Qed.

Lemma go_block_quote lim :
  (forall lines, Forall steady lines -> goes_on (split_block_quote lim lines))
  /\ (forall lines, Forall steady lines -> goes_on (bq_ends_with_paragraph lim lines)).
Proof.
  induction lim as [|lim [IH1 IH2]]; [split; intros lines _ e E; injection E as <-; discriminate|]. split.
  - intros lines Hs. cbn [split_block_quote]. apply go_bq_loop; auto.
  - intros lines Hs. cbn [bq_ends_with_paragraph]. cbv zeta.
    assert (G : Forall steady (map strip_quote_marker lines)).
    { apply Forall_map. eapply Forall_impl; [|exact Hs]. intros l. apply unmarked_steady, strip_quote_marker_spec. }
    apply go_bind.
    + apply go_redirect. apply go_parse_loop; auto. apply block_quote_contract.
    + intros secs E. rewrite with_redirect_ok in E. fold (parse_markdown lim (map strip_quote_marker lines)) in E.
      destruct (rev secs) as [|[ty content] secs'] eqn:Er; [go_leaf|]. destruct ty; try apply go_ok.
      assert (Hin : In (BLOCK_QUOTE, content) secs).
      { apply (proj2 (in_rev secs _)). rewrite Er. left. reflexivity. }
      apply IH2. apply parse_markdown_lossless in E. destruct E as [E _]. rewrite <- E in G.
      rewrite Forall_concat in G. rewrite Forall_forall in G. apply G. apply in_map_iff.
      exists (BLOCK_QUOTE, content). auto.
Qed.

Lemma go_parse lim lines : Forall steady lines -> goes_on (parse_markdown lim lines).
Proof.
  intros H. unfold parse_markdown, parse_with. apply go_parse_loop; [apply block_quote_contract| |exact H].
  apply go_block_quote.
Qed.

Lemma stops_short_dec l : {stops_short l} + {steady l}.
Proof.
  destruct (endswith (lit "  ") l) eqn:E1.
  { left. left. apply endswith_spec in E1. exact E1. }
  destruct (endswith (lit "]:") (rstrip l)) eqn:E2.
  - left. right. apply endswith_spec in E2. destruct E2 as (t & E2).
    destruct (rstrip_by_spec is_space l) as (ws & El & Hw). fold (rstrip l) in El. rewrite E2 in El.
    exists t, ws. rewrite <- app_assoc in El. split; [exact El|]. apply spaces_forallb. exact Hw.
  - right. intros [(p & ->)|(p & ws & -> & Hw)].
    + assert (G : endswith (lit "  ") (p ++ lit "  ") = true) by (apply endswith_spec; eauto). congruence.
    + assert (G : endswith (lit "]:") (rstrip (p ++ lit "]:" ++ ws)) = true); [|congruence].
      apply endswith_spec. exists p. rewrite app_assoc. unfold rstrip.
      rewrite rstrip_by_app by (apply spaces_forallb; exact Hw).
      change (lit "]:") with ([c_rbr] ++ [c_colon]). rewrite app_assoc.
      rewrite rstrip_by_snoc by reflexivity. reflexivity.
Qed.

(** Why the parser fails. *)
Lemma parse_reason lim lines e : parse_markdown lim lines = Err e ->
  exn_base e = RecursionError \/ (exn_base e = StopIteration /\ Exists stops_short lines).
Proof.
  intros E. assert (P := parse_markdown_err _ _ _ E). destruct P as [P|P]; [|left; exact P].
  right. split; [exact P|]. destruct (Exists_dec stops_short lines) as [G|G]; [|exact G|].
  { intros l. destruct (stops_short_dec l) as [S|S]; [left|right]; exact S. }
  exfalso. apply (go_parse lim lines) in E; [contradiction|].
  apply Forall_Exists_neg. exact G.
Qed.

(** * Formatting *)

Lemma derived_one_line ls ls' : Forall2 derived ls ls' -> Forall one_line ls -> Forall one_line ls'.
Proof.
  intros H. induction H as [|l l' ls ls' Hl H IH]; intros G; [constructor|]. inversion G as [|? ? G1 G2]; subst.
  constructor; [|auto]. unfold one_line in *. destruct Hl as [(p & ->)|(d & ->)].
  - apply Forall_app in G1. tauto.
  - apply Forall_app. split; [|exact G1]. apply Forall_forall. intros c Hc. apply repeat_spec in Hc.
    subst c. reflexivity.
Qed.

Lemma dedented_derived entry inner : dedented entry inner -> Forall2 derived entry inner.
Proof.
  intros (l & rest & ws & m & body & rest' & -> & (-> & Hw & Hm & Hb) & -> & F).
  assert (T : exists p, body = p ++ tl body).
  { destruct body as [|c body]; [exists []; reflexivity|exists [c]; reflexivity]. }
  destruct T as (p & T). constructor.
  - left. exists (ws ++ m ++ p). rewrite T at 1. rewrite <- !app_assoc. reflexivity.
  - clear -F. induction F as [|x y xs ys (w & -> & _) F IH]; constructor; auto. left. exists w. reflexivity.
Qed.

Lemma quotes_derived content inner prefix : quotes content inner prefix ->
  exists mid, Forall2 derived content mid /\ Forall2 derived mid inner.
Proof.
  intros (mid & U & H). exists mid. split; [apply unquoted_derived with 0; exact U|].
  destruct H as [(_ & _ & F)|(_ & _ & ->)].
  - clear U. induction F as [|x y xs ys Hx F IH]; constructor; [|exact IH]. left.
    destruct Hx as [->|[-> _]]; [exists [c_sp]|exists []]; reflexivity.
  - clear. induction mid as [|x xs IH]; constructor; auto. left. exists []. reflexivity.
Qed.

Lemma quote_inner_quotes content : section_shape BLOCK_QUOTE content ->
  exists prefix, quotes content (quote_inner content) prefix.
Proof.
  intros (l & rest & -> & Hq & _).
  assert (U : unquoted 0 (l :: rest) (map strip_quote_marker (fully_quote 0 (l :: rest)))).
  { apply unquoted_spec. left. exact Hq. }
  unfold quote_inner. set (stripped := map _ _) in *. destruct (quote_has_space stripped) eqn:E.
  - exists (lit "> "), stripped. split; [exact U|]. left. split; [apply has_space_spec; exact E|].
    split; [reflexivity|]. clear. induction stripped as [|x xs IH]; constructor; auto. apply unspaced_spec.
  - exists (lit ">"), stripped. split; [exact U|]. right. split; [|split; reflexivity].
    intros G. apply has_space_spec in G. congruence.
Qed.

Lemma section_of_shape lines ty content : section_of lines ty content -> Forall one_line lines ->
  section_shape ty content /\ Forall one_line content.
Proof.
  intros (lim & secs & Hp & Hin) Ho. split; [exact (C10_section_shapes _ _ _ _ _ Hp Hin)|].
  apply parse_markdown_lossless in Hp. destruct Hp as [Hp _]. rewrite <- Hp in Ho.
  rewrite Forall_concat in Ho. rewrite Forall_forall in Ho. apply (Ho content).
  apply in_map_iff. exists (ty, content). auto.
Qed.

Lemma dot_word_dec text : {dot_word text} + {~ dot_word text}.
Proof.
  assert (D : forall w : str, {w = lit "." \/ exists c w', w = [c_dot; c] ++ w' /\ c <> c_dot}
    + {~ (w = lit "." \/ exists c w', w = [c_dot; c] ++ w' /\ c <> c_dot)}).
  { intros w. destruct w as [|a [|b w]].
    - right. intros [H|(c & w' & H & _)]; discriminate.
    - destruct (N.eq_dec a c_dot) as [->|H]; [left; left; reflexivity|].
      right. intros [G|(c & w' & G & _)]; [injection G as ->; congruence|discriminate].
    - destruct (N.eq_dec a c_dot) as [->|H]; [destruct (N.eq_dec b c_dot) as [->|H]|].
      + right. intros [G|(c & w' & G & Hc)]; [discriminate|]. injection G as <- _. congruence.
      + left. right. exists b, w. auto.
      + right. intros [G|(c & w' & G & Hc)]; [discriminate|]. injection G as -> _. congruence. }
  destruct (Exists_dec _ (words text) D) as [G|G].
  - left. apply Exists_exists in G. exact G.
  - right. intros H. apply G. apply Exists_exists. exact H.
Qed.

Lemma defines_of content : section_shape LINK_REFERENCE_DEFINITION content ->
  exists label parts, defines content label parts.
Proof.
  intros (l & rest & -> & (ws & label & body & -> & Hw & _ & Hl & Hn)).
  exists label. eexists. exists ws, body, rest. repeat split; auto; apply Hn.
Qed.

Lemma strip_nil_spaces l : strip l = [] -> spaces l.
Proof.
  intros E. apply blank_iff. destruct (blank l) eqn:B; [reflexivity|]. apply blank_strip in B. congruence.
Qed.

Lemma repr_reason w lines ty content e : section_of lines ty content -> Forall one_line lines ->
  repr_check ty content = Err e -> reason w lines e.
Proof.
  intros Hs Ho E. destruct (section_of_shape _ _ _ Hs Ho) as [Sh Hc].
  destruct ty; cbn [repr_check] in E; cbn [section_shape] in Sh; try discriminate.
  - destruct Sh as (l & -> & _). discriminate.
  - destruct Sh as (l & rest & -> & _). discriminate.
  - destruct Sh as (l & rest & -> & (ws & b & body & -> & Hw & _ & Hb) & _).
    cbn [nth_line nth_error bind] in E. rewrite lstrip_app in E; [discriminate|exact Hw|].
    cbn in Hb. repeat destruct Hb as [<-|Hb]; try reflexivity. destruct Hb.
  - destruct Sh as (l & rest & fence & -> & Hop & _). destruct rest as [|x rest].
    + cbn in E. injection E as <-. eapply reason_one_line_fence. exact Hs.
    + exfalso. assert (F : exists c, first_char (strip l) = Ok c).
      { destruct (strip l) as [|c r] eqn:Es; [|exists c; reflexivity].
        destruct Hop as (ws & c & n & info & -> & Hw & Hc' & Hn & _).
        exfalso. apply strip_nil_spaces in Es. destruct n as [|n]; [lia|].
        apply Forall_app in Es. destruct Es as [_ Es]. inversion Es as [|? ? G _]; subst.
        destruct Hc' as [<-|[<-|[]]]; discriminate. }
      destruct F as (c & F). destruct (length (l :: x :: rest) =? 2);
        cbn [nth_line nth_error bind] in E; rewrite F in E; discriminate.
  - destruct Sh as (l & rest & -> & _). discriminate.
  - destruct (defines_of _ Sh) as (label & parts & D). rewrite (lrd_parts_spec _ _ _ Hc D) in E. discriminate.
  - destruct Sh as (l & rest & -> & (ws & ds & body & -> & Hw & _ & Hd & Hf) & _).
    cbn [nth_line nth_error bind] in E. destruct ds as [|d ds]; [congruence|].
    unfold first_number in E. cbn [app] in E. inversion Hf as [|? ? Hd0 _]; subst.
    rewrite lstrip_app in E; [|exact Hw|].
    + cbn [take_while] in E. rewrite Hd0 in E. discriminate.
    + apply digit_not_space. exact Hd0.
  - destruct Sh as (l & rest & u & -> & _ & _ & (c & k & ws & ws' & -> & Hw & Hw' & _ & Hc')).
    change (l :: rest ++ [ws ++ repeat c (S k) ++ ws']) with ((l :: rest) ++ [ws ++ repeat c (S k) ++ ws']) in *.
    replace (length ((l :: rest) ++ [ws ++ repeat c (S k) ++ ws']) <? 2) with false in E
      by (symmetry; apply Nat.ltb_ge; rewrite app_length; cbn; lia).
    rewrite last_last in E.
    rewrite strip_repeat in E; [|destruct Hc' as [<-|[<-|[]]]; reflexivity|exact Hw|exact Hw']. discriminate.
  - destruct Sh as (l & -> & (c & ws & body & -> & Hw & _ & Hc' & _)). cbn [nth_line nth_error bind] in E.
    destruct (strip (ws ++ c :: body)) as [|c0 r] eqn:Es; [|discriminate].
    exfalso. apply strip_nil_spaces in Es. apply Forall_app in Es. destruct Es as [_ Es].
    inversion Es as [|? ? G _]; subst. repeat destruct Hc' as [<-|Hc']; try discriminate. destruct Hc'.
Qed.

(** Every section but quotes and lists. *)
Lemma leaf_reason nested w i lines ty content e : section_of lines ty content -> Forall one_line lines ->
  ty <> BLOCK_QUOTE -> ty <> BULLET_LIST -> ty <> ORDERED_LIST ->
  reformatted nested ty i content w = Err e -> reason w lines e.
Proof.
  intros Hs Ho N1 N2 N3 E. destruct (section_of_shape _ _ _ Hs Ho) as [Sh Hc].
  assert (Rp := fun e => repr_reason w lines ty content e Hs Ho).
  destruct ty; try congruence; cbn [reformatted] in E; try discriminate; clear N1 N2 N3.
  - destruct Sh as (l & -> & _). discriminate.
  - destruct Sh as (l & rest & fence & -> & (ws & c & n & info & -> & Hw & Hc' & Hn & _) & _).
    unfold fmt_fenced_code_block in E. destruct (strip _) as [|c0 r] eqn:Es; [|discriminate].
    exfalso. apply strip_nil_spaces in Es. destruct n as [|n]; [lia|].
    apply Forall_app in Es. destruct Es as [_ Es]. inversion Es as [|? ? G _]; subst.
    destruct Hc' as [<-|[<-|[]]]; discriminate.
  - destruct (defines_of _ Sh) as (label & parts & D).
    destruct (dot_word_dec (written label parts)) as [W|W].
    + assert (Ee : e = IndexError).
      { unfold fmt_link_reference_definition in E. rewrite (lrd_parts_spec _ _ _ Hc D) in E. cbn [bind] in E.
        assert (Wr : forall t u, wrap t w = Err u -> u = IndexError) by (intros t u G; apply wrap_err in G; tauto).
        assert (Nt : forall j u, nth_line content j = Err u -> u = IndexError).
        { intros j u G. unfold nth_line in G. destruct (nth_error content j); [discriminate|congruence]. }
        destruct (nilb (hd [] parts)); [discriminate|].
        apply bind_err in E. destruct E as [E|(l0 & _ & E)]; [exact (Nt _ _ E)|].
        destruct (if contains (hd [] parts) l0 then _ else _) as [j st].
        destruct (words (str_join [c_sp] (tl parts))) as [|fw r]; [discriminate|].
        apply bind_err in E. destruct E as [E|(l1 & _ & E)]; [exact (Nt _ _ E)|].
        destruct (contains fw l1); [cbv zeta in E; destruct (len_le _ _)|];
          (apply bind_err in E; destruct E as [E|(t & _ & E)]; [exact (Wr _ _ E)|discriminate]). }
      subst e. eapply reason_definition_dot; eassumption.
    + exfalso. destruct (C36_succeeds 0 w i content label parts Hc D W) as (r & Hr).
      unfold section_text in Hr. cbn [reformatted] in Hr. congruence.
  - unfold fmt_paragraph in E. apply bind_err in E. destruct E as [E|(t & _ & E)].
    + apply wrap_err in E. destruct E as [(word & Hword & Hdot) ->]. eapply reason_dot; [exact Hs|auto|].
      exists word. split; [|exact Hdot]. rewrite words_join in *. rewrite map_map in Hword.
      rewrite (map_ext _ words) in Hword by (intros; apply words_strip). exact Hword.
    + destruct Sh as (l & rest & -> & _). exfalso. destruct (rev (l :: rest)) as [|x r] eqn:Er; [|discriminate].
      apply (f_equal (@length _)) in Er. rewrite rev_length in Er. discriminate.
  - destruct Sh as (l & rest & u & -> & Hl & _ & Hu). destruct Hu as (c & k & ws & ws' & -> & Hw & Hw' & _ & Hc').
    unfold fmt_setext_heading in E.
    change (l :: rest ++ [ws ++ repeat c (S k) ++ ws']) with ((l :: rest) ++ [ws ++ repeat c (S k) ++ ws']) in *.
    replace (length ((l :: rest) ++ [ws ++ repeat c (S k) ++ ws']) <? 2) with false in E
      by (symmetry; apply Nat.ltb_ge; rewrite app_length; cbn; lia).
    rewrite removelast_last, last_last in E.
    rewrite strip_repeat in E; [|destruct Hc' as [<-|[<-|[]]]; reflexivity|exact Hw|exact Hw'].
    cbn [repeat first_char] in E.
    apply bind_err in E. destruct E as [E|(wrapped & Ew & E)].
    + apply wrap_err in E. destruct E as [(word & Hword & Hdot) ->]. eapply reason_dot; [exact Hs|auto|].
      exists word. split; [|exact Hdot]. rewrite words_join in *. rewrite map_map in Hword.
      rewrite (map_ext _ words) in Hword by (intros; apply words_strip).
      rewrite map_app, concat_app. apply in_app_iff. left. exact Hword.
    + exfalso. destruct (wrap_ok _ _ _ Ew) as (ts & ls & Et & El & Hf & Hol).
      assert (Hne : Forall (fun line => line <> []) ls) by (destruct Hf as (? & ? & _ & _ & _ & H & _); exact H).
      assert (Hi : ink wrapped <> []).
      { rewrite El, (filled_ink w _ _ Hf), texts_pieces. apply (wrap_tokens_ok _ _ Et).
        rewrite ink_join_strip. cbn [concat]. rewrite ink_app. intros G. apply app_eq_nil in G.
        destruct G as [G _]. apply ink_nil in G. destruct Hl as [Hl _]. apply Hl. exact G. }
      rewrite El, splitlines_join_ne in E by assumption.
      destruct ls as [|l1 ls]; [rewrite El in Hi; contradiction|]. discriminate.
  - unfold fmt_table in E. destruct content as [|header [|divider body]].
    + destruct Hs as (lim & secs & Hp & Hin). apply parse_markdown_lossless in Hp. destruct Hp as [_ Hp].
      rewrite Forall_forall in Hp. destruct (Hp _ Hin eq_refl).
    + injection E as <-. eapply reason_one_line_table. exact Hs.
    + destruct (C35_only_ragged_rejected 0 w i header divider body) as [G1 G2].
      cbv zeta in E. destruct (check_columns _ _ _ _) as [u|e'] eqn:Ec; [discriminate|]. cbn [bind] in E.
      injection E as ->.
      assert (Ee : exists n a b, e = MarkdownFormatException n a b).
      { revert Ec. generalize 2 as k. generalize (map cell_widths body) as ws. clear.
        induction ws as [|x ws IH]; intros k; cbn [check_columns]; [discriminate|].
        destruct (length x =? _); [apply IH|]. intros E. injection E as <-. eauto. }
      destruct Ee as (n & a & b & ->). eapply reason_ragged; [exact Hs|]. apply G1. exists n, a, b.
      cbn [reformatted]. unfold fmt_table. cbv zeta. rewrite Ec. reflexivity.
  - destruct Sh as (l & -> & Hl). unfold fmt_thematic_break in E.
    assert (F : exists c, first_char (strip l) = Ok c).
    { destruct Hl as (c & ws & body & -> & Hw & _ & Hc' & _).
      destruct (strip (ws ++ c :: body)) as [|c0 r] eqn:Es; [|exists c0; reflexivity].
      exfalso. apply strip_nil_spaces in Es. apply Forall_app in Es. destruct Es as [_ Es].
      inversion Es as [|? ? G _]; subst. repeat destruct Hc' as [<-|Hc']; try discriminate. destruct Hc'. }
    destruct F as (c & F). rewrite F in E. destruct w; try discriminate. injection E as <-.
    eapply reason_width; [exact Hs|reflexivity].
Qed.

Lemma reason_narrow w n lines e : reason (width_sub w n) lines e -> reason w lines e.
Proof.
  intros H. destruct H; try (econstructor; eassumption).
  destruct w as [z| |q']; try discriminate. eapply reason_width; [eassumption|reflexivity].
Qed.

Lemma build_formatters_err i last secs e : build_formatters i last secs = Err e ->
  exists ty c, In (ty, c) secs /\ repr_check ty c = Err e.
Proof.
  revert i last. induction secs as [|[ty c] secs IH]; intros i last E; [discriminate|].
  cbn [build_formatters] in E. apply bind_err in E. destruct E as [E|(u & _ & E)].
  - exists ty, c. split; [left; reflexivity|exact E].
  - apply bind_err in E. destruct E as [E|(fs & _ & E)]; [|discriminate].
    destruct (IH _ _ E) as (ty' & c' & Hin & Er). exists ty', c'. split; [right; exact Hin|exact Er].
Qed.

Lemma pep479_err {A} (x : res A) e : pep479 x = Err e -> exists e', x = Err e'
  /\ (exn_base e = exn_base e' \/ (exn_base e' = StopIteration /\ exn_base e = RuntimeError GeneratorStop)).
Proof.
  intros E. destruct x as [a|e']; [discriminate|]. exists e'. split; [reflexivity|].
  unfold pep479 in E. injection E as <-. induction e'; cbn; auto.
Qed.

Lemma reason_stopped w lines e e' : reason w lines (exn_base e') ->
  exn_base e = exn_base e' \/ (exn_base e' = StopIteration /\ exn_base e = RuntimeError GeneratorStop) ->
  reason w lines (exn_base e).
Proof.
  intros H [->|[E1 E2]]; [exact H|]. rewrite E1 in H. rewrite E2. inversion H as [| | | | | |? Hx _|]; subst.
  apply reason_stop; [exact Hx|right; reflexivity].
Qed.

Lemma pass_reason lim text w e : reformat_pass lim text w = Err e ->
  exists lines, within (splitlines text) lines /\ reason w lines (exn_base e).
Proof.
  revert text w e. induction lim as [|lim IH]; intros text w e E.
  { injection E as <-. exists (splitlines text). split; [constructor|apply reason_recursion]. }
  cbn [reformat_pass] in E. assert (Ho := splitlines_one_line text). set (lines := splitlines text) in *.
  apply bind_err in E. destruct E as [E|(secs & Ep & E)].
  { exists lines. split; [constructor|]. apply parse_reason in E. destruct E as [->|[-> E]].
    - apply reason_recursion.
    - apply reason_stop; [exact E|left; reflexivity]. }
  apply bind_err in E. destruct E as [E|(fs & Ef & E)].
  { apply build_formatters_err in E. destruct E as (ty & c & Hin & E). exists lines. split; [constructor|].
    assert (R := E). apply (repr_reason w lines) in R; [|exists lim, secs; auto|exact Ho].
    replace (exn_base e) with e; [exact R|]. inversion R; subst; try reflexivity.
    match goal with H : e = _ \/ e = _ |- _ => destruct H as [->| ->]; reflexivity end. }
  apply bind_err in E. destruct E as [E|(outs & _ & E)]; [|discriminate].
  apply pep479_err in E. destruct E as (e1 & E & Hb). apply mapM_err in E.
  destruct E as ([[ty i] content] & Hin & E).
  assert (G : exists ls, within lines ls /\ reason w ls (exn_base e1)).
  2:{ destruct G as (ls & G1 & G2). exists ls. split; [exact G1|]. eapply reason_stopped; eassumption. }
  apply (in_formatters _ _ _ _ _ _ _ Ef) in Hin. destruct Hin as [->|Hin]; [discriminate|].
  assert (Hs : section_of lines ty content) by (exists lim, secs; auto).
  destruct (section_of_shape _ _ _ Hs Ho) as [Sh Hc].
  assert (Lists : list_type ty -> exists ls, within lines ls /\ reason w ls (exn_base e1)).
  { intros Hty. destruct (C29_fails_only_nested lim w i ty content e1 Hty Sh Hc E)
      as (entry & inner & n & e' & Hd & (a & b & Ec) & Er & Eb).
    apply IH in Er. destruct Er as (ls & W & R). exists ls. rewrite Eb.
    split; [|eapply reason_narrow; exact R].
    eapply within_entry; [exact Hs|exact Hty|exact Ec|exact Hd|].
    rewrite splitlines_join in W; [exact W| |].
    - destruct Hd as (? & ? & ? & ? & ? & ? & _ & _ & -> & _). discriminate.
    - rewrite Ec in Hc. apply Forall_infix in Hc. eapply derived_one_line; [|exact Hc].
      apply dedented_derived. exact Hd. }
  destruct (section_type_eqb ty BLOCK_QUOTE) eqn:T1.
  { destruct ty; try discriminate. cbn [reformatted] in E. unfold fmt_block_quote in E.
    destruct (quote_inner_quotes _ Sh) as (prefix & Q).
    apply bind_err in E. destruct E as [E|(l0 & _ & E)].
    { exfalso. destruct Sh as (l & rest & -> & _). discriminate. }
    cbv zeta in E. apply bind_err in E. destruct E as [E|(t & _ & E)]; [|discriminate].
    apply with_redirect_err in E. destruct E as (e' & E & Eb). fold (quote_inner content) in E.
    apply IH in E. destruct E as (ls & W & R). exists ls. rewrite Eb. split.
    - eapply within_quote; [exact Hs|exact Q|]. rewrite splitlines_join in W; [exact W| |].
      + destruct (quotes_derived _ _ _ Q) as (mid & D1 & D2). destruct Sh as (l & rest & -> & _).
        inversion D1; subst. inversion D2; subst. congruence.
      + destruct (quotes_derived _ _ _ Q) as (mid & D1 & D2).
        eapply derived_one_line; [exact D2|]. eapply derived_one_line; eassumption.
    - destruct (quote_has_space _) in R; repeat apply reason_narrow in R; exact R. }
  destruct (section_type_eqb ty BULLET_LIST) eqn:T2; [destruct ty; try discriminate; apply Lists; left; reflexivity|].
  destruct (section_type_eqb ty ORDERED_LIST) eqn:T3; [destruct ty; try discriminate; apply Lists; right; reflexivity|].
  exists lines. split; [constructor|].
  assert (R : reason w lines e1).
  { eapply leaf_reason; [exact Hs|exact Ho| | | |exact E]; intros ->; discriminate. }
  replace (exn_base e1) with e1; [exact R|]. inversion R; subst; try reflexivity.
  match goal with H : e1 = _ \/ e1 = _ |- _ => destruct H as [->| ->]; reflexivity end.
Qed.

(** * Calm documents *)

Lemma word_start s w : In w (words s) ->
  exists a b, s = a ++ w ++ b /\ (a = [] \/ exists a' c, a = a' ++ [c] /\ is_space c = true).
Proof.
  assert (G : forall n s w, length s <= n -> In w (words s) ->
    exists a b, s = a ++ w ++ b /\ (a = [] \/ exists a' c, a = a' ++ [c] /\ is_space c = true)).
  { clear. intros n. induction n as [|n IH]; intros s w L H; (destruct s as [|c s]; [destruct H|]); cbn in L; [lia|].
    assert (Pre : forall p x r, is_space x = true -> length r <= n -> In w (words r) ->
      exists a b, p ++ x :: r = a ++ w ++ b /\ (a = [] \/ exists a' c, a = a' ++ [c] /\ is_space c = true)).
    { intros p x r Hx Lr Hin. destruct (IH r w Lr Hin) as (a & b & -> & [->|(a' & d & -> & Hd)]).
      - exists (p ++ [x]), b. split; [rewrite <- app_assoc; reflexivity|]. right. exists p, x. auto.
      - exists (p ++ x :: a' ++ [d]), b. split; [repeat (rewrite <- app_assoc; cbn [app]); reflexivity|]. right.
        exists (p ++ x :: a'), d. split; [rewrite <- app_assoc; reflexivity|exact Hd]. }
    destruct (is_space c) eqn:Hc.
    - rewrite words_cons_space in H by exact Hc. apply (Pre [] c s Hc); [lia|exact H].
    - rewrite (words_take (c :: s)) in H by exact Hc. assert (E := take_lstrip_by not_space (c :: s)).
      destruct H as [<-|H].
      + exists [], (lstrip_by not_space (c :: s)). split; [exact E|left; reflexivity].
      + destruct (lstrip_by not_space (c :: s)) as [|x r] eqn:Er; [destruct H|].
        assert (Hx := Er). apply lstrip_by_head in Hx. unfold not_space in Hx. apply negb_false_iff in Hx.
        rewrite words_cons_space in H by exact Hx. rewrite E. apply Pre; [exact Hx| |exact H].
        assert (T : take_while not_space (c :: s) <> []).
        { cbn [take_while]. unfold not_space at 1. rewrite Hc. discriminate. }
        apply (f_equal (@length _)) in E. rewrite app_length in E. cbn [length] in E.
        destruct (take_while not_space (c :: s)); [congruence|]. cbn [length] in E. lia. }
  intros H. apply (G (length s)); [lia|exact H].
Qed.

Lemma calm_no_dot_word ls : Forall calm ls -> ~ dot_word (str_join [c_sp] ls).
Proof.
  intros H (w & Hw & Hd). rewrite words_join in Hw. apply in_concat in Hw. destruct Hw as (ws & Hws & Hw).
  apply in_map_iff in Hws. destruct Hws as (l & <- & Hl). rewrite Forall_forall in H.
  destruct (H l Hl) as [D _]. apply word_start in Hw. destruct Hw as (a & b & -> & Ha).
  assert (E : exists w', w = c_dot :: w') by (destruct Hd as [->|(c & w' & -> & _)]; eexists; reflexivity).
  destruct E as (w' & ->). destruct (D a (w' ++ b) eq_refl) as (a' & c & -> & Hs & _).
  destruct Ha as [Ha|(a'' & d & Ha & Hd')]; [destruct a'; discriminate|].
  apply app_inj_tail in Ha. destruct Ha as [_ <-]. congruence.
Qed.

Lemma calm_suffix p l : calm (p ++ l) ->
  p = [] \/ (exists p' c, p = p' ++ [c] /\ (is_space c = true \/ c = c_gt)) \/ l = [] -> calm l.
Proof.
  intros (D & B & L & F1 & F2 & T) Hp. repeat split.
  - intros a b E. destruct a as [|x a].
    + exfalso. cbn in E. destruct Hp as [->|[(p' & c & -> & Hc)|Hl]]; [| |subst l; discriminate].
      * destruct (D [] b E) as (a' & c & G & _). destruct a'; discriminate.
      * subst l. destruct (D (p' ++ [c]) b eq_refl) as (a' & c' & G & G1 & G2).
        apply app_inj_tail in G. destruct G as [_ <-]. destruct Hc; congruence.
    + subst l. destruct (D (p ++ x :: a) b) as (a' & c & G & G1 & G2); [rewrite <- app_assoc; reflexivity|].
      destruct (@exists_last _ (x :: a) ltac:(discriminate)) as (y & z & Ez). rewrite Ez in *.
      rewrite app_assoc in G. apply app_inj_tail in G. destruct G as [_ <-]. exists y, z. auto.
  - intros G. apply B. apply in_app_iff. auto.
  - intros a b ->. apply (L (p ++ a) b). rewrite <- app_assoc. reflexivity.
  - intros a b ->. apply (F1 (p ++ a) b). rewrite <- app_assoc. reflexivity.
  - intros a b ->. apply (F2 (p ++ a) b). rewrite <- app_assoc. reflexivity.
  - intros q ->. apply (T (p ++ q)). rewrite <- app_assoc. reflexivity.
Qed.

Lemma lead_infix d (l a z b : str) : repeat c_gt d ++ l = a ++ z ++ b -> Forall (fun c => c <> c_gt) z -> z <> [] ->
  exists a', a = repeat c_gt d ++ a' /\ l = a' ++ z ++ b.
Proof.
  intros E Hz Hn. revert a E. induction d as [|d IH]; intros a E; [exists a; auto|]. cbn in E.
  destruct a as [|x a].
  - exfalso. destruct z as [|x z]; [congruence|]. inversion Hz; subst. injection E as E _. congruence.
  - injection E as <- E. destruct (IH a E) as (a' & -> & E'). exists a'. auto.
Qed.

Lemma calm_lead d l : calm l -> calm (repeat c_gt d ++ l).
Proof.
  intros (D & B & L & F1 & F2 & T). repeat split.
  - intros a b E. destruct (lead_infix d l a [c_dot] b E) as (a' & -> & E'); [repeat constructor; discriminate|discriminate|].
    destruct (D a' b E') as (a'' & c & -> & G). exists (repeat c_gt d ++ a''), c. rewrite <- app_assoc. auto.
  - intros G. apply in_app_iff in G. destruct G as [G|G]; [apply repeat_spec in G; discriminate|auto].
  - intros a b E. apply lead_infix in E; [|repeat constructor; discriminate|discriminate].
    destruct E as (a' & _ & E). exact (L _ _ E).
  - intros a b E. apply lead_infix in E; [|repeat constructor; discriminate|discriminate].
    destruct E as (a' & _ & E). exact (F1 _ _ E).
  - intros a b E. apply lead_infix in E; [|repeat constructor; discriminate|discriminate].
    destruct E as (a' & _ & E). exact (F2 _ _ E).
  - intros p E. rewrite <- (app_nil_r (lit "  ")) in E.
    apply lead_infix in E; [|repeat constructor; discriminate|discriminate].
    destruct E as (a' & _ & E). rewrite app_nil_r in E. exact (T _ E).
Qed.

Lemma calm_dedented entry inner : dedented entry inner -> Forall calm entry -> Forall calm inner.
Proof.
  intros (l & rest & ws & m & body & rest' & -> & (-> & Hw & Hm & Hb) & -> & F) C.
  inversion C as [|? ? C1 C2]; subst. constructor.
  - destruct Hb as [->|(r & ->)].
    + cbn. apply (calm_suffix ((ws ++ m) ++ [])); [rewrite app_nil_r, <- app_assoc; exact C1|]. auto.
    + cbn. apply (calm_suffix (ws ++ m ++ [c_sp])); [rewrite <- !app_assoc; exact C1|].
      right. left. exists (ws ++ m), c_sp. rewrite <- app_assoc. auto.
  - clear -F C2. induction F as [|x y xs ys (w & -> & Hw & _) F IH]; [constructor|].
    inversion C2 as [|? ? G1 G2]; subst. constructor; [|auto]. apply (calm_suffix w y G1).
    destruct w as [|c w _] using rev_ind; [auto|]. right. left. exists w, c. split; [reflexivity|]. left.
    apply Forall_app in Hw. destruct Hw as [_ Hw]. inversion Hw; assumption.
Qed.

Lemma calm_unquoted d ls ls' : unquoted d ls ls' -> Forall calm ls -> Forall calm ls'.
Proof.
  intros H. induction H as [|d l l' d' ls ls' Hq Hd Hu H IH|d l ls ls' Hq H IH]; intros C;
    inversion C as [|? ? C1 C2]; subst; constructor; auto.
  - destruct Hu as [(n & _ & ->)|[-> _]]; [|exact C1]. apply (calm_suffix (repeat c_sp n ++ [c_gt])).
    + rewrite <- app_assoc. exact C1.
    + right. left. eauto.
  - apply calm_lead. exact C1.
Qed.

Lemma calm_quotes content inner prefix : quotes content inner prefix -> Forall calm content -> Forall calm inner.
Proof.
  intros (mid & U & H) C. assert (Cm := calm_unquoted _ _ _ U C). destruct H as [(_ & _ & F)|(_ & _ & ->)]; [|exact Cm].
  clear -F Cm. induction F as [|x y xs ys Hx F IH]; [constructor|]. inversion Cm as [|? ? G1 G2]; subst.
  constructor; [|auto]. destruct Hx as [->|[-> _]]; [|exact G1]. apply (calm_suffix [c_sp]); [exact G1|].
  right. left. exists [], c_sp. auto.
Qed.

Lemma calm_section lines ty content : section_of lines ty content -> Forall calm lines -> Forall calm content.
Proof.
  intros (lim & secs & Hp & Hin) C. apply parse_markdown_lossless in Hp. destruct Hp as [Hp _]. rewrite <- Hp in C.
  rewrite Forall_concat in C. rewrite Forall_forall in C. apply (C content).
  apply in_map_iff. exists (ty, content). auto.
Qed.

Lemma calm_within lines lines' : within lines lines' -> Forall calm lines -> Forall calm lines'.
Proof.
  intros H. induction H as [lines|lines content inner prefix lines' Hs Hq H IH
    |lines ty content a entry b inner lines' Hs _ Ec Hd H IH]; intros C; [exact C| |].
  - apply IH. eapply calm_quotes; [exact Hq|]. eapply calm_section; eassumption.
  - apply IH. eapply calm_dedented; [exact Hd|]. apply (calm_section _ _ _ Hs) in C. rewrite Ec in C.
    apply Forall_infix in C. exact C.
Qed.

Lemma section_shape_of lines ty content : section_of lines ty content -> section_shape ty content.
Proof. intros (lim & secs & Hp & Hin). exact (C10_section_shapes _ _ _ _ _ Hp Hin). Qed.

Lemma calm_table lines content : section_of lines TABLE content -> Forall calm lines -> content = [].
Proof.
  intros Hs C. assert (Sh := section_shape_of _ _ _ Hs). apply (calm_section _ _ _ Hs) in C. cbn in Sh.
  destruct content as [|l content]; [reflexivity|]. exfalso.
  inversion Sh as [|? ? (ws & body & -> & _) _]; subst. inversion C as [|? ? (_ & B & _) _]; subst.
  apply B. apply in_or_app. right. left. reflexivity.
Qed.

Lemma calm_reason w lines e : Forall calm lines -> (forall q, w <> WFloat q) -> reason w lines e -> e = RecursionError.
Proof.
  intros C W R. destruct R as [ty content Hs _ D|content label parts Hs D _|l Hs|l Hs|header divider body n a b Hs _
    |content q Hs Ew|e E _|]; [exfalso..|reflexivity].
  - apply (calm_section _ _ _ Hs) in C. exact (calm_no_dot_word _ C D).
  - apply (calm_section _ _ _ Hs) in C. destruct D as (ws & body & rest & -> & _).
    inversion C as [|? ? (_ & _ & L & _) _]; subst. apply (L (ws ++ c_lbr :: label) body).
    rewrite <- app_assoc. reflexivity.
  - apply calm_table in Hs; [discriminate|exact C].
  - assert (Sh := section_shape_of _ _ _ Hs). apply (calm_section _ _ _ Hs) in C.
    destruct Sh as (l' & rest & fence & E & (ws & c & n & info & -> & _ & Hc & Hn & _) & _). injection E as -> <-.
    inversion C as [|? ? (_ & _ & _ & F1 & F2 & _) _]; subst.
    destruct n as [|[|[|n]]]; [lia..|]. destruct Hc as [<-|[<-|[]]].
    + exact (F1 ws (repeat c_bt n ++ info) eq_refl).
    + exact (F2 ws (repeat c_tilde n ++ info) eq_refl).
  - apply calm_table in Hs; [discriminate|exact C].
  - exact (W q Ew).
  - apply Exists_exists in E. destruct E as (l & Hl & E). rewrite Forall_forall in C.
    destruct (C l Hl) as (_ & _ & L & _ & _ & T). destruct E as [(p & E)|(p & ws & E & _)].
    + exact (T p E).
    + exact (L p ws E).
Qed.
