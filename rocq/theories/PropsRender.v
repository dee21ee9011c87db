(** What documents are formatted to is determined by what they say (C70, C71). *)
From Coq Require Import String.
From Verif Require Import Py Regex Utils TextWrap Lines Detectors Formatters Base
  SpecLines SpecParser ProofsLines ProofsRegex ProofsParser ProofsShapes ProofsKinds
  SpecFormat ProofsPass ProofsForward PropsLeaf SpecTable ProofsTable PropsTable
  SpecWrap ProofsWrap ProofsTokens ProofsPieces ProofsFilled PropsWrap
  SpecDefinition ProofsDefinition PropsDefinition SpecList ProofsList PropsList SpecQuote PropsQuote
  SpecLimit ProofsLimit ProofsPlain SpecErrors ProofsErrors SpecDocument SpecContent ProofsDocument PropsDocument
  SpecNested PropsApi ProofsNested PropsLeaf SpecRender ProofsRender ProofsNestedFormat PropsNested.

(** A document is formatted to the rendering of what it says. *)
Theorem C70_rendering : forall depth w ts secs text,
  nested depth w ts secs -> secs <> [] -> splitlines text = concat (map snd secs) ->
  Forall plain_indent (splitlines text) ->
  exists n, forall lim, n <= lim ->
    reformat_pass lim text w = Ok (newline_terminated (rendering w ts))
    /\ exists out, rtrims (newline_terminated (rendering w ts)) out
         /\ reformat_markdown_text lim text w = Ok (out ++ [c_nl]).
Proof.
  intros depth w ts secs text H Hn Et Hi. destruct (nested_ok depth) as (I1 & I2 & I3).
  destruct (nested_doc depth) as (inner & Ed & _). fold (lines_of secs) in Et.
  assert (Ho : Forall one_line (lines_of secs)) by (rewrite Ed in H; eapply doc_one_line; exact H).
  assert (Hg : Forall good (lines_of secs)).
  { rewrite Et in Hi. rewrite Forall_forall in *. intros l Hx. split; auto. }
  destruct (I3 w ts secs H Hn Hg) as (secs' & R & Er). destruct (reformats_pass _ _ _ _ R) as (N & HN).
  assert (Es : splitlines (document secs) = lines_of secs) by (apply splitlines_newline_terminated; exact Ho).
  exists N. intros lim L. destruct (HN lim L) as [P1 P2].
  assert (P0 : reformat_pass lim text w = Ok (document secs')).
  { destruct lim as [|lim]; [discriminate|]. cbn [reformat_pass] in P1 |- *. rewrite Et. rewrite Es in P1. exact P1. }
  assert (E : newline_terminated (rendering w ts) = document secs') by (rewrite <- Er; reflexivity).
  rewrite E. split; [exact P0|]. exists (rstrip (document secs')). split; [apply ProofsPass.rtrims_rstrip; reflexivity|].
  unfold reformat_markdown_text. rewrite P0. cbn [bind]. rewrite P2. cbn [bind]. rewrite str_eqb_refl. reflexivity.
Qed.

Lemma rendering_blanks w ts k : rstrip (newline_terminated (rendering w (ts ++ repeat (Leaf Blank) k)))
  = rstrip (newline_terminated (rendering w ts)).
Proof.
  unfold rendering. rewrite map_app, concat_app, newline_terminated_app. unfold rstrip. apply rstrip_by_app.
  apply spaces_forallb. induction k as [|k IH]; [constructor|]. cbn [repeat map concat tree_lines leaf_lines app].
  constructor; [reflexivity|exact IH].
Qed.

(** Documents that say the same, up to blank lines at their ends, are formatted alike. *)
Theorem C70_canonical : forall depth depth' w ts secs text k ts' secs' text' k',
  nested depth w ts secs -> secs <> [] -> splitlines text = concat (map snd secs) ->
  Forall plain_indent (splitlines text) ->
  nested depth' w ts' secs' -> secs' <> [] -> splitlines text' = concat (map snd secs') ->
  Forall plain_indent (splitlines text') ->
  ts ++ repeat (Leaf Blank) k = ts' ++ repeat (Leaf Blank) k' ->
  exists n out, forall lim, n <= lim ->
    reformat_markdown_text lim text w = Ok out /\ reformat_markdown_text lim text' w = Ok out.
Proof.
  intros depth depth' w ts secs text k ts' secs' text' k' H1 H2 H3 H4 H1' H2' H3' H4' E.
  destruct (C70_rendering _ _ _ _ _ H1 H2 H3 H4) as (n & Hn). destruct (C70_rendering _ _ _ _ _ H1' H2' H3' H4') as (n' & Hn').
  exists (n + n'), (rstrip (newline_terminated (rendering w ts)) ++ [c_nl]). intros lim L.
  destruct (Hn lim ltac:(lia)) as (_ & out & T & ->). destruct (Hn' lim ltac:(lia)) as (_ & out' & T' & ->).
  apply ProofsPass.rtrims_rstrip in T, T'. subst out out'. split; [reflexivity|].
  rewrite <- (rendering_blanks w ts k), E, rendering_blanks. reflexivity.
Qed.

(** * Other widths *)

(** The width leaves room for the thematic breaks in the tree. *)
Fixpoint roomy (w : width) (t : tree) : Prop :=
  match t with
  | Leaf (Rule _) => wide w
  | Leaf _ => True
  | Quote p ts => fold_right and True (map (roomy (beside w (length p))) ts)
  | Bullets _ tss => fold_right and True (map (fun ts => fold_right and True (map (roomy (beside w 2)) ts)) tss)
  | Numbered first tss =>
      let w' := beside w (length (dec (first + N.of_nat (length tss) - 1)%N) + 2) in
      fold_right and True (map (fun ts => fold_right and True (map (roomy w') ts)) tss)
  end.

Definition all_roomy (w : width) (ts : list tree) : Prop := Forall (roomy w) ts.

Lemma fold_and {A} (P : A -> Prop) l : fold_right and True (map P l) <-> Forall P l.
Proof.
  induction l as [|a l IH]; cbn [map fold_right]; [split; constructor|]. rewrite IH. split.
  - intros [H1 H2]. constructor; assumption.
  - intros H. inversion H; auto.
Qed.

Lemma wide_width w w' : narrower w 0 w' -> wide w -> wide w'.
Proof.
  intros H [->|(z & -> & Hz)]; destruct w'; cbn in H; try contradiction; [left; reflexivity|]. right. eexists. split; [reflexivity|lia].
Qed.

Lemma Forall_fold {A B} (P Q : A -> Prop) (f : A -> B) l : Forall (fun a => P a -> Q a) l -> Forall P l -> Forall Q l.
Proof. induction 1; intros H'; inversion H'; subst; constructor; auto. Qed.

Lemma roomy_width t : forall w w', narrower w 0 w' -> roomy w t -> roomy w' t.
Proof.
  assert (M : forall ts, Forall (fun t => forall w w', narrower w 0 w' -> roomy w t -> roomy w' t) ts ->
            forall w w', narrower w 0 w' -> fold_right and True (map (roomy w) ts) -> fold_right and True (map (roomy w') ts)).
  { intros xs F w w' H. induction F as [|x xs Hx _ IH]; [auto|]. cbn [map fold_right]. intros [H1 H2]. split; [eapply Hx; eauto|auto]. }
  assert (MM : forall tss, Forall (Forall (fun t => forall w w', narrower w 0 w' -> roomy w t -> roomy w' t)) tss ->
            forall w w', narrower w 0 w' -> fold_right and True (map (fun ts => fold_right and True (map (roomy w) ts)) tss) ->
            fold_right and True (map (fun ts => fold_right and True (map (roomy w') ts)) tss)).
  { intros xs F w w' H. induction F as [|x xs Hx _ IH]; [auto|]. cbn [map fold_right]. intros [H1 H2]. split; [eapply M; eauto|auto]. }
  induction t as [p|p ts F|b tss F|n tss F] using trees; intros w w' H; cbn [roomy].
  - destruct p; auto. apply wide_width. exact H.
  - apply M; [exact F|apply beside_width; exact H].
  - apply MM; [exact F|apply beside_width; exact H].
  - cbv zeta. apply MM; [exact F|apply beside_width; exact H].
Qed.

Lemma all_roomy_width w n a b ts : narrower w n a -> narrower w n b -> all_roomy a ts -> all_roomy b ts.
Proof.
  intros Ha Hb. apply Forall_impl. intros t. apply roomy_width. exact (narrower_same _ _ _ _ Ha Hb).
Qed.

Lemma entries_says (P : list tree -> list section -> Prop) n ms tss ls : entries P n ms tss ls ->
  Forall (fun ts => exists secs, P ts secs) tss /\ length ms = length tss.
Proof. induction 1 as [|n ws m ts secs ls ms tss rest _ _ Hi _ _ (IH & L)]; [split; constructor|]. split; [constructor; eauto|cbn; lia]. Qed.

Lemma entries_impl_in (P Q : list tree -> list section -> Prop) n ms tss ls : entries P n ms tss ls ->
  Forall (fun ts => forall secs, P ts secs -> Q ts secs) tss -> entries Q n ms tss ls.
Proof. induction 1; intros F; [constructor|]. inversion F; subst. econstructor; eauto. Qed.

Lemma beside_narrower w n : narrower w (Z.of_nat n) (beside w n).
Proof. rewrite beside_sub. apply sub_narrower. Qed.

Lemma numbered_width (a : N) (ms : list str) (tss : list (list tree)) last :
  decimal (a + N.of_nat (length ms)) last -> S (length ms) = length tss ->
  (Z.of_nat (length last) + 2)%Z = Z.of_nat (length (dec (a + N.of_nat (length tss) - 1)%N) + 2).
Proof.
  intros Hl L. replace (a + N.of_nat (length tss) - 1)%N with (a + N.of_nat (length ms))%N by lia.
  assert (D := dec_decimal (a + N.of_nat (length ms))).
  assert (E : length last = length (dec (a + N.of_nat (length ms)))) by (apply Nat.le_antisymm; eapply decimal_length; eauto; lia).
  lia.
Qed.

Definition roomy_inner (inner : width -> list tree -> list section -> Prop) : Prop :=
  (forall w ts secs, inner w ts secs -> all_roomy w ts)
  /\ (forall w w' ts secs, inner w ts secs -> all_roomy w' ts -> inner w' ts secs).

Lemma nblock_roomy inner w t ty ls : roomy_inner inner -> nblock inner w t ty ls ->
  roomy w t /\ forall w', roomy w' t -> nblock inner w' t ty ls.
Proof.
  intros [R1 R2] H.
  destruct ty; cbn [nblock] in *;
    try (destruct H as (H1 & (p & -> & C) & H3 & H4); assert (K := content_kind _ _ _ C);
         destruct p; try discriminate K;
         (split; [exact Logic.I|]; intros w' _; split; [exact H1|]; split; [eauto|]; split; [exact H3|discriminate]); fail).
  - destruct H as (ts & p & secs & -> & Hq & H). split.
    + cbn [roomy]. apply fold_and. apply (R1 _ ts secs). apply H, beside_narrower.
    + intros w' Hr. cbn [roomy] in Hr. apply (proj1 (fold_and _ _)) in Hr. exists ts, p, secs. split; [reflexivity|]. split; [exact Hq|].
      intros w1 Hw1. apply (R2 (beside w (length p))); [apply H, beside_narrower|].
      eapply all_roomy_width; [apply beside_narrower|exact Hw1|exact Hr].
  - destruct H as (b & tss & ms & -> & Hb & He). destruct (entries_says _ _ _ _ _ He) as [S L]. split.
    + cbn [roomy]. apply fold_and. eapply Forall_impl; [|exact S]. intros ts (secs & Hs). apply fold_and.
      apply (R1 _ ts secs). apply Hs. exact (beside_narrower w 2).
    + intros w' Hr. cbn [roomy] in Hr. apply (proj1 (fold_and _ _)) in Hr. exists b, tss, ms. split; [reflexivity|]. split; [exact Hb|].
      eapply entries_impl_in; [exact He|]. eapply Forall_impl; [|exact Hr]. intros ts Hts secs Hs w1 Hw1.
      apply (proj1 (fold_and _ _)) in Hts. apply (R2 (beside w 2)); [apply Hs; exact (beside_narrower w 2)|].
      eapply all_roomy_width; [apply (beside_narrower w' 2)|exact Hw1|exact Hts].
  - destruct H as (ds & tss & ms & first & last & -> & Hds & Hf & Hl & Hfl & He).
    destruct (entries_says _ _ _ _ _ He) as [S L]. cbn [length] in L.
    assert (Ez := numbered_width _ ms tss last Hl L). split.
    + cbn [roomy]. cbv zeta. apply fold_and. eapply Forall_impl; [|exact S]. intros ts (secs & Hs). apply fold_and.
      apply (R1 _ ts secs). apply Hs. rewrite Ez. apply beside_narrower.
    + intros w' Hr. cbn [roomy] in Hr. cbv zeta in Hr. apply (proj1 (fold_and _ _)) in Hr.
      exists ds, tss, ms, first, last. split; [reflexivity|]. do 4 (split; [assumption|]).
      eapply entries_impl_in; [exact He|]. eapply Forall_impl; [|exact Hr]. intros ts Hts secs Hs w1 Hw1.
      apply (proj1 (fold_and _ _)) in Hts.
      eapply R2; [apply Hs; rewrite Ez; apply beside_narrower|].
      rewrite Ez in Hw1. eapply all_roomy_width; [apply beside_narrower|exact Hw1|exact Hts].
  - destruct H as (H1 & (p & -> & C) & H3 & H4). assert (K := content_kind _ _ _ C). destruct p; try discriminate K.
    split; [apply H4; reflexivity|]. intros w' Hr. split; [exact H1|]. split; [eauto|]. split; [exact H3|]. intros _. exact Hr.
Qed.

Lemma doc_roomy inner : roomy_inner inner -> roomy_inner (doc inner).
Proof.
  intros R. split.
  - induction 1 as [|t ts ty ls next Hb Ho He _ IH]; constructor; [|exact IH]. eapply nblock_roomy; eauto.
  - intros w w' ts secs H. induction H as [|t ts ty ls next Hb Ho He _ IH]; intros Hr; constructor; auto.
    + eapply nblock_roomy; eauto. exact (Forall_inv Hr).
    + apply IH. exact (Forall_inv_tail Hr).
Qed.

Lemma nested_roomy depth : roomy_inner (nested depth).
Proof.
  induction depth as [|depth IH]; cbn [nested]; apply doc_roomy; [split; intros ? ? ? []; contradiction|exact IH].
Qed.

(** The width at which a document has been formatted before makes no difference. (As in
    C03, no definition of a link may be the last section that is not blank.) *)
Theorem C71_width_forgotten : forall depth w w' ts secs text,
  nested depth w ts secs -> nested depth w' ts secs -> secs <> [] ->
  splitlines text = concat (map snd secs) -> Forall plain_indent (splitlines text) ->
  (forall before ls after, secs = before ++ (LINK_REFERENCE_DEFINITION, ls) :: after ->
     exists s, In s after /\ fst s <> BLANK_LINE) ->
  exists n out out', forall lim, n <= lim ->
    reformat_markdown_text lim text w = Ok out
    /\ reformat_markdown_text lim text w' = Ok out'
    /\ reformat_markdown_text lim out w' = Ok out'
    /\ reformat_markdown_text lim out' w = Ok out.
Proof.
  assert (T : forall depth w w' ts secs text,
    nested depth w ts secs -> nested depth w' ts secs -> secs <> [] ->
    splitlines text = concat (map snd secs) -> Forall plain_indent (splitlines text) ->
    (forall before ls after, secs = before ++ (LINK_REFERENCE_DEFINITION, ls) :: after ->
       exists s, In s after /\ fst s <> BLANK_LINE) ->
    exists n out out', forall lim, n <= lim ->
      reformat_markdown_text lim text w = Ok out
      /\ reformat_markdown_text lim text w' = Ok out'
      /\ reformat_markdown_text lim out w' = Ok out').
  { intros depth w w' ts secs text H H' Hn Et Hi Hl.
    destruct (C66_output_is_fixed depth w ts secs text H Hn Et Hi Hl) as (n & secs1 & k & ts1 & N1 & Ty & Ets & Hi1 & P).
    assert (R := proj1 (nested_roomy depth) w' ts secs H').
    assert (N1' : nested depth w' ts1 secs1).
    { apply (proj2 (nested_roomy depth) w w' ts1 secs1 N1). unfold all_roomy in *. rewrite Ets in R. apply Forall_app in R. apply R. }
    assert (Es : splitlines (document secs1) = concat (map snd secs1)).
    { apply splitlines_newline_terminated. destruct (nested_doc depth) as (inner & Ed & _). rewrite Ed in N1. eapply doc_one_line. exact N1. }
    assert (Hn1 : secs1 <> []).
    { intros ->. destruct (P n (le_n n)) as (P1 & _). destruct (C02_single_trailing_newline _ _ _ _ P1) as ([|] & E & _); discriminate E. }
    destruct (C70_canonical depth depth w' ts secs text 0 ts1 secs1 (document secs1) k H' Hn Et Hi N1' Hn1 Es Hi1) as (n' & out' & Q).
    { cbn [repeat]. rewrite app_nil_r. exact Ets. }
    exists (n + n'), (document secs1), out'. intros lim L. destruct (P lim ltac:(lia)) as (P1 & _). destruct (Q lim ltac:(lia)) as [Q1 Q2]. auto. }
  intros depth w w' ts secs text H H' Hn Et Hi Hl.
  destruct (T depth w w' ts secs text H H' Hn Et Hi Hl) as (n & out & out' & P).
  destruct (T depth w' w ts secs text H' H Hn Et Hi Hl) as (n' & o' & o & P').
  exists (n + n'), out, out'. intros lim L. destruct (P lim ltac:(lia)) as (P1 & P2 & P3). destruct (P' lim ltac:(lia)) as (Q1 & Q2 & Q3).
  rewrite P1 in Q2. injection Q2 as ->. rewrite P2 in Q1. injection Q1 as ->. auto.
Qed.

(** * Examples *)

Lemma ex_spaces text : forallb (forallb (fun c => negb (is_space c) || (c =? c_sp)%N)) (splitlines text) = true ->
  Forall plain_indent (splitlines text).
Proof.
  intros G. apply Forall_forall. intros l Hl a ws b E Hw. apply Forall_forall. intros c Hc. unfold spaces in Hw.
  rewrite Forall_forall in Hw. specialize (Hw c Hc). rewrite forallb_forall in G. specialize (G l Hl).
  rewrite forallb_forall in G. specialize (G c). rewrite Hw in G. apply N.eqb_eq. apply G. rewrite E.
  apply in_or_app. right. apply in_or_app. left. exact Hc.
Qed.

Example C70_nonvacuous :
  nested 3 (WInt 16) ex_says ex_nested
  /\ Forall plain_indent (splitlines (document ex_nested))
  /\ rendering (WInt 16) ex_says
     = [lit "# Title"; []; lit "> some words of"; lit "> a quote"; lit ">"; lit "> 3. first entry"; lit ">    and more";
        lit ">    * inner"; lit "> 4. > deep down"; []; lit "the end"]
  /\ reformat_markdown_text 200 (document ex_nested) (WInt 16) = Ok (newline_terminated (rendering (WInt 16) ex_says))
  /\ rendering (WInt 8) [Leaf (Table [lit "name"; lit "n"] [(false, false); (false, true)] [[lit "a"; lit "100"]; [lit "letter"; []]]);
                         Leaf (Rule c_star); Leaf (Title c_eq (words_as_pieces [lit "one"; lit "two"; lit "three"]));
                         Bullets c_dash [[Leaf (Heading 2 (lit "x")); Leaf (Text (words_as_pieces [lit "in"; lit "list"]))]]]
     = [lit "|  name  |   n |"; lit "|--------|----:|"; lit "| a      | 100 |"; lit "| letter |     |";
        lit "********"; lit "one two"; lit "three"; lit "======="; lit "- ## x"; lit "  in"; lit "  list"].
Proof.
  split; [apply ex_nested_ok|]. split; [apply ex_spaces; vm_compute; reflexivity|]. repeat split; vm_compute; reflexivity.
Qed.

(** The same paragraphs, broken and spaced in two ways. *)
Example C70_canonical_nonvacuous :
  let text := newline_terminated [lit "one  two"; lit "   three"; []; lit "the"; lit "end"; []; []] in
  let text' := newline_terminated [lit "one"; lit "two three"; []; lit "  the   end"] in
  exists ts secs ts' secs', nested 0 (WInt 8) ts secs /\ secs <> [] /\ splitlines text = concat (map snd secs)
    /\ Forall plain_indent (splitlines text)
    /\ nested 0 (WInt 8) ts' secs' /\ secs' <> [] /\ splitlines text' = concat (map snd secs')
    /\ Forall plain_indent (splitlines text')
    /\ ts ++ repeat (Leaf Blank) 0 = ts' ++ repeat (Leaf Blank) 2
    /\ reformat_markdown_text 50 text (WInt 8) = Ok (newline_terminated [lit "one two"; lit "three"; []; lit "the end"]).
Proof.
  cbv zeta.
  exists ([Leaf (Text (words_as_pieces [lit "one"; lit "two"; lit "three"])); Leaf Blank;
           Leaf (Text (words_as_pieces [lit "the"; lit "end"]))] ++ repeat (Leaf Blank) 2),
    [(PARAGRAPH, [lit "one  two"; lit "   three"]); (BLANK_LINE, [[]]); (PARAGRAPH, [lit "the"; lit "end"]);
     (BLANK_LINE, [[]]); (BLANK_LINE, [[]])],
    [Leaf (Text (words_as_pieces [lit "one"; lit "two"; lit "three"])); Leaf Blank;
     Leaf (Text (words_as_pieces [lit "the"; lit "end"]))],
    [(PARAGRAPH, [lit "one"; lit "two three"]); (BLANK_LINE, [[]]); (PARAGRAPH, [lit "  the   end"])].
  split; [|split; [discriminate|split; [vm_compute; reflexivity|split; [apply ex_spaces; vm_compute; reflexivity|]]]].
  { cbn [nested app repeat].
    apply ex_text; try (vm_compute; reflexivity); [intros ty' ls' next' E; injection E as <- _ _; left; reflexivity|].
    apply ex_blank. apply ex_text; try (vm_compute; reflexivity); [intros ty' ls' next' E; injection E as <- _ _; left; reflexivity|].
    apply ex_blank. apply ex_blank. constructor. }
  split; [|split; [discriminate|split; [vm_compute; reflexivity|split; [apply ex_spaces; vm_compute; reflexivity|]]]].
  { cbn [nested].
    apply ex_text; try (vm_compute; reflexivity); [intros ty' ls' next' E; injection E as <- _ _; left; reflexivity|].
    apply ex_blank. apply ex_text; try (vm_compute; reflexivity); [discriminate|]. constructor. }
  split; [reflexivity|]. vm_compute. reflexivity.
Qed.

Example C71_nonvacuous :
  nested 3 (WInt 16) ex_says ex_nested /\ nested 3 (WInt 80) ex_says ex_nested
  /\ Forall plain_indent (splitlines (document ex_nested))
  /\ (forall before ls after, ex_nested = before ++ (LINK_REFERENCE_DEFINITION, ls) :: after ->
        exists s, In s after /\ fst s <> BLANK_LINE)
  /\ reformat_markdown_text 200 (document ex_nested) (WInt 16) <> reformat_markdown_text 200 (document ex_nested) (WInt 80).
Proof.
  split; [apply ex_nested_ok|]. split; [apply ex_nested_ok|]. split; [apply ex_spaces; vm_compute; reflexivity|].
  split; [|vm_compute; discriminate].
  intros before ls after E. exists (PARAGRAPH, [lit "the end"]).
  assert (H : In (LINK_REFERENCE_DEFINITION, ls) ex_nested) by (rewrite E; apply in_or_app; right; left; reflexivity).
  cbn in H. intuition discriminate.
Qed.

(** A list whose numbers grow longer, with a list in its first entry. *)
Example C70_counting_nonvacuous :
  let secs := [(ORDERED_LIST, [lit "9. the first"; lit "entry of all"; lit "   * inner"; lit "   words"; lit "10. the second"])] in
  let ts := [Numbered 9 [[Leaf (Text (words_as_pieces (map lit ["the"; "first"; "entry"; "of"; "all"]%string)));
                          Bullets c_star [[Leaf (Text (words_as_pieces [lit "inner"; lit "words"]))]]];
                         [Leaf (Text (words_as_pieces [lit "the"; lit "second"]))]]] in
  nested 2 (WInt 14) ts secs
  /\ splitlines (document secs) = concat (map snd secs)
  /\ Forall plain_indent (splitlines (document secs))
  /\ rendering (WInt 14) ts
     = [lit "9. the first"; lit "    entry of"; lit "    all"; lit "    * inner"; lit "      words"; lit "10. the second"]
  /\ reformat_markdown_text 100 (document secs) (WInt 14) = Ok (newline_terminated (rendering (WInt 14) ts)).
Proof.
  cbv zeta. split; [|split; [vm_compute; reflexivity|split; [apply ex_spaces; vm_compute; reflexivity|split; vm_compute; reflexivity]]].
  cbn [nested]. apply doc_next; [|apply ex_one_line; vm_compute; reflexivity|discriminate|constructor].
  exists (lit "9"). do 2 eexists. exists (lit "9"), (lit "10"). split; [reflexivity|].
  split; [split; [discriminate|repeat constructor]|]. split; [|split; [|split]].
  { split; [split; [discriminate|repeat constructor]|]. split; [reflexivity|]. intros ds' E. injection E. discriminate. }
  { split; [split; [discriminate|repeat constructor]|]. split; [instantiate (1 := [lit "10."]); reflexivity|].
    intros ds' E. injection E. discriminate. }
  { right. split; [cbn; lia|]. constructor; [|constructor; [|constructor]]; do 2 eexists; (split; [reflexivity|]);
      repeat constructor; discriminate. }
  apply (entries_next _ _ [] (lit "9.") _ [(PARAGRAPH, [lit "the first"; lit "entry of all"]); (BULLET_LIST, [lit "* inner"; lit "words"])]
           [lit "9. the first"; lit "entry of all"; lit "   * inner"; lit "   words"] [lit "10."] _ [lit "10. the second"]).
  { cbn. lia. }
  { do 3 eexists. split; [reflexivity|]. split; [reflexivity|]. split; [constructor|].
    split; [right; exists (lit "9"); split; [reflexivity|split; [discriminate|repeat constructor]]|]. split.
    - constructor; [exists []|constructor; [exists (lit "   ")|constructor; [exists (lit "   ")|constructor]]];
        (split; [reflexivity|]; split; [repeat constructor|]; split; [cbn; lia|]).
      + right. intros c r E. injection E as <- _. reflexivity.
      + left. reflexivity.
      + left. reflexivity.
    - apply ex_further. vm_compute. reflexivity. }
  { intros w2 _. apply ex_text; try (vm_compute; reflexivity).
    { intros ty' ls' next' E. injection E as <- _ _. right. left. reflexivity. }
    apply doc_next; [|apply ex_one_line; vm_compute; reflexivity|discriminate|constructor].
    do 3 eexists. split; [reflexivity|]. split; [left; reflexivity|].
    apply (entries_next _ _ [] (lit "*") _ [(PARAGRAPH, [lit "inner"; lit "words"])] [lit "* inner"; lit "words"] [] [] []).
    - cbn. lia.
    - do 3 eexists. split; [reflexivity|]. split; [reflexivity|]. split; [constructor|].
      split; [left; exists c_star; split; [reflexivity|left; reflexivity]|]. split.
      + constructor; [exists []|constructor]. split; [reflexivity|]. split; [constructor|]. split; [cbn; lia|].
        right. intros c r E. injection E as <- _. reflexivity.
      + apply ex_further. vm_compute. reflexivity.
    - intros w3 _. apply ex_text; try (vm_compute; reflexivity); [discriminate|constructor].
    - constructor; [left; reflexivity|constructor].
    - constructor. }
  { constructor; [left; reflexivity|]. constructor; [do 2 right; left; reflexivity|constructor]. }
  apply (entries_next _ _ [] (lit "10.") _ [(PARAGRAPH, [lit "the second"])] [lit "10. the second"] [] [] []).
  { cbn. lia. }
  { do 3 eexists. split; [reflexivity|]. split; [reflexivity|]. split; [constructor|].
    split; [right; exists (lit "10"); split; [reflexivity|split; [discriminate|repeat constructor]]|]. split; constructor. }
  { intros w2 _. apply ex_text; try (vm_compute; reflexivity); [discriminate|constructor]. }
  { constructor; [left; reflexivity|constructor]. }
  constructor.
Qed.
