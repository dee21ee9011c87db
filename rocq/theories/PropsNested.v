(** Documents with lists and block quotes nested to any depth (C66). *)
From Coq Require Import String.
From Verif Require Import Py Regex Utils TextWrap Lines Detectors Formatters Base
  SpecLines SpecParser ProofsLines ProofsRegex ProofsParser ProofsShapes ProofsKinds
  SpecFormat ProofsPass ProofsForward PropsLeaf SpecTable ProofsTable PropsTable
  SpecWrap ProofsWrap ProofsTokens ProofsPieces ProofsFilled PropsWrap
  SpecDefinition ProofsDefinition PropsDefinition SpecList ProofsList PropsList SpecQuote PropsQuote
  SpecLimit ProofsLimit ProofsPlain SpecErrors ProofsErrors SpecDocument SpecContent ProofsDocument PropsDocument
  SpecNested PropsApi ProofsNested PropsLeaf ProofsNestedFormat.

(** The document is taken apart into its sections, and formatting it gives a document of
    the same shape that says the same, with lists in quotes in lists to any depth: the
    same words, code and cells in the same entries of the same lists. That document is
    not changed by a second pass, so the text is never rejected as inconsistent. *)
Theorem C66_nested_documents : forall depth w ts secs text,
  nested depth w ts secs -> secs <> [] -> splitlines text = concat (map snd secs) ->
  Forall plain_indent (splitlines text) ->
  exists n secs', nested depth w ts secs' /\ map fst secs' = map fst secs
    /\ forall lim, n <= lim ->
       parse_markdown lim (splitlines text) = Ok secs
       /\ parse_markdown lim (splitlines (document secs')) = Ok secs'
       /\ reformat_pass lim text w = Ok (document secs')
       /\ reformat_pass lim (document secs') w = Ok (document secs')
       /\ exists out, rtrims (document secs') out
            /\ reformat_markdown_text lim text w = Ok (out ++ [c_nl]).
Proof.
  intros depth w ts secs text H Hn Et Hi. destruct (nested_ok depth) as (I1 & I2 & I3).
  assert (Hd : exists inner, inner_lines inner /\ nested depth = doc inner).
  { destruct depth as [|depth]; cbn [nested]; eexists; (split; [|reflexivity]).
    - intros w0 ts0 secs0 [].
    - apply nested_ok. }
  destruct Hd as (inner & Hl & Ed). fold (lines_of secs) in Et.
  assert (Ho : forall secs0, nested depth w ts secs0 -> Forall one_line (lines_of secs0)).
  { intros secs0 H0. rewrite Ed in H0. eapply doc_one_line. exact H0. }
  assert (Hg : Forall good (lines_of secs)).
  { specialize (Ho secs H). rewrite Et in Hi. rewrite Forall_forall in *. intros l Hx. split; auto. }
  destruct (I3 w ts secs H Hn Hg) as (secs' & R & _).
  assert (H' := reformats_inner _ _ _ _ R). assert (Hg' := reformats_good _ _ _ _ R).
  destruct (reformats_pass _ _ _ _ R) as (N & HN).
  assert (Es : forall secs0, nested depth w ts secs0 -> splitlines (document secs0) = lines_of secs0).
  { intros secs0 H0. apply splitlines_newline_terminated. apply Ho. exact H0. }
  exists (N + 2 * size (lines_of secs) + 2 * size (lines_of secs') + 3), secs'.
  split; [exact H'|]. split; [exact (similar_types _ _ (reformats_similar _ _ _ _ R))|]. intros lim L.
  destruct (HN lim ltac:(lia)) as [P1 P2].
  assert (P0 : reformat_pass lim text w = Ok (document secs')).
  { destruct lim as [|lim]; [lia|]. cbn [reformat_pass] in P1 |- *. rewrite Et. rewrite (Es secs H) in P1. exact P1. }
  split; [|split; [|split; [exact P0|split; [exact P2|]]]].
  - rewrite Et. rewrite Ed in H. eapply doc_parse; [exact Hl|exact H| |lia]. eapply Forall_impl; [|exact Hg]. apply good_quotable.
  - rewrite (Es _ H'). rewrite Ed in H'. eapply doc_parse; [exact Hl|exact H'| |lia]. eapply Forall_impl; [|exact Hg']. apply good_quotable.
  - exists (rstrip (document secs')). split; [apply rtrims_rstrip; reflexivity|].
    unfold reformat_markdown_text. rewrite P0. cbn [bind]. rewrite P2. cbn [bind]. rewrite str_eqb_refl. reflexivity.
Qed.

(** * What a document says *)

Lemma quoting_unique p p' lines lines' ls :
  quoting p lines ls -> quoting p' lines' ls -> p = p' /\ lines = lines'.
Proof.
  intros (Hp & Hf & F & _) (Hp' & Hf' & F' & _).
  assert (U : forall p lines, In p [lit ">"; lit "> "] -> Forall2 (quoted p) lines ls ->
    (p = lit ">" /\ map strip_quote_marker ls = lines)
    \/ p = lit "> " /\ Forall2 (fun l' x => x = c_sp :: l' \/ (l' = [] /\ x = [])) lines (map strip_quote_marker ls)).
  { clear. intros p lines Hp F.
    assert (U : Forall2 (unmarkedly p) lines (map strip_quote_marker ls)).
    { induction F as [|l' l lines ls H _ IH]; [constructor|]. cbn [map]. constructor; [|exact IH].
      apply quoted_unmarked; assumption. }
    clear F. destruct Hp as [<-|[<-|[]]]; [left|right]; (split; [reflexivity|]).
    - induction U as [|l' x lines xs H _ IH]; [reflexivity|]. destruct H as [[_ ->]|[G _]]; [|discriminate].
      rewrite IH. reflexivity.
    - induction U as [|l' x lines xs H _ IH]; constructor; [|exact IH].
      destruct H as [[G _]|[_ H]]; [discriminate|exact H]. }
  apply (U _ _ Hp) in F. apply (U _ _ Hp') in F'. clear U.
  set (xs := map strip_quote_marker ls) in *. clearbody xs.
  destruct F as [[-> <-]|[-> F]], F' as [[-> <-]|[-> F']].
  - auto.
  - apply no_space_flush in Hf. rewrite (has_space_flush _ _ Hf' F') in Hf. discriminate.
  - apply no_space_flush in Hf'. rewrite (has_space_flush _ _ Hf F) in Hf'. discriminate.
  - split; [reflexivity|]. clear - F F'. revert lines' F'. induction F as [|l x lines xs H _ IH]; intros lines' F'.
    + inversion F'. reflexivity.
    + inversion F' as [|l' ? lines1 ? H' F1]; subst. f_equal; [|apply IH; exact F1].
      destruct H as [->|[-> ->]], H' as [H'|[-> H']]; congruence.
Qed.

(** What the inner texts say is determined by their lines. *)
Definition determined (inner inner' : width -> list tree -> list section -> Prop) : Prop :=
  forall w w' ts ts' secs secs', inner w ts secs -> inner' w' ts' secs' ->
  lines_of secs = lines_of secs' -> Forall good (lines_of secs) -> ts = ts'.

Lemma listing_unique (P P' : list tree -> list section -> Prop) n ms es secss tss n' ms' secss' tss' :
  (forall ts ts' secs secs', P ts secs -> P' ts' secs' -> lines_of secs = lines_of secs' -> Forall good (lines_of secs) -> ts = ts') ->
  listing P n ms es secss tss -> listing P' n' ms' es secss' tss' -> Forall good (concat es) -> tss = tss'.
Proof.
  intros D H. revert n' ms' secss' tss'.
  induction H as [n|n ws m ts secs e ms es secss tss Hn He Hi _ H IH]; intros n' ms' secss' tss' H' Hg.
  - inversion H'. reflexivity.
  - inversion H' as [|? ws' m' ts' secs' ? ? ? ? ? Hn' He' Hi' _ H1]; subst.
    cbn [concat] in Hg. apply Forall_app in Hg. destruct Hg as [Hg1 Hg2].
    assert (E : lines_of secs = lines_of secs').
    { apply entry_dedent in He. apply entry_dedent in He'. congruence. }
    f_equal; [|eapply IH; eauto]. apply (D ts ts' secs secs' Hi Hi' E).
    eapply suffixes_good; [eapply entry_suffixes; exact He|exact Hg1].
Qed.

Lemma app_same_length {A} (a b c d : list A) : length a = length c -> a ++ b = c ++ d -> a = c.
Proof.
  revert c. induction a as [|x a IH]; intros [|y c] L E; cbn in *; try discriminate; [reflexivity|].
  injection E as -> E. f_equal. apply IH; [lia|exact E].
Qed.

Lemma entries_unique (P P' : list tree -> list section -> Prop) n m ms tss n' m' ms' tss' ls :
  entry_text P -> entry_text P' ->
  (forall ts ts' secs secs', P ts secs -> P' ts' secs' -> lines_of secs = lines_of secs' -> Forall good (lines_of secs) -> ts = ts') ->
  entries P n (m :: ms) tss ls -> entries P' n' (m' :: ms') tss' ls -> Forall good ls -> m = m' /\ tss = tss'.
Proof.
  intros T T' D H H' Hg. split.
  - destruct (entries_first P n m ms tss ls T H) as (ws & l & more & E & Hw & _ & Hm & _).
    destruct (entries_first P' n' m' ms' tss' ls T' H') as (ws' & l' & more' & E' & Hw' & _ & Hm' & _).
    rewrite E in E'. injection E' as E' _. destruct (marker_head m Hm) as (c & m1 & -> & Hc).
    destruct (marker_head m' Hm') as (c' & m1' & -> & Hc').
    assert (U := E'). cbn [app] in U. apply first_char_unique in U; auto. destruct U as (-> & _ & _).
    assert (A1 : marked (ws' ++ (c :: m1) ++ c_sp :: l) ws' (c :: m1) (c_sp :: l)) by (repeat split; eauto).
    assert (A2 : marked (ws' ++ (c' :: m1') ++ c_sp :: l') ws' (c' :: m1') (c_sp :: l')) by (repeat split; eauto).
    apply marker_end_marked in A1, A2. rewrite E' in A1. rewrite A1 in A2. injection A2 as A2.
    rewrite !app_length in A2. assert (L : length (c :: m1) = length (c' :: m1')) by lia.
    apply app_inv_head in E'. eapply app_same_length; eauto.
  - destruct (entries_listing _ _ _ _ _ H) as (es & secss & -> & L).
    destruct (entries_listing _ _ _ _ _ H') as (es' & secss' & E & L').
    assert (N := good_no_nl _ Hg).
    destruct (split_list_entries _ _ _ _ _ _ _ T L N) as [S _]. rewrite E in N, S.
    destruct (split_list_entries _ _ _ _ _ _ _ T' L' N) as [S' _]. rewrite S' in S. injection S as ->.
    eapply listing_unique; eauto.
Qed.

Lemma doc_unique inner inner' w w' ts ts' secs :
  inner_lines inner -> inner_lines inner' -> determined inner inner' ->
  doc inner w ts secs -> doc inner' w' ts' secs -> Forall good (lines_of secs) -> ts = ts'.
Proof.
  intros I I' D H. revert ts'. induction H as [|t ts ty ls next Hb Ho He H IH]; intros ts' H' Hg.
  - inversion H'. reflexivity.
  - inversion H' as [|t' ts1 ? ? ? Hb' _ _ H1]; subst. rewrite lines_of_cons in Hg. apply Forall_app in Hg.
    destruct Hg as [Hg1 Hg2]. f_equal; [|apply IH; assumption]. clear IH H H' H1 He Ho Hg2.
    assert (Leaf_ok : (exists p, t = Leaf p /\ content ty ls p) -> (exists p, t' = Leaf p /\ content ty ls p) -> t = t').
    { intros (p & -> & C) (p' & -> & C'). f_equal. eapply content_unique; eauto. }
    destruct ty; cbn [nblock] in Hb, Hb'; try (destruct Hb as (_ & Hb & _), Hb' as (_ & Hb' & _); auto; fail).
    + destruct Hb as (us & p & secs & -> & Q & Hi), Hb' as (us' & p' & secs' & -> & Q' & Hi').
      destruct (quoting_unique _ _ _ _ _ Q Q') as [-> E].
      destruct (narrower_exists w (Z.of_nat (length p'))) as (v & V).
      destruct (narrower_exists w' (Z.of_nat (length p'))) as (v' & V').
      f_equal. apply (D v v' us us' secs secs' (Hi v V) (Hi' v' V') E).
      destruct Q as (Hp & _ & F & _). eapply suffixes_good; [|exact Hg1].
      fold (lines_of secs) in F. clear - F. revert F. generalize (lines_of secs) as lines. intros lines F. induction F as [|l' l lines ls Hq _ IH]; constructor; [|exact IH].
      destruct Hq as (k & _ & [->|[-> ->]]); [exists (repeat c_sp k ++ p'); rewrite <- app_assoc; reflexivity|].
      eexists. symmetry. apply app_nil_r.
    + destruct Hb as (b & tss & ms & -> & _ & E), Hb' as (b' & tss' & ms' & -> & _ & E').
      destruct (entries_unique _ _ _ _ _ _ _ _ _ _ _ (entry_text_narrower _ _ _ I) (entry_text_narrower _ _ _ I') ltac:(
        intros us us' secs secs' Hi Hi' El Hl; destruct (narrower_exists w 2) as (v & V); destruct (narrower_exists w' 2) as (v' & V');
        exact (D v v' us us' secs secs' (Hi v V) (Hi' v' V') El Hl)) E E' Hg1) as [Eb ->].
      congruence.
    + destruct Hb as (ds & tss & ms & first & last & -> & _ & _ & _ & _ & E), Hb' as (ds' & tss' & ms' & first' & last' & -> & _ & _ & _ & _ & E').
      destruct (entries_unique _ _ _ _ _ _ _ _ _ _ _ (entry_text_narrower _ _ _ I) (entry_text_narrower _ _ _ I') ltac:(
        intros us us' secs secs' Hi Hi' El Hl; destruct (narrower_exists w (Z.of_nat (length last) + 2)) as (v & V);
        destruct (narrower_exists w' (Z.of_nat (length last') + 2)) as (v' & V');
        exact (D v v' us us' secs secs' (Hi v V) (Hi' v' V') El Hl)) E E' Hg1) as [Eb ->].
      apply app_inj_tail in Eb. destruct Eb as [-> _]. reflexivity.
Qed.

Lemma nested_doc depth : exists inner, nested depth = doc inner /\ inner_lines inner.
Proof.
  destruct depth as [|depth]; cbn [nested]; eexists; (split; [reflexivity|]).
  - intros w ts secs [].
  - apply nested_ok.
Qed.

Lemma nested_determined depth depth' : determined (nested depth) (nested depth').
Proof.
  assert (P : forall depth w ts secs, nested depth w ts secs -> Forall good (lines_of secs) ->
    forall lim, 2 * size (lines_of secs) + 3 <= lim -> parse_markdown lim (lines_of secs) = Ok secs).
  { intros d w ts secs H Hg lim Hl. destruct (nested_doc d) as (inner & Ed & I). rewrite Ed in H.
    apply (doc_parse inner I w lim ts secs H); [|exact Hl]. eapply Forall_impl; [|exact Hg]. apply good_quotable. }
  assert (S : forall d d' w w' ts ts' secs secs', nested d w ts secs -> nested d' w' ts' secs' ->
    lines_of secs = lines_of secs' -> Forall good (lines_of secs) -> secs = secs').
  { intros d d' w w' ts ts' secs secs' H H' E Hg. specialize (P d w ts secs H Hg _ (le_n _)) as P1.
    rewrite E in P1, Hg. specialize (P d' w' ts' secs' H' Hg _ (le_n _)) as P2. congruence. }
  revert depth'. induction depth as [|depth IH]; intros depth' w w' ts ts' secs secs' H H' E Hg.
  - assert (secs = secs') by (eapply S; eauto). subst secs'. destruct (nested_doc depth') as (inner & Ed & I). rewrite Ed in H'.
    eapply (doc_unique (fun _ _ _ => False) inner w w' ts ts' secs); eauto; [intros ? ? ? []|intros ? ? ? ? ? ? []].
  - assert (secs = secs') by (eapply S; eauto). subst secs'. cbn [nested] in H. destruct depth' as [|depth']; cbn [nested] in H'.
    + eapply (doc_unique (nested depth) (fun _ _ _ => False) w w' ts ts' secs); eauto; [apply nested_ok|intros ? ? ? []|intros ? ? ? ? ? ? _ []].
    + eapply (doc_unique (nested depth) (nested depth') w w' ts ts' secs); eauto; apply nested_ok.
Qed.

(** What a document says is determined by its lines. *)
Theorem C66_says_one_thing : forall depth depth' w w' ts ts' secs secs',
  nested depth w ts secs -> nested depth' w' ts' secs' ->
  concat (map snd secs) = concat (map snd secs') -> Forall plain_indent (concat (map snd secs)) ->
  ts = ts' /\ map fst secs = map fst secs'.
Proof.
  intros depth depth' w w' ts ts' secs secs' H H' E Hi.
  assert (Hg : Forall good (lines_of secs)).
  { destruct (nested_doc depth) as (inner & Ed & I). assert (H1 := H). rewrite Ed in H1. apply doc_one_line in H1.
    fold (lines_of secs) in Hi. rewrite Forall_forall in *. intros l Hl. split; auto. }
  split; [eapply nested_determined; eauto|].
  destruct (nested_doc depth) as (inner & Ed & I). rewrite Ed in H.
  destruct (nested_doc depth') as (inner' & Ed' & I'). rewrite Ed' in H'.
  assert (Q : Forall quotable (lines_of secs)) by (eapply Forall_impl; [|exact Hg]; apply good_quotable).
  assert (P1 := doc_parse inner I w _ ts secs H Q (le_n _)). fold (lines_of secs) in E. fold (lines_of secs') in E. rewrite E in P1, Q.
  assert (P2 := doc_parse inner' I' w' _ ts' secs' H' Q (le_n _)). congruence.
Qed.

(** * The output *)

Lemma nested_inner depth : exists inner, nested depth = doc inner /\ inner_lines inner /\ widths inner /\ formats inner /\ shifts inner.
Proof.
  destruct depth as [|depth]; cbn [nested]; eexists; (split; [reflexivity|]).
  - split; [intros w ts secs []|]. split; [intros w w' ts secs _ []|]. split; [intros w ts secs []|intros w ts secs d _ []].
  - destruct (nested_ok depth) as (I1 & I2 & I3). do 3 (split; [assumption|]). destruct depth as [|depth]; apply doc_shifts.
Qed.

Lemma doc_front inner w front blanks ts :
  doc inner w ts (front ++ blanks) -> Forall (fun s => fst s = BLANK_LINE) blanks ->
  (forall f ls, front <> f ++ [(LINK_REFERENCE_DEFINITION, ls)]) ->
  exists ts', doc inner w ts' front /\ ts = ts' ++ repeat (Leaf Blank) (length blanks).
Proof.
  revert ts. induction front as [|[ty ls] front IH]; intros ts H Hb Hl.
  - exists []. split; [constructor|]. cbn [app] in *. revert ts H.
    induction Hb as [|[ty ls] blanks E _ IH]; intros ts H; [inversion H; reflexivity|].
    cbn in E. subst ty. inversion H as [|t ts1 ? ? ? Hbl _ _ H1]; subst. cbn [length repeat].
    f_equal; [|apply IH; exact H1]. destruct Hbl as (_ & (p & -> & C) & _). f_equal.
    apply content_kind in C. destruct p; try discriminate. reflexivity.
  - cbn [app] in H. inversion H as [|t ts1 ? ? ? Hbl Ho He Hs]; subst.
    destruct (IH _ Hs Hb) as (ts' & D & ->).
    { intros f l ->. apply (Hl ((ty, ls) :: f) l). reflexivity. }
    exists (t :: ts'). split; [|reflexivity]. constructor; [exact Hbl|exact Ho| |exact D].
    destruct ty; cbn [nends ends_before] in *; auto; try (intros ty' ls' n ->; eapply He; reflexivity).
    + destruct He as [[L He]|(final & next' & E & He)].
      * left. split; [exact L|]. eapply no_code_app. exact He.
      * destruct front as [|s front].
        -- cbn [app] in E. subst blanks. apply Forall_inv in Hb. discriminate.
        -- injection E as -> <-. right. exists final, front. split; [reflexivity|]. eapply no_code_app. exact He.
    + destruct front as [|s front]; [exfalso; apply (Hl [] ls); reflexivity|].
      destruct He as (ty' & ls' & n & E & He). injection E as -> _. exists ty', ls', front. auto.
Qed.

Lemma nblock_last inner w t ty ls : inner_lines inner -> nblock inner w t ty ls -> ty <> BLANK_LINE ->
  (ty = INDENTED_CODE_BLOCK -> length ls = 1) -> exists fr l, ls = fr ++ [l] /\ l <> [].
Proof.
  intros I Hb Ht Hi.
  assert (A : forall P : str -> Prop, (forall l, P l -> l <> []) -> ls <> [] -> Forall P ls -> exists fr l, ls = fr ++ [l] /\ l <> []).
  { intros P HP Hn H. destruct (exists_last Hn) as (fr & l & ->). exists fr, l. split; [reflexivity|].
    apply Forall_app in H. destruct H as [_ H]. apply HP. exact (Forall_inv H). }
  assert (Hh : ls <> []).
  { destruct (nblock_headed inner I w t ty ls Hb) as (l & more & E & _). cbn in E. subst ls. discriminate. }
  assert (M : forall a (c : char) (b : str), a ++ c :: b <> []) by (intros [|? ?] ? ?; discriminate).
  assert (R : forall cs l, row_of cs l -> l <> []).
  { intros cs l (ws & ws' & -> & _). apply M. }
  assert (T : forall l, text_line l -> l <> []).
  { intros l (_ & (wd & more & E & _) & _) ->. discriminate. }
  destruct ty; cbn [nblock] in Hb; try contradiction;
    try match type of Hb with block _ _ /\ _ => destruct Hb as (Hb & _); cbn [block] in Hb end.
  - destruct Hb as (l & -> & ws & b & -> & _). exists [], (ws ++ c_hash :: b). auto.
  - destruct Hb as (ts & p & secs & _ & Hq & _). apply (A quote_line); auto; [|eapply quoting_lines; exact Hq].
    intros l (ws & b & -> & _). apply M.
  - destruct Hb as (b & tss & ms & _ & _ & H). apply (A entry_line); auto; [apply entry_line_ne|].
    eapply entries_lines; [|exact H]. apply entry_text_narrower. exact I.
  - destruct Hb as (ws & c & n & info & body & close & -> & _ & _ & Hn & _ & _ & (u & v & -> & _) & _).
    exists ((ws ++ repeat c n ++ info) :: body), (u ++ repeat c n ++ v). split; [reflexivity|].
    destruct n as [|n]; [lia|]. apply M.
  - destruct Hb as (l & more & -> & (ws & c & b & -> & _) & _). specialize (Hi eq_refl). destruct more; [|discriminate].
    exists [], (ws ++ c :: b). auto.
  - destruct Hb as (l & body & link & -> & (ws & label & -> & _) & _). eexists [], _. split; [reflexivity|apply M].
  - destruct Hb as (ds & tss & ms & first & last & _ & _ & _ & _ & _ & H). apply (A entry_line); auto; [apply entry_line_ne|].
    eapply entries_lines; [|exact H]. apply entry_text_narrower. exact I.
  - destruct Hb as (l & rest & -> & _ & H & _). apply (A text_line); auto.
  - destruct Hb as (text & u & -> & _ & (c & n & ws & ws' & -> & _)). exists text, (ws ++ repeat c (S n) ++ ws'). split; [reflexivity|apply M].
  - destruct Hb as (header & divider & body & hs & ds & bss & -> & _ & (ws & ws' & -> & _) & Hd & Hr & _).
    apply (A (fun l => l <> [])); auto. constructor; [apply M|]. constructor; [eapply R; exact Hd|].
    clear -Hr R. induction Hr; constructor; eauto.
  - destruct Hb as (l & -> & (c & ws & b & -> & _) & _). exists [], (ws ++ c :: b). auto.
Qed.

Lemma doc_last inner w ts f ty ls : doc inner w ts (f ++ [(ty, ls)]) -> exists t, nblock inner w t ty ls /\ nends ty ls [].
Proof.
  revert ts. induction f as [|s f IH]; intros ts H; cbn [app] in H; inversion H; subst; [eauto|].
  eapply IH. eassumption.
Qed.

Lemma doc_blanks inner w ts secs : doc inner w ts secs -> Forall (fun s => fst s = BLANK_LINE) secs ->
  Forall (fun s => exists l, snd s = [l] /\ blank_line l) secs.
Proof.
  induction 1 as [|t ts ty ls next Hb Ho He H IH]; intros Hf; [constructor|]. inversion Hf as [|? ? E Hf']; subst.
  cbn in E. subst ty. constructor; [exact (proj1 Hb)|auto].
Qed.

Lemma blanks_document secs : Forall (fun s => exists l, snd s = [l] /\ blank_line l) secs -> spaces (document secs).
Proof.
  induction 1 as [|[ty ls] next (l & E & Hl) _ IH]; [constructor|]. cbn in E. subst ls.
  unfold document in *. cbn [map snd concat app].
  change (newline_terminated (l :: ?x)) with ((l ++ [c_nl]) ++ newline_terminated x).
  apply Forall_app. split; [|exact IH]. apply Forall_app. split; [exact Hl|repeat constructor].
Qed.

Lemma doc_app_r inner w ts a b : doc inner w ts (a ++ b) -> exists ts', doc inner w ts' b.
Proof.
  revert ts. induction a as [|s a IH]; intros ts H; cbn [app] in H; [eauto|]. inversion H; subst. eapply IH. eassumption.
Qed.

Lemma section_texts_front lim w i a b ta tb : section_texts lim w i (a ++ b) (ta ++ tb) -> length ta = length a ->
  section_texts lim w i a ta.
Proof.
  revert i ta. induction a as [|s a IH]; intros i [|t ta] H L; try discriminate; [constructor|].
  cbn [app] in H. inversion H; subst. constructor; [assumption|]. eapply IH; [eassumption|]. cbn in L. lia.
Qed.

(** What is written for a nested document is itself a nested document, says the same up to
    blank lines at its end, and is formatted to itself. (As in C03, no definition of a link
    may be the last section that is not blank.) *)
Theorem C66_output_is_fixed : forall depth w ts secs text,
  nested depth w ts secs -> secs <> [] -> splitlines text = concat (map snd secs) ->
  Forall plain_indent (splitlines text) ->
  (forall before ls after, secs = before ++ (LINK_REFERENCE_DEFINITION, ls) :: after ->
     exists s, In s after /\ fst s <> BLANK_LINE) ->
  exists n secs' k ts', nested depth w ts' secs'
    /\ map fst secs = map fst secs' ++ repeat BLANK_LINE k /\ ts = ts' ++ repeat (Leaf Blank) k
    /\ Forall plain_indent (splitlines (document secs'))
    /\ forall lim, n <= lim ->
       reformat_markdown_text lim text w = Ok (document secs')
       /\ reformat_markdown_text lim (document secs') w = Ok (document secs')
       /\ parse_markdown lim (splitlines (document secs')) = Ok secs'.
Proof.
  intros depth w ts secs text H Hn E Hi Hlrd. destruct (nested_inner depth) as (inner & En & I1 & I2 & I3 & I4).
  rewrite En in H |- *.
  assert (Hg : Forall good (lines_of secs)).
  { assert (Ho := doc_one_line inner w ts secs H). rewrite E in Hi. rewrite Forall_forall in *. intros l Hx. split; auto. }
  destruct (doc_reformats inner I1 I2 I3 I4 w ts secs H Hn Hg) as (secs' & R & F & _).
  assert (H' := reformats_inner _ _ _ _ R). assert (Hg' := reformats_good _ _ _ _ R). assert (Ht' := reformats_tidy _ _ _ _ R).
  destruct (reformats_pass _ _ _ _ R) as (N & HN). destruct (nsection_texts inner w secs secs' F) as (N' & HN').
  assert (Et : forall lim, reformat_pass lim text w = reformat_pass lim (document secs) w).
  { intros [|lim]; [reflexivity|]. cbn [reformat_pass]. rewrite E.
    assert (Es : splitlines (document secs) = lines_of secs) by (apply splitlines_newline_terminated; eapply doc_one_line; exact H).
    rewrite Es. reflexivity. }
  assert (Ty : map fst secs' = map fst secs) by exact (similar_types _ _ (reformats_similar _ _ _ _ R)).
  assert (Go : forall front blanks ts' k, secs' = front ++ blanks -> doc inner w ts' front -> front <> [] ->
    map fst secs' = map fst front ++ repeat BLANK_LINE k -> ts = ts' ++ repeat (Leaf Blank) k ->
    rstrip (document secs') ++ [c_nl] = document front -> rstrip (document front) ++ [c_nl] = document front ->
    exists n secs' k ts', doc inner w ts' secs'
    /\ map fst secs = map fst secs' ++ repeat BLANK_LINE k /\ ts = ts' ++ repeat (Leaf Blank) k
    /\ Forall plain_indent (splitlines (document secs'))
    /\ forall lim, n <= lim ->
       reformat_markdown_text lim text w = Ok (document secs')
       /\ reformat_markdown_text lim (document secs') w = Ok (document secs')
       /\ parse_markdown lim (splitlines (document secs')) = Ok secs').
  { intros front blanks ts' k E' D Hne Ek Etk D1 D2.
    exists (S (N + N' + 2 * size (lines_of front) + 3)), front, k, ts'. split; [exact D|]. split; [congruence|]. split; [exact Etk|].
    assert (Gf : Forall good (lines_of front)).
    { rewrite E' in Hg'. unfold lines_of in Hg'. rewrite map_app, concat_app in Hg'. apply Forall_app in Hg'. apply Hg'. }
    assert (Sf : splitlines (document front) = lines_of front) by (apply splitlines_newline_terminated; eapply doc_one_line; exact D).
    split; [rewrite Sf; eapply Forall_impl; [|exact Gf]; intros l [_ Hl]; exact Hl|]. intros lim L.
    split; [|split].
    - unfold reformat_markdown_text. destruct (HN lim ltac:(lia)) as [P1 P2]. rewrite Et, P1. cbn [bind]. rewrite P2. cbn [bind].
      rewrite str_eqb_refl, D1. reflexivity.
    - assert (P : reformat_pass lim (document front) w = Ok (document front)).
      { destruct lim as [|lim]; [lia|]. eapply doc_pass; try eassumption; [reflexivity|lia|].
        intros i. destruct (HN' lim ltac:(lia) i) as [_ T]. rewrite E', map_app in T. eapply section_texts_front; [exact T|].
        rewrite map_length. reflexivity. }
      unfold reformat_markdown_text. rewrite P. cbn [bind]. rewrite P. cbn [bind]. rewrite str_eqb_refl, D2. reflexivity.
    - rewrite Sf. eapply doc_parse; [exact I1|exact D| |lia]. eapply Forall_impl; [|exact Gf]. apply good_quotable. }
  destruct (split_blanks secs') as (front & blanks & E' & Hb & Hf).
  assert (Sb : Forall (fun s => exists l, snd s = [l] /\ blank_line l) blanks).
  { rewrite E' in H'. destruct (doc_app_r _ _ _ _ _ H') as (tb & Hb'). eapply doc_blanks; eassumption. }
  assert (Kb : map fst blanks = repeat BLANK_LINE (length blanks)).
  { clear -Hb. induction Hb as [|s l E _ IH]; [reflexivity|]. cbn [map length repeat]. rewrite E, IH. reflexivity. }
  destruct Hf as [->|(f & [ty ls] & -> & Hty)].
  - cbn [app] in E'. subst secs'. destruct blanks as [|[ty ls] blanks]; [exfalso; apply (reformats_ne _ _ _ _ R); reflexivity|].
    assert (Hty := Forall_inv Hb). cbn in Hty. subst ty. destruct (Forall_inv Sb) as (l & El & Hl). cbn in El. subst ls.
    assert (l = []).
    { assert (T := Forall_inv Ht'). cbn in T. destruct l as [|c l _] using rev_ind; [reflexivity|].
      specialize (T l c eq_refl). apply Forall_app in Hl. destruct Hl as [_ Hl]. apply Forall_inv in Hl. congruence. }
    subst l. destruct (doc_front inner w [] ((BLANK_LINE, [[]]) :: blanks) ts H' Hb) as (ts' & D & Ets).
    { intros [|? ?] ?; discriminate. }
    inversion D; subst ts'. cbn [app] in Ets.
    apply (Go [(BLANK_LINE, [[]])] blanks [Leaf Blank] (length blanks)); [reflexivity| |discriminate| | | |reflexivity].
    + rewrite Ets in H'. cbn [length repeat] in H'. inversion H' as [|t ts1 ? ? ? Hbl Ho He Hs].
      constructor; [exact Hbl|exact Ho|exact Logic.I|constructor].
    + exact Kb.
    + exact Ets.
    + unfold rstrip. rewrite <- (app_nil_l (document _)). rewrite rstrip_by_app by (apply spaces_forallb, blanks_document; exact Sb). reflexivity.
  - assert (Hl : forall f0 ls0, f ++ [(ty, ls)] <> f0 ++ [(LINK_REFERENCE_DEFINITION, ls0)]).
    { intros f0 ls0 Ef. apply app_inj_tail in Ef. destruct Ef as [<- Ef]. injection Ef as -> ->.
      assert (S := reformats_similar _ _ _ _ R). rewrite E', <- app_assoc in S. cbn [app] in S.
      apply Forall2_app_inv_r in S. destruct S as (a & b & _ & S & ->).
      inversion S as [|[ty0 l0] ? b' ? (Et0 & _) S']; subst. cbn in Et0. subst ty0.
      destruct (Hlrd a l0 b' eq_refl) as (x & Hx & Nx). apply Nx. clear -S' Hb Hx.
      revert Hx. induction S' as [|y y' b' blanks (Ey & _) _ IH]; intros Hx; [destruct Hx|]. inversion Hb; subst.
      destruct Hx as [->|Hx]; [congruence|auto]. }
    rewrite E' in H'. destruct (doc_front inner w _ blanks ts H' Hb Hl) as (ts' & D & Ets).
    destruct (doc_last _ _ _ _ _ _ D) as (t & B & He).
    destruct (nblock_last _ _ _ _ _ I1 B Hty) as (fr & l & -> & Hne).
    { intros ->. destruct He as [[L _]|(? & ? & ? & _)]; [exact L|discriminate]. }
    destruct l as [|c l _] using rev_ind; [congruence|].
    assert (Hc : is_space c = false).
    { rewrite Forall_forall in Ht'. apply (Ht' (l ++ [c])) with (s := l); [|reflexivity].
      rewrite E'. unfold lines_of. rewrite !map_app, !concat_app. cbn [map snd concat]. rewrite !in_app_iff. cbn. tauto. }
    apply (Go (f ++ [(ty, fr ++ [l ++ [c]])]) blanks ts' (length blanks)); auto.
    + destruct f; discriminate.
    + rewrite E', <- Kb. apply map_app.
    + eapply document_rstrip; [exact E'|exact Hc|apply blanks_document; exact Sb].
    + eapply (document_rstrip _ _ _ _ _ _ []); [rewrite app_nil_r; reflexivity|exact Hc|constructor].
Qed.

(** A list in a quote, and a list and a quote in its entries. *)
Definition ex_nested : list section :=
  [(ATX_HEADING, [lit "#  Title"]); (BLANK_LINE, [[]]);
   (BLOCK_QUOTE, [lit "> some words"; lit "> of a   quote"; lit ">";
                  lit "> 3. first entry"; lit ">   and more"; lit ">    * inner"; lit "> 7. > deep"; lit ">    > down"]);
   (BLANK_LINE, [[]]); (PARAGRAPH, [lit "the end"])].

Definition ex_says : list tree :=
  [Leaf (Heading 1 (lit "Title")); Leaf Blank;
   Quote (lit "> ") [Leaf (Text (words_as_pieces (map lit ["some"; "words"; "of"; "a"; "quote"]%string))); Leaf Blank;
          Numbered 3 [[Leaf (Text (words_as_pieces (map lit ["first"; "entry"; "and"; "more"]%string)));
                       Bullets c_star [[Leaf (Text (words_as_pieces [lit "inner"]))]]];
                      [Quote (lit "> ") [Leaf (Text (words_as_pieces [lit "deep"; lit "down"]))]]]];
   Leaf Blank; Leaf (Text (words_as_pieces [lit "the"; lit "end"]))].

Lemma ex_text inner w ls next ts ws :
  forallb lettered ls = true -> nilb ls = false -> is_indented_code_block_start_line (hd [] ls) = false ->
  ws = words_as_pieces (concat (map words ls)) ->
  (forall ty' ls' next', next = (ty', ls') :: next' -> In ty' [BLANK_LINE; BULLET_LIST]) ->
  doc inner w ts next -> doc inner w (Leaf (Text ws) :: ts) ((PARAGRAPH, ls) :: next).
Proof.
  intros H1 H2 H3 -> He Hd. destruct (lettered_text ls H1) as [T O].
  assert (P := words_text ls T O). assert (L := lettered_plain ls H1 H2 H3). rewrite forallb_forall in H1.
  constructor; [| | |exact Hd].
  - split; [exact L|]. split; [|split; discriminate]. eexists. split; [reflexivity|]. split; [reflexivity|exact P].
  - apply Forall_forall. intros l Hl. specialize (H1 l Hl). unfold lettered in H1.
    apply Bool.andb_true_iff in H1. destruct H1 as [H1 _]. apply Bool.andb_true_iff in H1. destruct H1 as [H1 _].
    rewrite forallb_forall in H1. apply Forall_forall. intros c Hc. specialize (H1 c Hc).
    apply Bool.orb_true_iff in H1. destruct H1 as [H1|H1]; [apply N.eqb_eq in H1; subst c; reflexivity|].
    apply Bool.andb_true_iff in H1. destruct H1 as [L1 L2]. apply N.leb_le in L1, L2.
    unfold is_linebreak. cbn.
    repeat (apply Bool.orb_false_iff; split); try (apply N.eqb_neq; lia); try (apply Bool.andb_false_iff; rewrite !N.leb_gt; lia).
  - intros ty' ls' next' E. specialize (He ty' ls' next' E). cbn in He. split; [cbn; intuition congruence|].
    intros ->. intuition discriminate.
Qed.

Lemma ex_blank inner w next ts : doc inner w ts next -> doc inner w (Leaf Blank :: ts) ((BLANK_LINE, [[]]) :: next).
Proof.
  intros H. constructor; [| |exact I|exact H].
  - split; [exists []; split; [reflexivity|constructor]|]. split; [exists Blank; split; reflexivity|]. split; discriminate.
  - repeat constructor.
Qed.

Lemma ex_one_line ls : forallb (forallb (fun c => negb (is_linebreak c))) ls = true -> Forall one_line ls.
Proof.
  intros H. apply Forall_forall. intros l Hl. apply Forall_forall. intros c Hc. rewrite forallb_forall in H.
  specialize (H l Hl). rewrite forallb_forall in H. apply Bool.negb_true_iff. auto.
Qed.

Lemma ex_steady ls : forallb (fun l => negb (endswith [c_sp; c_sp] l) && negb (existsb (N.eqb c_colon) l)) ls = true ->
  Forall (fun l => ~ stops_short l) ls.
Proof.
  intros H. apply Forall_forall. intros l Hl. rewrite forallb_forall in H. specialize (H l Hl).
  apply Bool.andb_true_iff in H. destruct H as [H1 H2]. apply Bool.negb_true_iff in H1, H2. intros [(p & E)|(p & ws & E & _)].
  - assert (G : endswith [c_sp; c_sp] l = true) by (apply endswith_spec; exists p; exact E). congruence.
  - assert (G : existsb (N.eqb c_colon) l = true); [|congruence]. apply existsb_exists. exists c_colon.
    split; [|reflexivity]. rewrite E. apply in_or_app. right. right. left. reflexivity.
Qed.

Lemma ex_further n ls :
  forallb (fun l => match marker_end l with None => true | Some _ => n <? length l - length (lstrip l) end) ls = true ->
  Forall (fun x => forall ws' m' body, marked x ws' m' body -> n < length ws') ls.
Proof.
  intros H. apply Forall_forall. intros l Hl ws' m' body M. rewrite forallb_forall in H. specialize (H l Hl).
  rewrite (marker_end_marked _ _ _ _ M) in H. apply Nat.ltb_lt in H. destruct M as (-> & Hw & Hm & _).
  destruct (marker_head m' Hm) as (c & m & -> & Hc). cbn [app] in H. rewrite lstrip_app in H by auto.
  rewrite app_length in H. lia.
Qed.

Lemma ex_nested_ok w : nested 3 w ex_says ex_nested.
Proof.
  cbn [nested]. unfold ex_says, ex_nested.
  apply doc_next; [| |exact I|].
  { split; [exists (lit "#  Title"); split; [reflexivity|apply atx_spec; vm_compute; reflexivity]|].
    split; [|split; [intros _|discriminate]].
    - exists (Heading 1 (lit "Title")). split; [reflexivity|]. split; [reflexivity|]. exists [], (lit "  Title").
      split; [reflexivity|]. split; [constructor|]. split; [lia|]. split; [discriminate|]. apply trims_strip. vm_compute. reflexivity.
    - constructor; [|constructor]. exists [], 1, (lit "  Title"). split; [reflexivity|]. split; [constructor|]. split; [lia|].
      split; [discriminate|]. intros H. apply Forall_inv_tail, Forall_inv_tail, Forall_inv in H. discriminate. }
  { apply ex_one_line. vm_compute. reflexivity. }
  apply ex_blank. apply doc_next.
  { eexists. exists (lit "> "). eexists. split; [reflexivity|]. split.
    - instantiate (1 := [(PARAGRAPH, [lit "some words"; lit "of a   quote"]); (BLANK_LINE, [[]]);
        (ORDERED_LIST, [lit "3. first entry"; lit "  and more"; lit "   * inner"; lit "7. > deep"; lit "   > down"])]).
      split; [right; left; reflexivity|]. split; [|split; [|split; [do 2 eexists; reflexivity|apply ex_steady; vm_compute; reflexivity]]].
      + exists []. do 3 eexists. split; [reflexivity|]. split; [constructor|reflexivity].
      + cbn [map concat snd app]. do 2 (constructor; [exists 0; split; [lia|left; reflexivity]|]).
        constructor; [exists 0; split; [lia|right; split; reflexivity]|].
        repeat (constructor; [exists 0; split; [lia|left; reflexivity]|]). constructor.
    - intros w1 _. apply ex_text; try (vm_compute; reflexivity).
      { intros ty' ls' next' E. injection E as <- _ _. left. reflexivity. }
      apply ex_blank. apply doc_next; [|apply ex_one_line; vm_compute; reflexivity|discriminate|constructor].
      exists (lit "3"). do 2 eexists. exists (lit "3"), (lit "4"). split; [reflexivity|].
      split; [split; [discriminate|repeat constructor]|]. split; [split; [|]|split].
      4: split; [left; reflexivity|].
      { split; [discriminate|repeat constructor]. }
      { split; [reflexivity|]. intros ds' E. injection E. discriminate. }
      { split; [split; [discriminate|repeat constructor]|]. split; [instantiate (1 := [lit "7."]); reflexivity|].
        intros ds' E. injection E. discriminate. }
      apply (entries_next _ _ [] (lit "3.") _ [(PARAGRAPH, [lit "first entry"; lit "and more"]); (BULLET_LIST, [lit "* inner"])]
               [lit "3. first entry"; lit "  and more"; lit "   * inner"] [lit "7."] _ [lit "7. > deep"; lit "   > down"]).
      { cbn. lia. }
      { do 3 eexists. split; [reflexivity|]. split; [reflexivity|]. split; [constructor|].
        split; [right; exists (lit "3"); split; [reflexivity|split; [discriminate|repeat constructor]]|]. split.
        - constructor; [exists (lit "  ")|constructor; [exists (lit "   ")|constructor]];
            (split; [reflexivity|]; split; [repeat constructor|]; split; [cbn; lia|]).
          + right. intros c r E. injection E as <- _. reflexivity.
          + left. reflexivity.
        - apply ex_further. vm_compute. reflexivity. }
      { intros w2 _. apply ex_text; try (vm_compute; reflexivity).
        { intros ty' ls' next' E. injection E as <- _ _. right. left. reflexivity. }
        apply doc_next; [|apply ex_one_line; vm_compute; reflexivity|discriminate|constructor].
        do 3 eexists. split; [reflexivity|]. split; [left; reflexivity|].
        apply (entries_next _ _ [] (lit "*") _ [(PARAGRAPH, [lit "inner"])] [lit "* inner"] [] [] []).
        - cbn. lia.
        - do 3 eexists. split; [reflexivity|]. split; [reflexivity|]. split; [constructor|].
          split; [left; exists c_star; split; [reflexivity|left; reflexivity]|]. split; constructor.
        - intros w3 _. apply ex_text; try (vm_compute; reflexivity); [discriminate|constructor].
        - constructor; [left; reflexivity|constructor].
        - constructor. }
      { constructor; [left; reflexivity|]. constructor; [do 2 right; left; reflexivity|constructor]. }
      apply (entries_next _ _ [] (lit "7.") _ [(BLOCK_QUOTE, [lit "> deep"; lit "> down"])]
               [lit "7. > deep"; lit "   > down"] [] [] []).
      { cbn. lia. }
      { do 3 eexists. split; [reflexivity|]. split; [reflexivity|]. split; [constructor|].
        split; [right; exists (lit "7"); split; [reflexivity|split; [discriminate|repeat constructor]]|]. split.
        - constructor; [exists (lit "   ")|constructor].
          split; [reflexivity|]. split; [repeat constructor|]. split; [cbn; lia|]. left. reflexivity.
        - apply ex_further. vm_compute. reflexivity. }
      { intros w2 _. apply doc_next; [|apply ex_one_line; vm_compute; reflexivity|discriminate|constructor].
        eexists. exists (lit "> "), [(PARAGRAPH, [lit "deep"; lit "down"])]. split; [reflexivity|]. split.
        - split; [right; left; reflexivity|]. split; [|split; [|split; [do 2 eexists; reflexivity|apply ex_steady; vm_compute; reflexivity]]].
          + exists []. do 3 eexists. split; [reflexivity|]. split; [constructor|reflexivity].
          + repeat (constructor; [exists 0; split; [lia|left; reflexivity]|]). constructor.
        - intros w3 _. apply ex_text; try (vm_compute; reflexivity); [discriminate|constructor]. }
      { constructor; [do 4 right; left; reflexivity|constructor]. }
      constructor. }
  { apply ex_one_line. vm_compute. reflexivity. }
  { intros ty' ls' next' E. injection E as <- <- <-. cbn. intuition discriminate. }
  apply ex_blank. apply ex_text; try (vm_compute; reflexivity); [discriminate|]. constructor.
Qed.

Example C66_nonvacuous :
  nested 3 (WInt 16) ex_says ex_nested
  /\ splitlines (document ex_nested) = concat (map snd ex_nested)
  /\ Forall plain_indent (splitlines (document ex_nested))
  /\ Forall (fun s => fst s <> LINK_REFERENCE_DEFINITION) ex_nested
  /\ reformat_markdown_text 30 (document ex_nested) (WInt 16)
     = Ok (newline_terminated
         [lit "# Title"; []; lit "> some words of"; lit "> a quote"; lit ">"; lit "> 3. first entry"; lit ">    and more";
          lit ">    * inner"; lit "> 4. > deep down"; []; lit "the end"]).
Proof.
  split; [apply ex_nested_ok|]. split; [vm_compute; reflexivity|].
  split; [|split; [repeat constructor; discriminate|vm_compute; reflexivity]].
  apply Forall_forall. intros l Hl a ws b E Hw. apply Forall_forall. intros c Hc. unfold spaces in Hw. rewrite Forall_forall in Hw.
  specialize (Hw c Hc).
  assert (G : forallb (fun l => forallb (fun c => negb (is_space c) || (c =? c_sp)%N) l) (splitlines (document ex_nested)) = true)
    by (vm_compute; reflexivity).
  rewrite forallb_forall in G. specialize (G l Hl). cbn beta in G. rewrite forallb_forall in G. specialize (G c).
  rewrite Hw in G. apply N.eqb_eq. apply G. rewrite E. apply in_or_app. right. apply in_or_app. left. exact Hc.
Qed.
