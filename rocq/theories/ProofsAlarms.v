(** The warnings of the parser have a reason. *)
From Coq Require Import String.
From Verif Require Import Py Regex Utils TextWrap Lines Detectors Formatters Logging Records Notices Base
  SpecLines SpecParser SpecFormat SpecList SpecQuote SpecDefinition SpecErrors SpecWidth SpecRecords SpecNotices
  ProofsLines ProofsShapes ProofsList ProofsPass ProofsParser ProofsDefinition ProofsLimit ProofsErrors PropsParser PropsLeaf PropsList PropsQuote PropsDefinition PropsLocal
  ProofsRecords ProofsNotices.
Local Open Scope nat_scope.

Lemma indented_by_indent l : blank l = false -> indented_by (get_indent l) l.
Proof.
  intros H. unfold get_indent, indented_by. fold (lstrip l).
  assert (G : forall s, forallb is_space s = false -> exists ws c r, s = ws ++ c :: r /\ spaces ws /\ is_space c = false /\ lstrip s = c :: r).
  { clear. induction s as [|c s IH]; [discriminate|]. intros H. cbn [forallb] in H.
    unfold lstrip. cbn [lstrip_by]. destruct (is_space c) eqn:Ec.
    - cbn [andb] in H. destruct (IH H) as (ws & d & r & -> & Hw & Hd & E). exists (c :: ws), d, r.
      split; [reflexivity|]. split; [constructor; assumption|]. split; [exact Hd|exact E].
    - exists [], c, s. split; [reflexivity|]. split; [constructor|]. auto. }
  assert (H' : forallb is_space l = false) by (apply Bool.not_true_iff_false; intros E; apply blank_spec in E; congruence).
  destruct (G l H') as (ws & c & r & El & Hw & Hc & E). exists ws, c, r. split; [exact El|]. split; [exact Hw|].
  split; [|exact Hc]. rewrite E, El, app_length. lia.
Qed.

Lemma indented_by_fun i j l : indented_by i l -> indented_by j l -> i = j.
Proof.
  intros (ws & c & r & E & Hw & <- & Hc) (ws' & c' & r' & E' & Hw' & <- & Hc').
  rewrite E in E'. clear E l. revert ws' Hw' E'. induction ws as [|x ws IH]; intros [|x' ws'] Hw' E'; cbn in E'.
  - reflexivity.
  - injection E' as <- _. inversion Hw'. congruence.
  - injection E' as -> _. inversion Hw. congruence.
  - injection E' as _ E'. cbn. f_equal. apply IH; [inversion Hw; assumption|inversion Hw'; assumption|exact E'].
Qed.

Lemma opens_not_blank l f : opens l f -> blank l = false.
Proof.
  intros (ws & c & n & info & -> & _ & Hc & Hn & _). apply Bool.not_true_iff_false. rewrite blank_spec, !forallb_app.
  destruct n as [|n]; [lia|]. cbn [repeat app forallb]. destruct Hc as [<-|[<-|[]]]; rewrite ?Bool.andb_false_r; discriminate.
Qed.

Lemma closes_not_blank o l f : opens o f -> closes f l -> blank l = false.
Proof.
  intros (ws & c & n & info & _ & _ & Hc & Hn & _ & ->) (a & b & -> & _ & _). apply Bool.not_true_iff_false. rewrite blank_spec, !forallb_app.
  destruct n as [|n]; [lia|]. cbn [repeat app forallb]. destruct Hc as [<-|[<-|[]]]; rewrite ?Bool.andb_false_r; discriminate.
Qed.

Lemma closes_strip o f l : opens o f -> str_eqb (strip l) f = true <-> closes f l.
Proof.
  intros (ws & c & n & info & _ & _ & Hc & Hn & _ & ->). rewrite str_eqb_eq.
  destruct n as [|n]; [lia|]. apply closes_spec. destruct Hc as [<-|[<-|[]]]; reflexivity.
Qed.

(** * Reasons in longer texts *)

Lemma over_indented_mono p t q m : over_indented t m -> over_indented (p ++ t ++ q) (length p + m).
Proof.
  intros (b & o & body & c & a & f & i & j & -> & -> & H). exists (p ++ b), o, body, c, (a ++ q), f, i, j.
  split; [rewrite <- !app_assoc; cbn [app]; rewrite <- !app_assoc; reflexivity|].
  split; [rewrite app_length; lia|exact H].
Qed.

Lemma lone_label_mono p t q m : lone_label t m -> lone_label (p ++ t ++ q) (length p + m).
Proof.
  intros (b & l & a & ws & -> & -> & H). exists (p ++ b), l, (a ++ q), ws.
  split; [rewrite <- !app_assoc; reflexivity|]. split; [rewrite app_length; lia|exact H].
Qed.

Lemma grounds_mono p t q a : grounds t a -> grounds (p ++ t ++ q) a.
Proof.
  destruct a as [n|n]; intros (m & H & Hn); exists (length p + m);
    (split; [|lia]); [apply over_indented_mono|apply lone_label_mono]; exact H.
Qed.

Definition founded (T : list str) (r : record) : Prop :=
  (r_logger r = LParser /\ r_level r = DEBUG) \/ exists T' a, peeks T T' /\ grounds T' a /\ sounds a r.

Lemma founded_mono p t q r : founded t r -> founded (p ++ t ++ q) r.
Proof.
  intros [H|(T' & a & Hp & Hg & Hs)]; [left; exact H|]. right.
  destruct Hp as [t|t b u c inner T' -> Hu Hp].
  - exists (p ++ t ++ q), a. split; [constructor|]. split; [apply grounds_mono; exact Hg|exact Hs].
  - exists T', a. split; [|auto]. apply (peeks_quote _ (p ++ b) u (c ++ q) inner); [|exact Hu|exact Hp].
    rewrite <- !app_assoc. reflexivity.
Qed.

Lemma founded_right p t r : founded t r -> founded (p ++ t) r.
Proof. intros H. rewrite <- (app_nil_r t). apply founded_mono. exact H. Qed.

(** What the parser lists while a section is looked for is within a quote. *)
Definition firm (T : list str) (r : record) : Prop :=
  founded T r /\ (r_logger r = LParser -> Exists (fun l => is_explicit_block_quote_line l = true) T).

Lemma firm_right p t r : firm t r -> firm (p ++ t) r.
Proof.
  intros [H1 H2]. split; [apply founded_right; exact H1|]. intros H. apply Exists_app. right. auto.
Qed.

(** * The splitters *)

Definition sound (f : splitter_log) : Prop :=
  forall pre off lines, off <= length pre -> Forall (firm (pre ++ lines)) (fst (f off lines)).

Lemma sound_silent f : sound (silent f).
Proof. intros pre off lines _. constructor. Qed.

Lemma take_fenced_sound pre o body0 f off lines :
  opens o f -> Forall (fun l => ~ closes f l) body0 -> off <= length pre ->
  Forall (firm (pre ++ o :: body0 ++ lines))
    (fst (take_fenced_log f (get_indent o) (S (length body0)) off lines)).
Proof.
  intros Ho. revert body0. induction lines as [|l rest IH]; intros body0 Hb Hoff; [constructor|].
  cbn [take_fenced_log]. destruct (str_eqb (strip l) f) eqn:E.
  - apply Forall_lbind; [|intros; apply Forall_quietly]. destruct (3 + get_indent o <? get_indent l) eqn:Ei; [|constructor].
    apply Nat.ltb_lt in Ei. constructor; [|constructor]. split; [|discriminate]. right. exists (pre ++ o :: body0 ++ l :: rest), (OverIndented (S (length body0) + off + 1)).
    split; [constructor|]. apply (closes_strip _ _ _ Ho) in E. split.
    + exists (length pre + 1 + length body0 + 1). split; [|lia].
      exists pre, o, body0, l, rest, f, (get_indent o), (get_indent l). split; [reflexivity|]. split; [reflexivity|].
      split; [exact Ho|]. split; [exact E|]. split; [exact Hb|]. split; [apply indented_by_indent, (opens_not_blank _ _ Ho)|].
      split; [apply indented_by_indent, (closes_not_blank _ _ _ Ho E)|lia].
    + exists (decn (S (length body0) + off + 1)). split; [apply decn_number|reflexivity].
  - apply Forall_lbind; [|intros [x y] _; apply Forall_quietly].
    replace (S (S (length body0))) with (S (length (body0 ++ [l]))) by (rewrite app_length; cbn; lia).
    replace (pre ++ o :: body0 ++ l :: rest) with (pre ++ o :: (body0 ++ [l]) ++ rest)
      by (rewrite <- app_assoc; reflexivity).
    apply IH; [|exact Hoff]. apply Forall_app. split; [exact Hb|]. constructor; [|constructor].
    intros Hc. apply (closes_strip _ _ _ Ho) in Hc. congruence.
Qed.

Lemma sound_fenced : sound split_fenced_code_block_log.
Proof.
  intros pre off lines Hoff. unfold split_fenced_code_block_log. destruct lines as [|l rest]; [constructor|].
  destruct (full_fence l) as [f|] eqn:E; [|constructor]. apply full_fence_spec in E.
  apply Forall_lbind; [|intros [x y] _; apply Forall_quietly].
  apply (take_fenced_sound pre l [] f off rest E); [constructor|exact Hoff].
Qed.

Lemma sound_definition : sound split_link_reference_definition_log.
Proof.
  intros pre off lines _. unfold split_link_reference_definition_log. destruct lines as [|l gen]; [constructor|].
  destruct (4 <=? get_indent l) eqn:Ei; [constructor|]. apply Nat.leb_gt in Ei.
  destruct (rmatch _ _) as [e|] eqn:Ee; [|constructor]. assert (Hl := labelled_match _ _ Ei Ee).
  assert (G : split_max1 (skipn e (lstrip l)) = [] -> forall n, n <= 1 ->
    Forall (firm (pre ++ l :: gen)) [no_link_record n]).
  { intros En n Hn. constructor; [|constructor]. split; [|discriminate]. right. exists (pre ++ l :: gen), (NoLink n). split; [constructor|]. split.
    - exists (length pre + 1). split; [|lia]. exists pre, l, gen, (skipn e (lstrip l)). split; [reflexivity|]. split; [reflexivity|].
      split; [exact Hl|]. apply split_max1_nil in En. apply blank_spec in En. apply spaces_forallb. exact En.
    - exists (decn n). split; [apply decn_number|reflexivity]. }
  assert (Hlen := split_max1_len (skipn e (lstrip l))).
  destruct (split_max1 _) as [|x [|y [|z ?]]]; [..|cbn in Hlen; lia]; destruct gen as [|l1 gen1]; try apply Forall_nil.
  - apply (G eq_refl 0). lia.
  - destruct (startswith [c_lbr] l1 || blank l1); [apply (G eq_refl 1); lia|].
    destruct (split_max1 l1) as [|x1 [|y1 ?]]; try apply Forall_nil. destruct gen1; constructor.
Qed.

Lemma any_splits_sound fs pre off lines : Forall sound fs -> off <= length pre ->
  Forall (firm (pre ++ lines)) (fst (any_splits_log fs off lines)).
Proof.
  intros H Hoff. induction H as [|f fs Hf _ IH]; [constructor|]. cbn [any_splits_log].
  apply Forall_lbind; [apply Hf; exact Hoff|]. intros [s r] _. destruct (nilb s); [exact IH|constructor].
Qed.

Section WithBlockQuote.
  Variable sbq : splitter_log.
  Variable sbq' : splitter.
  Hypothesis same : erases sbq sbq'.
  Hypothesis sbq_lossless : lossless sbq'.
  Hypothesis sbq_sound : sound sbq.

  Lemma par_continuation_sound pre off lines : off <= length pre ->
    Forall (firm (pre ++ lines)) (fst (par_continuation_log sbq off lines)).
  Proof.
    intros Hoff. unfold par_continuation_log. apply Forall_lbind.
    - apply any_splits_sound; [|exact Hoff]. repeat apply Forall_cons; try apply Forall_nil; try apply sound_silent;
        [exact sbq_sound|apply sound_fenced].
    - intros b _. destruct b; [constructor|]. destruct lines; constructor.
  Qed.

  Lemma par_tail_sound pre off tail : off <= length pre ->
    Forall (firm (pre ++ tail)) (fst (par_tail_log sbq off tail)).
  Proof.
    revert pre off. induction tail as [|t rest IH]; intros pre off Hoff; [constructor|]. cbn [par_tail_log].
    apply Forall_lbind; [apply par_continuation_sound; exact Hoff|]. intros b _. destruct b; [|constructor].
    destruct (endswith _ t); [destruct rest; constructor|]. apply Forall_lbind; [|intros [? ?] _; constructor].
    specialize (IH (pre ++ [t]) (S off)). rewrite <- app_assoc in IH. apply IH. rewrite app_length. cbn. lia.
  Qed.

  Lemma sound_spis : sound (split_paragraph_ignoring_setext_log sbq).
  Proof.
    intros pre off lines Hoff. unfold split_paragraph_ignoring_setext_log. destruct lines as [|l rest]; [constructor|].
    destruct (is_paragraph_start_line l); [|constructor]. destruct (endswith _ l); [constructor|].
    apply Forall_lbind; [|intros [? ?] _; constructor].
    assert (H := par_tail_sound (pre ++ [l]) (off + 1) rest). rewrite <- app_assoc in H. apply H. rewrite app_length. cbn. lia.
  Qed.

  Lemma sound_paragraph : sound (split_paragraph_log sbq).
  Proof.
    intros pre off lines Hoff. unfold split_paragraph_log. apply Forall_lbind; [apply sound_spis; exact Hoff|].
    intros [p r] _. destruct r as [|x r]; [constructor|]. destruct (negb _); constructor.
  Qed.

  Lemma sound_setext : sound (split_setext_heading_log sbq).
  Proof.
    intros pre off lines Hoff. unfold split_setext_heading_log. apply Forall_lbind; [apply sound_spis; exact Hoff|].
    intros [p r] _. destruct r as [|x r]; [constructor|]. destruct (negb (nilb p) && _); constructor.
  Qed.

  Lemma bq_continuation_sound pre off lines : off <= length pre ->
    Forall (firm (pre ++ lines)) (fst (bq_continuation_log sbq off lines)).
  Proof.
    intros Hoff. unfold bq_continuation_log. apply Forall_lbind.
    - apply any_splits_sound; [|exact Hoff].
      assert (G : forall f, sound f -> sound (fun o l => redirect_log (f o l))) by (intros f H; exact H).
      cbn [map]. repeat apply Forall_cons; try apply Forall_nil; apply G; try apply sound_silent;
        [apply sound_fenced|apply sound_setext].
    - intros b _. destruct b; [constructor|]. destruct lines; constructor.
  Qed.

  Lemma bq_take_sound first pre off lines : off <= length pre ->
    Forall (firm (pre ++ lines)) (fst (bq_take_continuation_log sbq first off lines)).
  Proof.
    revert first pre off. induction lines as [|l rest IH]; intros first pre off Hoff; [constructor|].
    cbn [bq_take_continuation_log]. apply Forall_lbind; [apply bq_continuation_sound; exact Hoff|].
    intros b _. destruct b; [|constructor]. destruct (first && _ && _); [constructor|].
    apply Forall_lbind; [|intros [? ?] _; constructor].
    specialize (IH false (pre ++ [l]) (off + 1)). rewrite <- app_assoc in IH. apply IH. rewrite app_length. cbn. lia.
  Qed.

  Lemma bq_loop_sound ewp n pre off bq lines :
    (forall l, Forall (founded l) (fst (ewp l))) -> off <= length pre + length bq ->
    Forall (firm (pre ++ bq ++ lines)) (fst (bq_loop_log sbq ewp n off bq lines)).
  Proof.
    intros He. revert off bq lines. induction n as [|n IH]; intros off bq lines Hoff; destruct lines as [|l lines]; try (constructor; fail);
      cbn [bq_loop_log]; (destruct (negb _) eqn:En; [constructor|]); [constructor|].
    destruct (span is_explicit_block_quote_line (l :: lines)) as [run rem] eqn:Es.
    apply ProofsParser.span_spec in Es. destruct Es as [Es _]. rewrite Es.
    apply Forall_lbind.
    { eapply Forall_impl; [|apply He]. intros r Hr. split.
      - replace (pre ++ bq ++ run ++ rem) with (pre ++ (bq ++ run) ++ rem) by (rewrite <- !app_assoc; reflexivity).
        apply founded_mono. exact Hr.
      - intros _. rewrite <- Es. apply Exists_app. right. apply Exists_app. right. apply Exists_cons_hd.
        apply Bool.negb_false_iff. exact En. }
    intros b _. destruct b; [|constructor]. apply Forall_lbind.
    { assert (H := bq_take_sound true (pre ++ bq ++ run) off rem). rewrite <- !app_assoc in H. apply H. rewrite !app_length. lia. }
    intros [c r] Hc. rewrite (bq_take_snd _ _ same) in Hc. apply bq_take_continuation_ok in Hc; [|assumption..].
    destruct Hc as [-> _]. specialize (IH (off + length c) ((bq ++ run) ++ c) r).
    replace (pre ++ bq ++ run ++ c ++ r) with (pre ++ ((bq ++ run) ++ c) ++ r) by (rewrite <- !app_assoc; reflexivity).
    apply IH. rewrite !app_length. lia.
  Qed.

  Lemma sound_SPLITTERS : Forall (fun tf => sound (snd tf)) (SPLITTERS_log sbq).
  Proof.
    unfold SPLITTERS_log. repeat apply Forall_cons; try apply Forall_nil; cbn [fst snd];
      try apply sound_silent; [exact sbq_sound|apply sound_fenced|apply sound_definition|apply sound_paragraph|apply sound_setext].
  Qed.

  Lemma first_split_sound fs gs pre lines :
    Forall2 (fun x y => fst x = fst y /\ erases (snd x) (snd y)) fs gs ->
    Forall (fun tf => sound (snd tf)) fs -> Forall (fun tf => lossless (snd tf)) gs ->
    Forall (firm (pre ++ lines)) (fst (first_split_log fs lines)).
  Proof.
    intros H Hs Hl. revert Hs Hl. induction H as [|[ty f] [ty' g] fs gs [Ht Hf] _ IH]; intros Hs Hl; [constructor|].
    cbn in Ht, Hf. subst ty'. inversion Hs as [|? ? H1 H2]; subst. inversion Hl as [|? ? H3 H4]; subst. cbn [fst snd] in *.
    cbn [first_split_log]. apply Forall_lbind; [apply H1; lia|]. intros [c r] Hc. rewrite Hf in Hc.
    destruct c as [|x c]; [|constructor]. cbn [nilb]. apply lossless_nil in Hc; [|exact H3]. subst r. apply IH; assumption.
  Qed.

  Lemma parse_loop_sound n k pre lines :
    Forall (founded (pre ++ lines)) (fst (parse_loop_log sbq n k lines)).
  Proof.
    revert k pre lines. induction n as [|n IH]; intros k pre lines; destruct lines as [|l lines]; try (constructor; fail).
    cbn [parse_loop_log]. assert (HS := erases_SPLITTERS _ _ same). apply Forall_lbind.
    { apply (Forall_impl (P := firm (pre ++ l :: lines))); [intros r Hr; exact (proj1 Hr)|].
      eapply first_split_sound; [exact HS|apply sound_SPLITTERS|apply lossless_SPLITTERS; assumption]. }
    intros [[ty c] r] Hc. rewrite (first_split_snd _ _ _ HS) in Hc.
    apply first_split_ok in Hc; [|apply lossless_SPLITTERS; assumption].
    apply Forall_lbind; [constructor; [left; split; reflexivity|constructor]|]. intros _ _.
    apply Forall_lbind; [|intros; constructor].
    assert (E : l :: lines = c ++ r).
    { destruct Hc as (b & f & a & Ef & Hf & _). assert (Hl := lossless_SPLITTERS _ sbq_lossless). rewrite Ef in Hl.
      apply Forall_app in Hl. destruct Hl as [_ Hl]. inversion Hl as [|? ? H1 _]; subst. exact (H1 _ _ _ Hf). }
    rewrite E, app_assoc. apply IH.
  Qed.
End WithBlockQuote.

Lemma block_quote_sound lim :
  sound (split_block_quote_log lim) /\ forall l, Forall (founded l) (fst (bq_ends_with_paragraph_log lim l)).
Proof.
  induction lim as [|lim [IH1 IH2]]; [split; [intros ? ? ? ?|intros ?]; constructor|].
  destruct (block_quote_snd lim) as [E1 E2]. assert (L := proj1 (block_quote_contract lim)). split.
  - intros pre off lines Hoff. cbn [split_block_quote_log].
    apply (bq_loop_sound _ _ E1 IH1 _ (length lines) pre off [] lines IH2). lia.
  - intros l. cbn [bq_ends_with_paragraph_log].
    assert (Hu : Forall2 unmarked l (map strip_quote_marker l)).
    { induction l as [|x l IH]; constructor; [apply strip_quote_marker_spec|exact IH]. }
    assert (G : forall r, founded (map strip_quote_marker l) r -> founded l r).
    { intros r [H|(T' & a & Hp & H)]; [left; exact H|]. right. exists T', a. split; [|exact H].
      apply (peeks_quote l [] l [] (map strip_quote_marker l) T'); [cbn [app]; rewrite app_nil_r; reflexivity|exact Hu|exact Hp]. }
    apply Forall_lbind.
    + eapply Forall_impl; [exact G|]. exact (parse_loop_sound _ _ E1 L IH1 (length (map strip_quote_marker l)) 1 [] _).
    + intros secs Hs. rewrite snd_redirect, with_redirect_ok in Hs. unfold parse_with_log in Hs. rewrite (parse_loop_snd _ _ E1) in Hs.
      apply parse_loop_ok in Hs; [|exact L]. destruct Hs as [Hs _].
      destruct (rev secs) as [|[ty c] rest] eqn:Er; [constructor|]. destruct ty; try constructor.
      eapply Forall_impl; [|apply IH2]. intros r Hr. apply G. rewrite <- Hs.
      apply (f_equal (@rev _)) in Er. rewrite rev_involutive in Er. cbn [rev] in Er. rewrite Er, map_app, concat_app. cbn [map concat].
      apply founded_mono. exact Hr.
Qed.

Lemma parse_sound lim lines : Forall (founded lines) (fst (parse_markdown_log lim lines)).
Proof.
  destruct (block_quote_snd lim) as [E1 _]. assert (L := proj1 (block_quote_contract lim)).
  exact (parse_loop_sound _ _ E1 L (proj1 (block_quote_sound lim)) (length lines) 1 [] lines).
Qed.

Lemma founded_foreign T r : founded T r -> own r = false.
Proof.
  intros [[H _]|(T' & a & _ & _ & H)]; [unfold own; rewrite H; reflexivity|].
  destruct a as [n|n]; destruct H as (num & _ & ->); reflexivity.
Qed.

Lemma tracks_parse lim lines : tracks (quietly (parse_markdown lim lines)) (parse_markdown_log lim lines).
Proof.
  split; [symmetry; apply parse_snd|]. assert (H := parse_sound lim lines).
  induction H as [|r rs Hr _ IH]; [reflexivity|]. cbn [filter]. rewrite (founded_foreign _ _ Hr). exact IH.
Qed.

Lemma pass_tracks R lim info text w :
  tracks (reformat_pass_log R lim info text w) (reformat_pass_all R lim info text w).
Proof.
  revert info text w. induction lim as [|lim IH]; intros info text w; [apply tracks_quietly|].
  cbn [reformat_pass_log reformat_pass_all]. apply tracks_lbind; [apply tracks_parse|]. intros secs _.
  apply tracks_lbind; [apply tracks_build|]. intros fs _.
  assert (G : forall A (x y : logged A), tracks x y ->
    tracks (let '(rs, z) := x in (rs, pep479 z)) (let '(rs, z) := y in (rs, pep479 z))).
  { intros A [r1 z1] [r2 z2] [H1 H2]. cbn in H1, H2. subst. split; reflexivity. }
  apply tracks_lbind; [|intros; apply tracks_quietly]. apply G. apply tracks_mapL. intros [[ty i] ls].
  apply tracks_reformatted. intros l w'. apply IH.
Qed.

(** * Every section is listed, and its splitter's records are among the others *)

Definition by_parser (r : record) : bool := match r_logger r with LParser => true | _ => false end.

Lemma amid_app_skip {A} (x l l' : list A) : amid l l' -> amid l (x ++ l').
Proof. intros H. induction x as [|a x IH]; [exact H|]. apply amid_skip. exact IH. Qed.

Lemma section_span n k : 1 <= k ->
  span_text n k (if 1 <? k then lit "Lines " ++ decn n ++ [c_dash] ++ decn (n + k - 1) else lit "Line " ++ decn n).
Proof.
  intros H. destruct (1 <? k) eqn:E.
  - apply Nat.ltb_lt in E. right. split; [exact E|]. exists (decn n), (decn (n + k - 1)).
    split; [apply decn_number|]. split; [apply decn_number|]. reflexivity.
  - apply Nat.ltb_ge in E. left. split; [lia|]. exists (decn n). split; [apply decn_number|reflexivity].
Qed.

Lemma first_split_calls fs lines ty content rem :
  snd (first_split_log fs lines) = Ok ((ty, content), rem) ->
  Forall (fun tf => exists g, erases (snd tf) g /\ lossless g) fs ->
  exists f, In (ty, f) fs /\ snd (f 0 lines) = Ok (content, rem) /\ content <> []
    /\ incl (fst (f 0 lines)) (fst (first_split_log fs lines)).
Proof.
  induction fs as [|[ty' f] fs IH]; intros E H; [discriminate|]. inversion H as [|? ? (g & Hg & Hl) H2]; subst. cbn [snd] in Hg.
  cbn [first_split_log] in E |- *. rewrite snd_lbind in E. destruct (snd (f 0 lines)) as [[c r]|] eqn:Ef; [|discriminate].
  cbn [bind] in E. rewrite (fst_lbind_ok _ _ _ Ef). destruct c as [|x c]; cbn [nilb] in E |- *.
  - assert (r = lines) as -> by (rewrite Hg in Ef; eapply lossless_nil; eauto).
    destruct (IH E H2) as (f' & Hin & Hf & Hn & Hi). exists f'. split; [right; exact Hin|]. split; [exact Hf|]. split; [exact Hn|].
    intros z Hz. apply in_or_app. right. apply Hi, Hz.
  - cbn [quietly snd] in E. apply ok_inj in E. injection E as -> <- <-. exists f. split; [left; reflexivity|]. split; [exact Ef|].
    split; [discriminate|]. intros z Hz. apply in_or_app. left. exact Hz.
Qed.

Section WithBlockQuote2.
  Variable sbq : splitter_log.
  Variable sbq' : splitter.
  Hypothesis same : erases sbq sbq'.
  Hypothesis sbq_lossless : lossless sbq'.

  Lemma SPLITTERS_erase : Forall (fun tf => exists g, erases (snd tf) g /\ lossless g) (SPLITTERS_log sbq).
  Proof.
    assert (H := erases_SPLITTERS _ _ same). assert (L := lossless_SPLITTERS _ sbq_lossless).
    induction H as [|x y xs ys [_ Hx] _ IH]; [constructor|]. inversion L; subst. constructor; [eauto|]. apply IH. assumption.
  Qed.

  Lemma parse_loop_lists n k lines secs : snd (parse_loop_log sbq n k lines) = Ok secs ->
    exists rs, lists k secs rs /\ amid rs (fst (parse_loop_log sbq n k lines)).
  Proof.
    revert k lines secs. induction n as [|n IH]; intros k lines secs E; destruct lines as [|l lines]; try discriminate;
      try (apply ok_inj in E; subst secs; exists []; split; constructor).
    cbn [parse_loop_log] in E |- *. rewrite snd_lbind in E.
    destruct (snd (first_split_log (SPLITTERS_log sbq) (l :: lines))) as [[[ty c] r]|] eqn:Ef; [|discriminate].
    destruct (first_split_calls _ _ _ _ _ Ef SPLITTERS_erase) as (_ & _ & _ & Hn & _).
    cbn [bind] in E. rewrite (fst_lbind_ok _ _ _ Ef). rewrite snd_lbind in E. cbn [emit snd bind] in E.
    rewrite (fst_lbind_ok (emit _) _ tt eq_refl). rewrite snd_lbind in E.
    destruct (snd (parse_loop_log sbq n (k + length c) r)) as [rest|] eqn:Er; [|discriminate].
    rewrite (fst_lbind_ok _ _ _ Er). apply ok_inj in E. subst secs.
    destruct (IH _ _ _ Er) as (rs & Hr & Ha). eexists. split.
    - apply lists_cons; [|exact Hr]. apply section_span. destruct c; [congruence|cbn; lia].
    - apply amid_app_skip. cbn [emit fst app]. cbn [quietly fst]. rewrite app_nil_r. replace (called ty) with (type_name ty) by (destruct ty; reflexivity).
      apply amid_keep. exact Ha.
  Qed.

  (** Without quotes there is nothing else in the list. *)
  Lemma parse_loop_lists_only n k lines secs : sound sbq ->
    Forall (fun l => is_explicit_block_quote_line l = false) lines ->
    snd (parse_loop_log sbq n k lines) = Ok secs ->
    lists k secs (filter by_parser (fst (parse_loop_log sbq n k lines))).
  Proof.
    intros Hso. revert k lines secs. induction n as [|n IH]; intros k lines secs Hq E; destruct lines as [|l lines]; try discriminate;
      try (apply ok_inj in E; subst secs; constructor).
    cbn [parse_loop_log] in E |- *. rewrite snd_lbind in E.
    assert (HS := erases_SPLITTERS _ _ same).
    assert (Fs : Forall (firm ([] ++ l :: lines)) (fst (first_split_log (SPLITTERS_log sbq) (l :: lines)))).
    { eapply first_split_sound; [exact HS|apply sound_SPLITTERS; assumption|apply lossless_SPLITTERS; assumption]. }
    assert (N0 : filter by_parser (fst (first_split_log (SPLITTERS_log sbq) (l :: lines))) = []).
    { clear -Fs Hq. induction Fs as [|r rs [_ Hr] _ IH]; [reflexivity|]. cbn [filter]. rewrite IH. unfold by_parser.
      destruct (r_logger r); try reflexivity. exfalso. specialize (Hr eq_refl). apply Exists_exists in Hr.
      destruct Hr as (x & Hx & Ex). rewrite Forall_forall in Hq. rewrite (Hq _ Hx) in Ex. discriminate. }
    destruct (snd (first_split_log (SPLITTERS_log sbq) (l :: lines))) as [[[ty c] r]|] eqn:Ef; [|discriminate].
    destruct (first_split_calls _ _ _ _ _ Ef SPLITTERS_erase) as (_ & _ & _ & Hn & _).
    cbn [bind] in E. rewrite (fst_lbind_ok _ _ _ Ef). rewrite snd_lbind in E. cbn [emit snd bind] in E.
    rewrite (fst_lbind_ok (emit _) _ tt eq_refl). rewrite snd_lbind in E.
    destruct (snd (parse_loop_log sbq n (k + length c) r)) as [rest|] eqn:Er; [|discriminate].
    rewrite (fst_lbind_ok _ _ _ Er). apply ok_inj in E. subst secs.
    assert (Ec : l :: lines = c ++ r).
    { rewrite (first_split_snd _ _ _ HS) in Ef. apply first_split_ok in Ef; [|apply lossless_SPLITTERS; assumption].
      destruct Ef as (b & f & a & Ef & Hf & _). assert (Hl := lossless_SPLITTERS _ sbq_lossless). rewrite Ef in Hl.
      apply Forall_app in Hl. destruct Hl as [_ Hl]. inversion Hl as [|? ? H1 _]; subst. exact (H1 _ _ _ Hf). }
    rewrite Ec in Hq. apply Forall_app in Hq. destruct Hq as [_ Hq].
    rewrite filter_app, N0. cbn [emit fst app filter section_record by_parser r_logger quietly]. rewrite app_nil_r.
    replace (type_name ty) with (called ty) by (destruct ty; reflexivity). apply lists_cons; [|exact (IH _ _ _ Hq Er)].
    apply section_span. destruct c; [congruence|cbn; lia].
  Qed.

  Lemma parse_loop_calls n k lines before ty content after :
    snd (parse_loop_log sbq n k lines) = Ok (before ++ (ty, content) :: after) ->
    exists f, In (ty, f) (SPLITTERS_log sbq)
      /\ snd (f 0 (content ++ concat (map snd after))) = Ok (content, concat (map snd after)) /\ content <> []
      /\ incl (fst (f 0 (content ++ concat (map snd after)))) (fst (parse_loop_log sbq n k lines)).
  Proof.
    revert k lines before. induction n as [|n IH]; intros k lines before E; destruct lines as [|l lines]; try discriminate;
      try (apply ok_inj in E; destruct before; discriminate).
    cbn [parse_loop_log] in E |- *. rewrite snd_lbind in E.
    destruct (snd (first_split_log (SPLITTERS_log sbq) (l :: lines))) as [[[ty' c] r]|] eqn:Ef; [|discriminate].
    destruct (first_split_calls _ _ _ _ _ Ef SPLITTERS_erase) as (f & Hin & Hf & Hn & Hi).
    assert (El : l :: lines = c ++ r).
    { assert (H := SPLITTERS_erase). rewrite Forall_forall in H. destruct (H _ Hin) as (g & Hg & Hl). cbn [snd] in Hg.
      rewrite Hg in Hf. exact (Hl _ _ _ Hf). }
    cbn [bind] in E. rewrite (fst_lbind_ok _ _ _ Ef). rewrite snd_lbind in E. cbn [emit snd bind] in E.
    rewrite (fst_lbind_ok (emit _) _ tt eq_refl). rewrite snd_lbind in E.
    destruct (snd (parse_loop_log sbq n (k + length c) r)) as [rest|] eqn:Er; [|discriminate].
    rewrite (fst_lbind_ok _ _ _ Er). apply ok_inj in E. cbn [quietly fst emit]. rewrite app_nil_r.
    destruct before as [|b before]; cbn [app] in E.
    - injection E as -> -> ->.
      assert (Hr : concat (map snd after) = r).
      { rewrite (parse_loop_snd _ _ same) in Er. apply parse_loop_ok in Er; [|exact sbq_lossless]. apply Er. }
      rewrite Hr, <- El. exists f. split; [exact Hin|]. split; [exact Hf|]. split; [exact Hn|].
      intros z Hz. apply in_or_app. left. apply Hi, Hz.
    - injection E as _ ->. destruct (IH _ _ _ Er) as (f' & H1 & H2 & H3 & H4). exists f'. split; [exact H1|]. split; [exact H2|].
      split; [exact H3|]. intros z Hz. apply in_or_app. right. apply in_or_app. right. apply H4, Hz.
  Qed.
End WithBlockQuote2.

Lemma take_fenced_warns f i off body close after k : Forall (fun l => str_eqb (strip l) f = false) body ->
  str_eqb (strip close) f = true -> 3 + i < get_indent close ->
  fst (take_fenced_log f i k off (body ++ close :: after)) = [over_indented_record (k + length body + off + 1)].
Proof.
  intros Hb Hc Hi. revert k. induction Hb as [|l body Hl _ IH]; intros k; cbn [app take_fenced_log].
  - rewrite Hc. apply Nat.ltb_lt in Hi. rewrite Hi. cbn [lbind emit quietly fst app length]. rewrite Nat.add_0_r. reflexivity.
  - rewrite Hl. rewrite (fst_lbind_ok _ _ _ (take_fenced_snd _ _ _ _ _)), IH.
    destruct (take_fenced f (body ++ close :: after)). cbn [quietly fst app length]. replace (k + S (length body) + off + 1) with (S k + length body + off + 1) by lia. reflexivity.
Qed.

Lemma parse_fence_warned lim lines rs before o body c after fence i j :
  parse_markdown_log lim lines = (rs, Ok (before ++ (FENCED_CODE_BLOCK, o :: body ++ [c]) :: after)) ->
  opens o fence -> closes fence c -> indented_by i o -> indented_by j c -> i + 4 <= j ->
  exists r, In r rs /\ sounds (OverIndented (length (o :: body ++ [c]))) r.
Proof.
  intros E Ho Hc Hio Hjc Hij.
  assert (Hb : Forall (fun l => ~ closes fence l) body).
  { assert (Ep := parse_snd lim lines). rewrite E in Ep. cbn [snd] in Ep. symmetry in Ep. apply C12_fenced_code_extent in Ep.
    destruct Ep as (l & rest & fence' & Er & Ho' & H). injection Er as <- <-.
    assert (fence' = fence) as -> by (apply full_fence_spec in Ho, Ho'; congruence).
    destruct H as [(body' & c' & Eb & _ & H)|[_ H]].
    - apply app_inj_tail in Eb. destruct Eb as [-> _]. exact H.
    - apply Forall_app in H. destruct H as [_ H]. inversion H; subst. contradiction. } destruct (block_quote_snd lim) as [E1 _]. assert (L := proj1 (block_quote_contract lim)).
  unfold parse_markdown_log, parse_with_log in E.
  assert (Es := f_equal snd E). cbn [snd] in Es. destruct (parse_loop_calls _ _ E1 L _ _ _ _ _ _ _ Es) as (f & Hin & Hf & _ & Hi).
  rewrite E in Hi. cbn [fst] in Hi.
  assert (f = split_fenced_code_block_log) as ->.
  { cbn [SPLITTERS_log In] in Hin. repeat (destruct Hin as [Hin|Hin]; [first [discriminate|injection Hin as <-; reflexivity]|]). contradiction. }
  exists (over_indented_record (length (o :: body ++ [c]))). split.
  - apply Hi. unfold split_fenced_code_block_log. cbn [app]. apply full_fence_spec in Ho as Ho'. rewrite Ho'.
    rewrite (fst_lbind_ok _ _ _ (take_fenced_snd _ _ _ _ _)). rewrite <- app_assoc. cbn [app].
    rewrite take_fenced_warns.
    + destruct (take_fenced _ _). left. f_equal. cbn [length]. rewrite app_length. cbn. lia.
    + eapply Forall_impl; [|exact Hb]. intros l Hl. apply Bool.not_true_iff_false. intros E'. apply (closes_strip _ _ _ Ho) in E'. contradiction.
    + apply (closes_strip _ _ _ Ho). exact Hc.
    + rewrite (indented_by_fun _ _ _ (indented_by_indent _ (opens_not_blank _ _ Ho)) Hio).
      rewrite (indented_by_fun _ _ _ (indented_by_indent _ (closes_not_blank _ _ _ Ho Hc)) Hjc). lia.
  - eexists. split; [apply decn_number|reflexivity].
Qed.

Lemma lrd_close_index q index line gen c i b : lrd_close q index line gen c = (i, b) ->
  index <= i /\ (b = true -> c = true \/ index < i).
Proof.
  revert index line. induction gen as [|l gen IH]; intros index line; cbn [lrd_close];
    (destruct (closing_search _ _ _ _) as [e|]; [destruct (e =? _); intros H; injection H as <- <-; (split; [lia|]); intros; auto; right; lia|]).
  - intros H. injection H as <- <-. split; [lia|auto].
  - intros H. apply IH in H. split; [lia|]. intros Hb. destruct (proj2 H Hb); [auto|right; lia].
Qed.

Lemma lrd_finish_long x y lines index title gen c s r : lrd_finish (x :: y :: lines) index title gen c = (s, r) ->
  s <> [] -> (if c then 2 <= index else 1 <= index) -> 2 <= length s.
Proof.
  unfold lrd_finish. intros H Hn Hc.
  assert (G : exists i b, (i, b) = match title with
    | q :: title_rest =>
        if negb (blank title) && (N.eqb q c_squote || N.eqb q c_dquote)
        then lrd_close q index title_rest gen c else (index, c)
    | [] => (index, c) end /\ (b = true -> 2 <= i)).
  { assert (B : c = true -> 2 <= index) by (intros ->; exact Hc).
    destruct title as [|q t]; [exists index, c; auto|]. destruct (negb _ && _); [|exists index, c; auto].
    destruct (lrd_close q index t gen c) as [i b] eqn:E. apply lrd_close_index in E. destruct E as [E1 E2]. exists i, b. split; [reflexivity|].
    intros Hb. destruct (E2 Hb) as [->|Hi]; [lia|]. destruct c; lia. }
  destruct G as (i & b & Ei & Hi). rewrite <- Ei in H. destruct b; [|injection H as <- _; congruence].
  injection H as <- _. specialize (Hi eq_refl). destruct i as [|[|i]]; [lia..|]. cbn [firstn length]. lia.
Qed.

Lemma parse_definition_warned lim lines rs before l ws after :
  parse_markdown_log lim lines = (rs, Ok (before ++ (LINK_REFERENCE_DEFINITION, [l]) :: after)) ->
  labelled l ws -> spaces ws -> exists r, In r rs /\ sounds (NoLink (if nilb after then 0 else 1)) r.
Proof.
  intros E Hl Hw. destruct (block_quote_snd lim) as [E1 _]. assert (L := proj1 (block_quote_contract lim)).
  unfold parse_markdown_log, parse_with_log in E.
  assert (Es := f_equal snd E). cbn [snd] in Es. destruct (parse_loop_calls _ _ E1 L _ _ _ _ _ _ _ Es) as (f & Hin & Hf & _ & Hi).
  rewrite E in Hi. cbn [fst] in Hi.
  assert (f = split_link_reference_definition_log) as ->.
  { cbn [SPLITTERS_log In] in Hin. repeat (destruct Hin as [Hin|Hin]; [first [discriminate|injection Hin as <-; reflexivity]|]). contradiction. }
  assert (Hne : Forall (fun s => snd s <> []) (before ++ (LINK_REFERENCE_DEFINITION, [l]) :: after)).
  { rewrite (parse_loop_snd _ _ E1) in Es. apply parse_loop_ok in Es; [|exact L]. apply Es. }
  exists (no_link_record (if nilb after then 0 else 1)). split; [|eexists; split; [apply decn_number|reflexivity]].
  apply Hi. clear Hi. revert Hf. unfold split_link_reference_definition_log. cbn [app].
  destruct (labelled_split _ _ Hl) as (Hg & e & He & Hs). apply Nat.leb_gt in Hg. rewrite Hg, He, Hs.
  replace (split_max1 ws) with (@nil str) by (symmetry; apply split_max1_nil, blank_spec, spaces_forallb; exact Hw).
  destruct after as [|[ty' c'] after].
  - intros _. left. reflexivity.
  - cbn [nilb map concat snd]. apply Forall_app in Hne. destruct Hne as [_ Hne]. inversion Hne as [|? ? _ H2]; subst. inversion H2 as [|? ? H3 _]; subst. cbn [snd] in H3.
    destruct c' as [|l1 c']; [congruence|]. cbn [app].
    destruct (startswith [c_lbr] l1 || blank l1); [intros _; left; reflexivity|].
    assert (Hlen := split_max1_len l1). destruct (split_max1 l1) as [|x [|y z]]; [discriminate|..].
    + destruct (c' ++ concat (map snd after)) as [|l2 g] eqn:Eg; [discriminate|]. cbn [quietly snd].
      intros H. exfalso. apply ok_inj in H. apply lrd_finish_long in H; [cbn in H; lia|discriminate|lia].
    + cbn [quietly snd]. intros H. exfalso. apply ok_inj in H. apply lrd_finish_long in H; [cbn in H; lia|discriminate|lia].
Qed.

(** * A whole pass *)

(** A record by the formatters, or one by the parser about a text within the text. *)
Definition backed (T : list str) (r : record) : Prop :=
  own r = true \/ exists T', within T T' /\ founded T' r.

Lemma Forall_mapL {A B} (Q : record -> Prop) (f : A -> logged B) l :
  Forall (fun a => Forall Q (fst (f a))) l -> Forall Q (fst (mapL f l)).
Proof.
  induction 1 as [|a l H _ IH]; [constructor|]. cbn [mapL]. apply Forall_lbind; [exact H|]. intros b _.
  apply Forall_lbind; [exact IH|]. intros bs _. apply Forall_quietly.
Qed.

Lemma fst_redirect {A} (x : logged A) : fst (redirect_log x) = fst x.
Proof. destruct x as [rs y]. reflexivity. Qed.

Section Backed.
  Variable nested : list str -> width -> logged str.
  Hypothesis nested_backed : forall lines w, lines <> [] -> Forall one_line lines ->
    Forall (backed lines) (fst (nested lines w)).

  Lemma backed_entries lines ty content ds n w : section_of lines ty content ->
    ty = BULLET_LIST \/ ty = ORDERED_LIST -> Forall one_line content -> forall es,
    split_list content = Ok es -> dedent_entries es = Ok ds ->
    Forall (fun e => Forall (backed lines) (fst (nested e (width_sub w n)))) ds.
  Proof.
    intros Hs Hty Ho es Es Ed. destruct (inners_good _ _ _ Ho Es Ed) as ((Hc & _) & Hd & Hg).
    assert (G : forall pre es', concat (pre ++ es') = content -> forall ds', Forall2 dedented es' ds' ->
      Forall (fun e => e <> [] /\ Forall one_line e) ds' ->
      Forall (fun e => Forall (backed lines) (fst (nested e (width_sub w n)))) ds').
    { clear Es Ed Hc Hd Hg. intros pre es' Ec ds' Hd. revert pre Ec. induction Hd as [|e d es' ds' He _ IH]; intros pre Ec Hg; [constructor|].
      inversion Hg as [|? ? [Hn Hl] Hg']; subst. constructor.
      - eapply Forall_impl; [|apply nested_backed; assumption]. intros r [Hr|(T & W & F)]; [left; exact Hr|].
        right. exists T. split; [|exact F].
        eapply (within_entry _ _ _ (concat pre) e (concat es')); [exact Hs|exact Hty| |exact He|exact W].
        rewrite concat_app. reflexivity.
      - apply (IH (pre ++ [e])); [|exact Hg']. rewrite <- app_assoc. reflexivity. }
    exact (G [] es (proj1 Hc) ds Hd Hg).
  Qed.

  Lemma reformatted_backed lines ty i content w : section_of lines ty content -> Forall one_line lines ->
    Forall (backed lines) (fst (reformatted_log nested ty i content w)).
  Proof.
    intros Hs Hl. destruct (section_of_shape _ _ _ Hs Hl) as [Sh Ho].
    destruct ty; try apply Forall_quietly; cbn [reformatted_log].
    - unfold fmt_atx_heading_log. destruct content as [|l ls]; [constructor|].
      apply Forall_lbind; [|intros; apply Forall_quietly].
      destruct (startswith _ _); [constructor|]. repeat constructor.
    - unfold fmt_block_quote_log. apply Forall_lbind; [apply Forall_quietly|]. intros l0 _. cbv zeta.
      apply Forall_lbind; [|intros; apply Forall_quietly]. rewrite fst_redirect.
      match goal with |- Forall _ (fst (nested ?a ?b)) => change a with (quote_inner content); set (wd := b) end.
      destruct (quote_inner_quotes _ Sh) as (prefix & Q). destruct (quotes_derived _ _ _ Q) as (mid & D1 & D2).
      eapply Forall_impl; [|apply nested_backed].
      + intros r [Hr|(T & W & F)]; [left; exact Hr|]. right. exists T. split; [|exact F].
        eapply within_quote; [exact Hs|exact Q|exact W].
      + destruct Sh as (l & rest & -> & _). inversion D1; subst. inversion D2; subst. discriminate.
      + eapply derived_one_line; [exact D2|]. eapply derived_one_line; eassumption.
    - unfold fmt_bullet_list_log. apply Forall_lbind; [apply Forall_quietly|]. intros es Es.
      apply Forall_lbind; [apply Forall_quietly|]. intros ds Ed.
      apply Forall_lbind; [apply Forall_quietly|]. intros l0 _.
      apply Forall_lbind; [apply Forall_quietly|]. intros m _.
      apply Forall_lbind; [|intros; apply Forall_quietly]. apply Forall_mapL.
      eapply Forall_impl; [|eapply backed_entries; [exact Hs|left; reflexivity|exact Ho|exact Es|exact Ed]].
      intros e He. cbv beta. rewrite entry_fst. exact He.
    - unfold fmt_ordered_list_log. apply Forall_lbind; [apply Forall_quietly|]. intros es Es.
      apply Forall_lbind; [apply Forall_quietly|]. intros l0 _.
      apply Forall_lbind; [apply Forall_quietly|]. intros m _. cbv zeta.
      remember (length (dec (m + N.of_nat (length es) - 1)%N) + 2) as k eqn:Ek. clear Ek.
      apply Forall_lbind; [apply Forall_quietly|]. intros ds Ed.
      apply Forall_lbind; [|intros; apply Forall_quietly]. apply Forall_mapL.
      assert (B := backed_entries lines ORDERED_LIST content ds (Z.of_nat k) w Hs (or_intror eq_refl) Ho es Es Ed).
      clear -B. revert m. induction B as [|e ds He _ IH]; intros m; [constructor|]. cbn [enumerate]. constructor; [|apply IH].
      cbv beta. rewrite entry_fst. exact He.
  Qed.
End Backed.

Lemma pass_backed R lim info text w :
  Forall (backed (splitlines text)) (fst (reformat_pass_all R lim info text w)).
Proof.
  revert info text w. induction lim as [|lim IH]; intros info text w; [constructor|].
  cbn [reformat_pass_all]. apply Forall_lbind.
  { eapply Forall_impl; [|apply parse_sound]. intros r Hr. right. exists (splitlines text). split; [constructor|exact Hr]. }
  intros secs Ep. rewrite parse_snd in Ep. apply Forall_lbind.
  { assert (T := proj2 (tracks_build R info 0 None secs)).
    apply Forall_forall. intros r Hr. left. rewrite T in Hr. apply filter_In in Hr. apply Hr. }
  intros fs Eb. rewrite build_snd in Eb. cbv zeta. apply Forall_lbind; [|intros; apply Forall_quietly].
  match goal with |- context [mapL ?f fs] => set (g := f) end.
  assert (G : Forall (backed (splitlines text)) (fst (mapL g fs))).
  { apply Forall_mapL. apply Forall_forall. intros [[ty i] ls] Hin.
    apply (in_formatters _ _ _ _ _ _ _ Eb) in Hin. destruct Hin as [->|Hin]; [constructor|].
    unfold g. apply reformatted_backed; [|exists lim, secs; auto|apply splitlines_one_line].
    intros inner w' Hn Ho. assert (X := IH DEBUG (str_join [c_nl] inner ++ [c_nl]) w').
    rewrite splitlines_join in X by assumption. exact X. }
  destruct (mapL g fs) as [rs x]. exact G.
Qed.
