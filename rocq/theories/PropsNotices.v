(** C77 and C78: what the parser reports about a text. *)
From Coq Require Import String.
From Verif Require Import Py Regex Utils TextWrap Lines Detectors Formatters Logging Cli Records Notices Base
  SpecLines SpecParser SpecFormat SpecList SpecQuote SpecDefinition SpecErrors SpecWidth SpecRecords SpecNotices
  ProofsLines ProofsShapes ProofsParser ProofsPass ProofsLimit ProofsErrors ProofsRecords ProofsNotices ProofsAlarms
  ProofsPieces PropsParser PropsQuote PropsList PropsChars PropsRecords.
Local Open Scope nat_scope.

(** * C77 *)

(** The records that are shown are, without those by the parser, the ones of C75 and C76. *)
Lemma filter_swap {A} (f g : A -> bool) l : filter f (filter g l) = filter g (filter f l).
Proof.
  induction l as [|x l IH]; [reflexivity|]. cbn [filter].
  destruct (f x) eqn:Ef, (g x) eqn:Eg; cbn [filter]; rewrite ?Ef, ?Eg, IH; reflexivity.
Qed.

(** Whatever is reported, sections and result are those of the model without records, and the
    records by the formatters are those of C75 and C76. *)
Theorem C77_result : forall R lim lines info text w st,
  snd (parse_markdown_log lim lines) = parse_markdown lim lines
  /\ snd (reformat_pass_all R lim info text w) = reformat_pass lim text w
  /\ filter own (reformat_markdown_text_all R lim text w st)
     = reformat_markdown_text_shown R lim text w st.
Proof.
  intros R lim lines info text w st. split; [apply parse_snd|]. split; [apply pass_all_snd|].
  unfold reformat_markdown_text_all, reformat_markdown_text_shown.
  assert (T := pass_tracks R lim (info_const st) text w). destruct T as [T1 T2].
  destruct (reformat_pass_all R lim (info_const st) text w) as [rs x].
  destruct (reformat_pass_log R lim (info_const st) text w) as [rs' x']. cbn [fst snd] in *. subst rs' x'.
  destruct x as [t|e]; [|apply filter_swap]. cbv zeta. rewrite filter_app, filter_swap. f_equal.
  rewrite filter_swap. f_equal. symmetry. apply pass_tracks.
Qed.

(** The sections are listed at DEBUG, one record for each, in order, with type and lines. If no
    line begins a block quote, the parser lists nothing else. *)
Theorem C77_listed : forall lim lines rs secs,
  parse_markdown_log lim lines = (rs, Ok secs) ->
  concat (map snd secs) = lines
  /\ (exists listing, lists 1 secs listing /\ amid listing rs)
  /\ (Forall (fun l => ~ quote_line l) lines -> lists 1 secs (filter by_parser rs)).
Proof.
  intros lim lines rs secs E. assert (Ep := parse_snd lim lines). rewrite E in Ep. cbn [snd] in Ep. symmetry in Ep.
  split; [exact (proj1 (parse_markdown_lossless _ _ _ Ep))|].
  destruct (block_quote_snd lim) as [E1 _]. assert (L := proj1 (block_quote_contract lim)).
  unfold parse_markdown_log, parse_with_log in E.
  assert (Es := f_equal snd E). cbn [snd] in Es. assert (Ef := f_equal fst E). cbn [fst] in Ef.
  split.
  - destruct (parse_loop_lists _ _ E1 L _ _ _ _ Es) as (ls & H1 & H2). exists ls. rewrite Ef in H2. auto.
  - intros Hq. rewrite <- Ef. apply (parse_loop_lists_only _ _ E1 L); [exact (proj1 (block_quote_sound lim))| |exact Es].
    eapply Forall_impl; [|exact Hq]. intros l Hl. destruct (is_explicit_block_quote_line l) eqn:X; [|reflexivity].
    exfalso. apply Hl. apply quote_spec. exact X.
Qed.

(** The numbers in the warnings are right if the section is the first one: every closing fence
    that is indented too much is reported with its line in the section, *)
Theorem C77_fences : forall lim lines rs before first body last after fence i j,
  parse_markdown_log lim lines = (rs, Ok (before ++ (FENCED_CODE_BLOCK, first :: body ++ [last]) :: after)) ->
  opens first fence -> closes fence last -> indented_by i first -> indented_by j last -> i + 4 <= j ->
  exists r, In r rs /\ sounds (OverIndented (length (first :: body ++ [last]))) r.
Proof. intros. eapply parse_fence_warned; eassumption. Qed.

(** and every definition without a link is reported, as that on line 1, or on line 0 if it is
    the last line. *)
Theorem C77_definitions : forall lim lines rs before l ws after,
  parse_markdown_log lim lines = (rs, Ok (before ++ (LINK_REFERENCE_DEFINITION, [l]) :: after)) ->
  labelled l ws -> spaces ws ->
  exists r, In r rs /\ sounds (NoLink (match after with [] => 0 | _ => 1 end)) r.
Proof.
  intros lim lines rs before l ws after E H1 H2. destruct (parse_definition_warned _ _ _ _ _ _ _ E H1 H2) as (r & Hr & Hs).
  exists r. split; [exact Hr|]. destruct after; exact Hs.
Qed.

(** Every record by the parser is of the list of sections, or it is a warning with a reason in a
    text that the parser reads; the reason is at the line the warning names or further down. *)
Theorem C77_partial : forall lim lines r, In r (fst (parse_markdown_log lim lines)) ->
  (r_logger r = LParser /\ r_level r = DEBUG)
  \/ exists text a, peeks lines text /\ grounds text a /\ sounds a r.
Proof. intros lim lines r H. assert (S := parse_sound lim lines). rewrite Forall_forall in S. exact (S r H). Qed.

(** All the records of a pass: those by the formatters, and those by the parser about the
    document or a text within it. *)
Theorem C77_pass_partial : forall R lim info text w r, In r (fst (reformat_pass_all R lim info text w)) ->
  In r (fst (reformat_pass_log R lim info text w))
  \/ exists lines, within (splitlines text) lines
     /\ ((r_logger r = LParser /\ r_level r = DEBUG)
         \/ exists lines' a, peeks lines lines' /\ grounds lines' a /\ sounds a r).
Proof.
  intros R lim info text w r H. assert (S := pass_backed R lim info text w). rewrite Forall_forall in S.
  destruct (S r H) as [Ho|(T & W & F)]; [left|right; exists T; auto].
  rewrite (proj2 (pass_tracks R lim info text w)). apply filter_In. auto.
Qed.

(** If not even warnings are shown, nothing is. *)
Theorem C77_silent : forall R lim text w st,
  (info_const st <= INFO)%Z -> (WARNING < effective_level st)%Z -> (WARNING < inherited_level st)%Z ->
  reformat_markdown_text_all R lim text w st = [].
Proof.
  intros R lim text w st Hc He Hi.
  rewrite <- (C75_silent R lim text w st Hc He Hi). destruct (C77_result R lim [] DEBUG text w st) as (_ & _ & <-).
  symmetry. apply filter_all.
  assert (G : forall st' info t, inherited_level st' = inherited_level st ->
    Forall (fun r => own r = true) (filter (shown st') (fst (reformat_pass_all R lim info t w)))).
  { intros st' info t Es. apply Forall_forall. intros r Hr. apply filter_In in Hr. destruct Hr as [Hr Hs].
    assert (S := pass_backed R lim info t w). rewrite Forall_forall in S.
    destruct (S r Hr) as [Ho|(T & _ & F)]; [exact Ho|]. exfalso.
    assert (L : r_logger r <> LReformat /\ (r_level r <= WARNING)%Z).
    { destruct F as [[F1 F2]|(T' & a & _ & _ & F)]; [rewrite F1, F2; split; [discriminate|unfold DEBUG, WARNING; lia]|].
      destruct a as [n|n]; destruct F as (num & _ & ->); (split; [discriminate|cbn; lia]). }
    destruct L as [L1 L2]. unfold shown in Hs. rewrite Es in Hs.
    destruct (r_logger r); try congruence; apply Z.leb_le in Hs; lia. }
  unfold reformat_markdown_text_all. assert (G1 := G st (info_const st) text eq_refl).
  destruct (reformat_pass_all R lim (info_const st) text w) as [rs [t|e]]; cbn [fst] in G1; [|exact G1].
  cbv zeta. apply Forall_app. split; [exact G1|]. apply G. destruct (Z.ltb _ _); reflexivity.
Qed.

(** But the number need not be that of the line: the offset of the section is not added, *)
Theorem C77_refuted :
  ~ (forall lim lines rs secs r line, parse_markdown_log lim lines = (rs, Ok secs) -> In r rs ->
       (sounds (OverIndented line) r -> over_indented lines line)
       /\ (sounds (NoLink line) r -> lone_label lines line)).
Proof.
  intros H.
  specialize (H 5 [lit "a"; lit "```"; lit "b"; lit "    ```"] _ _ (over_indented_record 3) 3 eq_refl
    ltac:(vm_compute; tauto)). destruct H as [H _].
  destruct H as (before & open & body & close & after & fence & i & j & E & Hm & Ho & Hc & _).
  { exists (decn 3). split; [apply decn_number|reflexivity]. }
  assert (X : nth 2 [lit "a"; lit "```"; lit "b"; lit "    ```"] [] = close).
  { rewrite E. replace 2 with (length (before ++ open :: body)) by (rewrite app_length; cbn; lia).
    replace (before ++ open :: body ++ close :: after) with ((before ++ open :: body) ++ close :: after)
      by (rewrite <- app_assoc; reflexivity). rewrite app_nth2, Nat.sub_diag by lia. reflexivity. }
  cbn in X. subst close. destruct Hc as (ws & ws' & E' & _ & _).
  destruct Ho as (? & c & n & ? & _ & _ & _ & Hn & _ & ->).
  apply (f_equal (@length _)) in E'. rewrite !app_length, repeat_length in E'. cbn in E'. lia.
Qed.

(** one fence can be reported several times with different numbers, *)
Theorem C77_twice : exists lim lines rs secs r r',
  parse_markdown_log lim lines = (rs, Ok secs) /\ amid [r; r'] rs
  /\ sounds (OverIndented 4) r /\ sounds (OverIndented 3) r'
  /\ (forall m, over_indented lines m -> m = 4).
Proof.
  exists 5, [lit "a"; lit "```"; lit "b"; lit "    ```"]. eexists. eexists.
  exists (over_indented_record 4), (over_indented_record 3). split; [vm_compute; reflexivity|].
  split; [repeat (first [apply amid_nil|apply amid_keep|apply amid_skip])|].
  split; [exists (decn 4); split; [apply decn_number|reflexivity]|].
  split; [exists (decn 3); split; [apply decn_number|reflexivity]|].
  intros m (before & open & body & close & after & fence & i & j & E & -> & Ho & Hc & _ & _ & Hj & Hij).
  assert (Hlen := f_equal (@length _) E). repeat (rewrite ?app_length in Hlen; cbn [length] in Hlen).
  assert (X : nth (length before + 1 + length body) [lit "a"; lit "```"; lit "b"; lit "    ```"] [] = close).
  { rewrite E. replace (length before + 1 + length body) with (length (before ++ open :: body)) by (rewrite app_length; cbn; lia).
    replace (before ++ open :: body ++ close :: after) with ((before ++ open :: body) ++ close :: after)
      by (rewrite <- app_assoc; reflexivity). rewrite app_nth2, Nat.sub_diag by lia. reflexivity. }
  destruct Hj as (ws & c & t & Ec & Hw & Hlw & _). subst close.
  assert (K : length before + 1 + length body = 0 \/ length before + 1 + length body = 1
    \/ length before + 1 + length body = 2 \/ length before + 1 + length body = 3) by lia.
  destruct K as [K|[K|[K|K]]]; [lia| | |rewrite K; reflexivity]; exfalso; rewrite K in X; cbn in X;
    apply (f_equal (@length N)) in X; rewrite app_length in X; cbn in X; lia.
Qed.

(** and the line can be none of the text: here the label is on line 1. *)
Theorem C77_line_zero : exists lim lines rs secs r,
  parse_markdown_log lim lines = (rs, Ok secs) /\ In r rs /\ sounds (NoLink 0) r /\ lone_label lines 1.
Proof.
  exists 5, [lit "[a]:"]. eexists. eexists. exists (no_link_record 0). split; [vm_compute; reflexivity|].
  split; [left; reflexivity|]. split; [exists (decn 0); split; [apply decn_number|reflexivity]|].
  exists [], (lit "[a]:"), [], []. split; [reflexivity|]. split; [reflexivity|]. split; [|constructor].
  exists [], (lit "a"). split; [reflexivity|]. split; [constructor|]. split; [cbn; lia|].
  split; [repeat constructor; discriminate|cbn; lia].
Qed.

(** ** Examples *)

(** A fence that is indented too much, a definition without link, and a listing of sections. *)
Example C77_nonvacuous :
  parse_markdown_log 5 [lit "```"; lit "x"; lit "     ```"; lit "[a]:"; lit ""; lit "b"]
  = ([over_indented_record 3; section_record 1 FENCED_CODE_BLOCK 3; no_link_record 1;
      section_record 4 LINK_REFERENCE_DEFINITION 1; section_record 5 BLANK_LINE 1;
      section_record 6 PARAGRAPH 1],
     Ok [(FENCED_CODE_BLOCK, [lit "```"; lit "x"; lit "     ```"]); (LINK_REFERENCE_DEFINITION, [lit "[a]:"]);
         (BLANK_LINE, [[]]); (PARAGRAPH, [lit "b"])])
  /\ r_text (section_record 1 FENCED_CODE_BLOCK 3) = lit "Lines 1-3: Fenced Code Block"
  /\ opens (lit "```") (lit "```") /\ closes (lit "```") (lit "     ```")
  /\ indented_by 0 (lit "```") /\ indented_by 5 (lit "     ```")
  /\ labelled (lit "[a]:") [] /\ Forall (fun l => ~ quote_line l) [lit "b"].
Proof.
  split; [vm_compute; reflexivity|]. split; [reflexivity|].
  split. { exists [], c_bt, 3, []. split; [reflexivity|]. split; [constructor|]. split; [left; reflexivity|]. split; [lia|]. split; [discriminate|reflexivity]. }
  split. { exists (lit "     "), []. split; [reflexivity|]. split; [|constructor]. repeat constructor. }
  split. { exists [], c_bt, (lit "``"). repeat split. constructor. }
  split. { exists (lit "     "), c_bt, (lit "``"). repeat split. repeat constructor. }
  split.
  { exists [], (lit "a"). split; [reflexivity|]. split; [constructor|]. split; [cbn; lia|].
    split; [repeat constructor; discriminate|cbn; lia]. }
  constructor; [|constructor]. rewrite <- quote_spec. discriminate.
Qed.

(** Within a quote the parser lists sections as well. *)
Example C77_quote :
  let '(rs, x) := parse_markdown_log 5 [lit "> # a"; lit "> b"] in
  map r_text rs = [lit "Line 1: ATX Heading"; lit "Line 2: Paragraph"; lit "Lines 1-2: Block Quote"]
  /\ x = Ok [(BLOCK_QUOTE, [lit "> # a"; lit "> b"])].
Proof. vm_compute. split; reflexivity. Qed.

(** * C78 *)

Lemma suspect_gt l : suspect (c_gt :: l) -> suspect l.
Proof.
  intros [(p & ws & c & r & E & Hw & Hl & Hc)|(p & ws & E & Hw)].
  - destruct p as [|x p].
    + destruct ws as [|w ws]; [discriminate|]. cbn in E. injection E as <- _. inversion Hw as [|? ? Hw' _]; subst. discriminate.
    + cbn in E. injection E as _ ->. left. exists p, ws, c, r. auto.
  - destruct p as [|x p]; [discriminate|]. cbn [app] in E. injection E as _ ->. right. exists p, ws. auto.
Qed.

Lemma suspect_derived l l' : derived l l' -> suspect l' -> suspect l.
Proof.
  intros [(q & ->)|(d & ->)] H.
  - destruct H as [(p & ws & c & r & -> & H)|(p & ws & -> & H)].
    + left. exists (q ++ p), ws, c, r. rewrite <- app_assoc. auto.
    + right. exists (q ++ p), ws. rewrite <- app_assoc. auto.
  - induction d as [|d IH]; [exact H|]. apply IH. apply suspect_gt. exact H.
Qed.

Lemma innocent_derived ls ls' : Forall2 derived ls ls' ->
  Forall (fun l => ~ suspect l) ls -> Forall (fun l => ~ suspect l) ls'.
Proof.
  induction 1 as [|l l' ls ls' Hl _ IH]; intros H; [constructor|]. inversion H; subst.
  constructor; [|auto]. intros S. apply (suspect_derived _ _ Hl) in S. contradiction.
Qed.

Lemma innocent_section lines ty content : section_of lines ty content ->
  Forall (fun l => ~ suspect l) lines -> Forall (fun l => ~ suspect l) content.
Proof.
  intros (lim & secs & Ep & Hin) H. destruct (parse_markdown_lossless _ _ _ Ep) as [<- _].
  rewrite Forall_concat in H. rewrite Forall_forall in H. apply H. apply (in_map snd) in Hin. exact Hin.
Qed.

Lemma innocent_within lines lines' : within lines lines' ->
  Forall (fun l => ~ suspect l) lines -> Forall (fun l => ~ suspect l) lines'.
Proof.
  induction 1 as [|lines content inner prefix lines' S Q _ IH|lines ty content a entry b inner lines' S Ty Ec D _ IH]; intros H.
  - exact H.
  - apply IH. destruct (quotes_derived _ _ _ Q) as (mid & D1 & D2). eapply innocent_derived; [exact D2|].
    eapply innocent_derived; [exact D1|]. eapply innocent_section; eassumption.
  - apply IH. eapply innocent_derived; [apply dedented_derived; exact D|]. apply (innocent_section _ _ _ S) in H.
    subst content. apply Forall_app in H. destruct H as [_ H]. apply Forall_app in H. apply H.
Qed.

Lemma innocent_peeks lines lines' : peeks lines lines' ->
  Forall (fun l => ~ suspect l) lines -> Forall (fun l => ~ suspect l) lines'.
Proof.
  induction 1 as [|text before quote after inner text' -> U _ IH]; intros H; [exact H|]. apply IH.
  apply Forall_app in H. destruct H as [_ H]. apply Forall_app in H. destruct H as [H _].
  eapply innocent_derived; [|exact H]. clear -U. induction U; constructor; [apply unmarked_derived|]; assumption.
Qed.

Lemma innocent_grounds lines a : Forall (fun l => ~ suspect l) lines -> ~ grounds lines a.
Proof.
  intros H G. rewrite Forall_forall in H. destruct a as [n|n].
  - destruct G as (m & (before & open & body & close & after & fence & i & j & -> & _ & Ho & Hc & _ & _ & Hj & Hij) & _).
    apply (H close). { apply in_or_app. right. right. apply in_or_app. right. left. reflexivity. }
    destruct Ho as (_ & c & k & _ & _ & _ & Hin & Hk & _ & ->). destruct Hc as (ws & ws' & -> & Hw & Hw').
    assert (Hsp : is_space c = false) by (destruct Hin as [<-|[<-|[]]]; reflexivity).
    assert (Hlen : length ws = j).
    { destruct Hj as (vs & d & r & E & Hv & <- & Hd). destruct k as [|k]; [lia|]. cbn [repeat app] in E. clear -E Hw Hv Hd Hsp.
      revert vs E Hv. induction Hw as [|x ws Hx Hw IH]; intros vs E Hv; destruct Hv as [|y vs Hy Hv]; cbn [app] in E.
      - reflexivity.
      - injection E as -> _. congruence.
      - injection E as -> _. congruence.
      - injection E as _ E. cbn. f_equal. exact (IH _ E Hv). }
    left. exists (firstn (length ws - 4) ws), (skipn (length ws - 4) ws), c, (repeat c (k - 3) ++ ws').
    split.
    + rewrite (app_assoc (firstn _ _)), firstn_skipn. replace k with (3 + (k - 3)) at 1 by lia. rewrite repeat_app, <- app_assoc. reflexivity.
    + split; [|split; [rewrite skipn_length; lia|exact Hin]]. rewrite <- (firstn_skipn (length ws - 4) ws) in Hw.
      apply Forall_app in Hw. apply Hw.
  - destruct G as (m & (before & l & after & ws & -> & _ & (ws0 & label & -> & _) & Hs) & _).
    apply (H (ws0 ++ c_lbr :: label ++ c_rbr :: c_colon :: ws)). { apply in_or_app. right. left. reflexivity. }
    right. exists (ws0 ++ c_lbr :: label), ws. split; [|exact Hs]. rewrite <- app_assoc. reflexivity.
Qed.

(** The lines of a text with whitespace after it. *)
Inductive padded : list str -> list str -> Prop :=
| padded_none : padded [] [[]]
| padded_last l v more : spaces v -> Forall spaces more -> padded ((l ++ v) :: more) [l]
| padded_cons l ls ls' : padded ls ls' -> padded (l :: ls) (l :: ls').

Lemma splitlines_padded s ws : spaces ws -> padded (splitlines (s ++ ws)) (splitlines (s ++ [c_nl])).
Proof.
  intros Hw. induction s as [|c s IH IH2] using splitlines_ind_aux.
  - cbn [app]. change (splitlines [c_nl]) with [@nil char]. assert (F := Forall_splitlines _ _ Hw).
    destruct (splitlines ws) as [|l ls]; [constructor|]. inversion F; subst. apply (padded_last [] l ls); assumption.
  - cbn [app splitlines]. destruct (is_linebreak c).
    + destruct s as [|d s].
      * cbn [app]. change (c_nl) with 10%N. cbn [app]. destruct (N.eqb c c_cr && N.eqb 10 c_nl) eqn:E.
        -- destruct ws as [|x ws]; [apply (padded_last [] [] []); constructor|].
           assert (F := Forall_splitlines _ _ Hw). inversion Hw as [|? ? Hx Hw']; subst. assert (F' := Forall_splitlines _ _ Hw').
           destruct ((c =? 13)%N && (x =? 10)%N); apply (padded_last [] []); try apply Forall_nil; assumption.
        -- destruct ws as [|x ws].
           ++ change (splitlines [10%N]) with [@nil char]. apply padded_cons. constructor.
           ++ replace (N.eqb c c_cr) with false by (destruct (N.eqb c c_cr); [discriminate|reflexivity]). cbn [andb].
              apply padded_cons. exact IH.
      * cbn [app]. destruct (_ && _); apply padded_cons; [exact (IH2 d s eq_refl)|exact IH].
    + inversion IH as [E1 E2|l v more Hv Hm E1 E2|l ls ls' H E1 E2].
      * apply (padded_last [c] [] []); constructor.
      * apply (padded_last (c :: l) v more); assumption.
      * apply padded_cons. exact H.
Qed.

Lemma suspect_space l x : is_space x = true -> suspect (l ++ [x]) -> suspect l.
Proof.
  intros Hx [(p & ws & c & r & E & H)|(p & ws & E & Hw)].
  - left. destruct (rev r) as [|y r'] eqn:Er.
    + apply (f_equal (@rev _)) in Er. rewrite rev_involutive in Er. subst r. exfalso. rewrite app_nil_r in E.
      replace (p ++ ws ++ repeat c 3) with ((p ++ ws ++ [c; c]) ++ [c]) in E by (rewrite <- !app_assoc; reflexivity).
      apply app_inj_tail in E. destruct E as [_ ->]. destruct H as (_ & _ & [<-|[<-|[]]]); discriminate.
    + apply (f_equal (@rev _)) in Er. rewrite rev_involutive in Er. cbn [rev] in Er. subst r. exists p, ws, c, (rev r').
      split; [|exact H]. replace (p ++ ws ++ repeat c 3 ++ rev r' ++ [y]) with ((p ++ ws ++ repeat c 3 ++ rev r') ++ [y]) in E
        by (rewrite <- !app_assoc; reflexivity). apply app_inj_tail in E. apply E.
  - right. destruct (rev ws) as [|y r'] eqn:Er.
    + apply (f_equal (@rev _)) in Er. rewrite rev_involutive in Er. subst ws. exfalso. rewrite app_nil_r in E.
      change (lit "]:") with ([c_rbr] ++ [c_colon]) in E. rewrite app_assoc in E. apply app_inj_tail in E. destruct E as [_ ->]. discriminate.
    + apply (f_equal (@rev _)) in Er. rewrite rev_involutive in Er. cbn [rev] in Er. subst ws. exists p, (rev r').
      apply Forall_app in Hw. split; [|apply Hw]. replace (p ++ lit "]:" ++ rev r' ++ [y]) with ((p ++ lit "]:" ++ rev r') ++ [y]) in E
        by (rewrite <- !app_assoc; reflexivity). apply app_inj_tail in E. apply E.
Qed.

Lemma suspect_padded l v : spaces v -> suspect (l ++ v) -> suspect l.
Proof.
  revert l. induction v as [|x v IH] using rev_ind; intros l Hv H; [rewrite app_nil_r in H; exact H|].
  apply Forall_app in Hv. destruct Hv as [Hv Hx]. inversion Hx; subst. apply (IH l Hv).
  apply (suspect_space _ x); [assumption|]. rewrite <- app_assoc. exact H.
Qed.

Lemma innocent_padded s ws : spaces ws -> Forall (fun l => ~ suspect l) (splitlines (s ++ [c_nl])) ->
  Forall (fun l => ~ suspect l) (splitlines (s ++ ws)).
Proof.
  intros Hw. assert (P := splitlines_padded s ws Hw). revert P. generalize (splitlines (s ++ ws)), (splitlines (s ++ [c_nl])).
  intros a b P. induction P as [|l v more Hv Hm|l ls ls' _ IH]; intros H.
  - constructor.
  - constructor.
    + intros S. apply (suspect_padded _ _ Hv) in S. inversion H; contradiction.
    + eapply Forall_impl; [|exact Hm]. intros m Hb S. apply (suspect_padded [] m Hb) in S.
      destruct S as [(p & u & c & r & E & _)|(p & u & E & _)]; apply (f_equal (@length _)) in E; rewrite !app_length in E; cbn in E; lia.
  - inversion H; subst. constructor; auto.
Qed.

(** No false alarms: if no line has a fence after four whitespace characters, and none ends in a
    bracket and a colon, the parser does not warn, *)
Theorem C78_parser : forall lim lines, Forall (fun l => ~ suspect l) lines ->
  Forall (fun r => r_logger r = LParser /\ r_level r = DEBUG) (fst (parse_markdown_log lim lines)).
Proof.
  intros lim lines H. eapply Forall_impl; [|apply (parse_sound lim lines)].
  intros r [Hr|(T & a & P & G & _)]; [exact Hr|]. exfalso. exact (innocent_grounds _ _ (innocent_peeks _ _ P H) G).
Qed.

(** neither about the document nor about the texts within it, *)
Theorem C78_pass : forall R lim info text w, Forall (fun l => ~ suspect l) (splitlines text) ->
  Forall (fun r => (r_logger r = LParser /\ r_level r = DEBUG)
                   \/ In r (fst (reformat_pass_log R lim info text w)))
         (fst (reformat_pass_all R lim info text w)).
Proof.
  intros R lim info text w H. apply Forall_forall. intros r Hr.
  destruct (C77_pass_partial _ _ _ _ _ _ Hr) as [Ho|(T & W & [Hp|(T' & a & P & G & _)])]; [right; exact Ho|left; exact Hp|].
  exfalso. exact (innocent_grounds _ _ (innocent_peeks _ _ P (innocent_within _ _ W H)) G).
Qed.

(** and the warnings of a run that are shown are those of C76, if that holds of the document and
    of the result. *)
Theorem C78_run : forall R lim text w st out,
  reformat_markdown_text lim text w = Ok out ->
  Forall (fun l => ~ suspect l) (splitlines text) -> Forall (fun l => ~ suspect l) (splitlines out) ->
  filter (fun r => Z.eqb (r_level r) WARNING) (reformat_markdown_text_all R lim text w st)
  = filter (fun r => Z.eqb (r_level r) WARNING) (reformat_markdown_text_shown R lim text w st).
Proof.
  intros R lim text w st out E H1 H2.
  destruct (C77_result R lim [] DEBUG text w st) as (_ & _ & <-).
  assert (G : forall info t, Forall (fun l => ~ suspect l) (splitlines t) ->
    Forall (fun r => r_level r = WARNING -> own r = true) (fst (reformat_pass_all R lim info t w))).
  { intros info t Ht. apply Forall_forall. intros r Hr E'.
    destruct (C77_pass_partial _ _ _ _ _ _ Hr) as [Ho|(T & W & [Hp|(T' & a & P & Gr & _)])].
    - rewrite (proj2 (pass_tracks R lim info t w)) in Ho. apply filter_In in Ho. apply Ho.
    - destruct Hp as [_ Hp]. rewrite Hp in E'. discriminate.
    - exfalso. exact (innocent_grounds _ _ (innocent_peeks _ _ P (innocent_within _ _ W Ht)) Gr). }
  assert (K : Forall (fun r => r_level r = WARNING -> own r = true) (reformat_markdown_text_all R lim text w st)).
  { unfold reformat_markdown_text_all. destruct (reformat_ok_pass _ _ _ _ E) as (t & E1 & E2 & Eo).
    assert (Es := pass_all_snd R lim (info_const st) text w). assert (G1 := G (info_const st) text H1).
    destruct (reformat_pass_all R lim (info_const st) text w) as [rs x]. cbn [fst snd] in *. subst x. rewrite E1.
    assert (F : forall st rs, Forall (fun r => r_level r = WARNING -> own r = true) rs ->
      Forall (fun r => r_level r = WARNING -> own r = true) (filter (shown st) rs)).
    { intros s l Hl. apply Forall_forall. intros r Hr. apply filter_In in Hr. rewrite Forall_forall in Hl. apply Hl. apply Hr. }
    cbv zeta. apply Forall_app. split; apply F; [exact G1|]. apply G.
    subst out. destruct (rstrip_by_spec is_space t) as (ws & Et & Hs). rewrite Et. apply innocent_padded; [apply spaces_forallb; exact Hs|exact H2]. }
  clear -K. induction K as [|r rs Hr _ IH]; [reflexivity|]. cbn [filter].
  destruct (Z.eqb_spec (r_level r) WARNING) as [El|El].
  - rewrite (Hr El). cbn [filter]. rewrite (proj2 (Z.eqb_eq _ _) El). f_equal. exact IH.
  - destruct (own r); [|exact IH]. cbn [filter]. rewrite (proj2 (Z.eqb_neq _ _) El). exact IH.
Qed.

(** ** Examples *)

Fixpoint suspectb (l : str) : bool :=
  forallb is_space (firstn 4 l)
    && (str_eqb (firstn 3 (skipn 4 l)) (lit "~~~") || str_eqb (firstn 3 (skipn 4 l)) (repeat c_bt 3))
  || str_eqb (firstn 2 l) (lit "]:") && forallb is_space (skipn 2 l)
  || match l with [] => false | _ :: l' => suspectb l' end.

Lemma suspect_dec l : suspectb l = false -> ~ suspect l.
Proof.
  intros E [(p & ws & c & r & -> & Hw & Hl & Hc)|(p & ws & -> & Hw)]; revert E; apply Bool.not_false_iff_true.
  - induction p as [|x p IH]; [|cbn [app suspectb]; rewrite IH; apply Bool.orb_true_r].
    cbn [app]. apply spaces_forallb in Hw. do 5 (destruct ws as [|? ws]; try discriminate Hl).
    cbn in Hw |- *. rewrite Hw. destruct Hc as [<-|[<-|[]]]; reflexivity.
  - induction p as [|x p IH]; [|cbn [app suspectb]; rewrite IH; apply Bool.orb_true_r].
    apply spaces_forallb in Hw. cbn. rewrite Hw. reflexivity.
Qed.

Lemma innocent_dec ls : forallb (fun l => negb (suspectb l)) ls = true -> Forall (fun l => ~ suspect l) ls.
Proof.
  intros H. rewrite forallb_forall in H. apply Forall_forall. intros l Hl. apply suspect_dec.
  apply Bool.negb_true_iff. exact (H l Hl).
Qed.

(** A document with fences, one of them indented, and a definition. *)
Example C78_nonvacuous :
  let text := str_join [c_nl] [lit "   ~~~"; lit "x"; lit "  ~~~"; lit "[a]: b"; lit "> - c";
                               lit ">   ~~~"; lit ">   ~~~"] in
  exists out, reformat_markdown_text 9 text (WInt 88) = Ok out
    /\ Forall (fun l => ~ suspect l) (splitlines text) /\ Forall (fun l => ~ suspect l) (splitlines out)
    /\ filter (fun r => Z.eqb (r_level r) WARNING)
         (reformat_markdown_text_all quoted 9 text (WInt 88) (LogState 0 DEBUG INFO)) = [].
Proof.
  cbv zeta. eexists. split; [vm_compute; reflexivity|].
  split; [apply innocent_dec; vm_compute; reflexivity|].
  split; [apply innocent_dec; vm_compute; reflexivity|]. vm_compute. reflexivity.
Qed.

(** What the formatter for headings does not do (C76) the parser does: it warns of the result as
    well, even if only warnings are shown. *)
Example C77_again :
  map r_text (reformat_markdown_text_all quoted 9 (lit "[a]:") (WInt 88) (LogState 0 WARNING INFO))
  = [r_text (no_link_record 0); r_text (no_link_record 0)].
Proof. vm_compute. reflexivity. Qed.
